(** * One-loop thermal integrands in the zero-momentum limit
    (qcd-sme/src/low_level/oneloop/thermal/zero_momentum.rs, module [inlines]) *)
From Coq Require Import Reals.
From Coquelicot Require Import Coquelicot.
From Verif Require Import Num MCommon MThermal.
Open Scope R_scope.
Open Scope num_scope.

(* thermal/zero_momentum.rs 270-272 *)
Definition zp_r_0 {T1 : Type} {NT1 : Num T1} {T2 : Type} {NT2 : Num T2} {T3 : Type} {NT3 : Num T3} (om : T1) (en : T2) (delta : T3) : C :=
  ((toC (om * om)) + ((toC om) * ((toC (en * (ofR 2))) * Ci))) + (toC delta).

(* thermal/zero_momentum.rs 275-277 *)
Definition zp_r_0_same_mass {T1 : Type} {NT1 : Num T1} {T2 : Type} {NT2 : Num T2} (om : T1) (en : T2) : C :=
  (toC (om * om)) + ((toC om) * ((toC (en * (ofR 2))) * Ci)).

(* thermal/zero_momentum.rs 280-293 *)
Definition zp_i_m_m_i {T1 : Type} {NT1 : Num T1} {T2 : Type} {NT2 : Num T2} {T3 : Type} {NT3 : Num T3} (q : R) (om : T1) (m1 : T2) (m2 : T3) (beta : R) : C :=
  let en1 := energy q m1 in
  let en2 := energy q m2 in
  let delta := (toC (m2 * m2)) - (toC (m1 * m1)) in
  let om2 := om * om in
  let omi2 := ((toC om) * Ci) * (toC 2) in
  let r01p_inv := ninv (((toC om2) + ((toC en1) * omi2)) + delta) in
  let r01m_inv := ninv (((toC om2) - ((toC en1) * omi2)) + delta) in
  let r02p_inv := ninv (((toC om2) + ((toC en2) * omi2)) - delta) in
  let r02m_inv := ninv (((toC om2) - ((toC en2) * omi2)) - delta) in
  let t1 := (toC ((bose_distribution_zero_chempot en1 beta) / en1)) * (r01p_inv + r01m_inv) in
  let t2 := (toC ((bose_distribution_zero_chempot en2 beta) / en2)) * (r02p_inv + r02m_inv) in
  (((t1 + t2) * (toC q)) * (toC q)) / (toC (4 * PI2)).

(* thermal/zero_momentum.rs 296-303 *)
Definition zp_i_m_m_i_same_mass {T1 : Type} {NT1 : Num T1} {T2 : Type} {NT2 : Num T2} (q : R) (om : T1) (m : T2) (beta : R) : C :=
  let en1 := energy q m in
  let om2 := om * om in
  let omi2 := ((toC om) * Ci) * (toC 2) in
  let r01p_inv := ninv ((toC om2) + ((toC en1) * omi2)) in
  let r01m_inv := ninv ((toC om2) - ((toC en1) * omi2)) in
  ((((toC ((bose_distribution_zero_chempot en1 beta) / en1)) * (r01p_inv + r01m_inv)) * (toC q)) * (toC q)) / (toC (2 * PI2)).

(* thermal/zero_momentum.rs 306-318 *)
Definition zp_i_m_0_i {T1 : Type} {NT1 : Num T1} {T2 : Type} {NT2 : Num T2} (q : R) (om : T1) (m : T2) (beta : R) : C :=
  let en1 := energy q m in
  let delta := (- m) * m in
  let om2 := om * om in
  let omi2 := ((toC om) * Ci) * (toC 2) in
  let r01p_inv := ninv ((toC delta) + ((toC om2) + ((toC en1) * omi2))) in
  let r01m_inv := ninv ((toC delta) + ((toC om2) - ((toC en1) * omi2))) in
  let r02p_inv := ninv ((toC (- delta)) + ((toC om2) + ((toC q) * omi2))) in
  let r02m_inv := ninv ((toC (- delta)) + ((toC om2) - ((toC q) * omi2))) in
  let t1 := (toC (((bose_distribution_zero_chempot en1 beta) * (ofR q)) / en1)) * (r01p_inv + r01m_inv) in
  let t2 := (toC (bose_distribution_zero_chempot q beta)) * (r02p_inv + r02m_inv) in
  ((t1 + t2) * (toC q)) / (toC (4 * PI2)).

(* thermal/zero_momentum.rs 321-327 *)
Definition zp_i_0_0_i {T : Type} {NT : Num T} (q : R) (om : T) (beta : R) : C :=
  let om2 := om * om in
  let omi2 := ((toC om) * Ci) * (toC 2) in
  let r01p_inv := ninv ((toC om2) + ((toC q) * omi2)) in
  let r01m_inv := ninv ((toC om2) - ((toC q) * omi2)) in
  (((toC (bose_distribution_zero_chempot q beta)) * (r01p_inv + r01m_inv)) * (toC q)) / (toC (2 * PI2)).

(* thermal/zero_momentum.rs 330-344 *)
Definition zp_i_m_m_l_i {T1 : Type} {NT1 : Num T1} {T2 : Type} {NT2 : Num T2} {T3 : Type} {NT3 : Num T3} (q : R) (om : T1) (m1 : T2) (m2 : T3) (beta : R) : C :=
  let en1 := energy q m1 in
  let en2 := energy q m2 in
  let delta := (toC (m2 * m2)) - (toC (m1 * m1)) in
  let q4 := ((q * q) * q) * q in
  let om2 := om * om in
  let omi2 := ((toC om) * Ci) * (toC 2) in
  let r01p_inv := ninv (((toC om2) + ((toC en1) * omi2)) + delta) in
  let r01m_inv := ninv (((toC om2) - ((toC en1) * omi2)) + delta) in
  let r02p_inv := ninv (((toC om2) + ((toC en2) * omi2)) - delta) in
  let r02m_inv := ninv (((toC om2) - ((toC en2) * omi2)) - delta) in
  let t1 := (toC ((bose_distribution_zero_chempot en1 beta) / en1)) * (r01p_inv + r01m_inv) in
  let t2 := (toC ((bose_distribution_zero_chempot en2 beta) / en2)) * (r02p_inv + r02m_inv) in
  (toC ((ninv (12 * PI2)) * q4)) * (t1 + t2).

(* thermal/zero_momentum.rs 347-358 *)
Definition zp_i_m_m_l_i_same_mass {T1 : Type} {NT1 : Num T1} {T2 : Type} {NT2 : Num T2} (q : R) (om : T1) (m : T2) (beta : R) : C :=
  let en1 := energy q m in
  let q4 := ((q * q) * q) * q in
  let om2 := om * om in
  let omi2 := ((toC om) * Ci) * (toC 2) in
  let r01p_inv := ninv ((toC om2) + ((toC en1) * omi2)) in
  let r01m_inv := ninv ((toC om2) - ((toC en1) * omi2)) in
  (toC (((ninv ((en1 * (ofR 6)) * (ofR PI2))) * (bose_distribution_zero_chempot en1 beta)) * (ofR q4))) * (r01p_inv + r01m_inv).

(* thermal/zero_momentum.rs 361-374 *)
Definition zp_i_m_0_l_i {T1 : Type} {NT1 : Num T1} {T2 : Type} {NT2 : Num T2} (q : R) (om : T1) (m : T2) (beta : R) : C :=
  let en1 := energy q m in
  let delta := (- m) * m in
  let q3 := (q * q) * q in
  let om2 := om * om in
  let omi2 := ((toC om) * Ci) * (toC 2) in
  let r01p_inv := ninv ((toC delta) + ((toC om2) + ((toC en1) * omi2))) in
  let r01m_inv := ninv ((toC delta) + ((toC om2) - ((toC en1) * omi2))) in
  let r02p_inv := ninv ((toC (- delta)) + ((toC om2) + ((toC q) * omi2))) in
  let r02m_inv := ninv ((toC (- delta)) + ((toC om2) - ((toC q) * omi2))) in
  let t1 := (toC (((bose_distribution_zero_chempot en1 beta) * (ofR q)) / en1)) * (r01p_inv + r01m_inv) in
  let t2 := (toC (bose_distribution_zero_chempot q beta)) * (r02p_inv + r02m_inv) in
  (toC ((ninv (12 * PI2)) * q3)) * (t1 + t2).

(* thermal/zero_momentum.rs 377-384 *)
Definition zp_i_0_0_l_i {T : Type} {NT : Num T} (q : R) (om : T) (beta : R) : C :=
  let q3 := (q * q) * q in
  let om2 := om * om in
  let omi2 := ((toC om) * Ci) * (toC 2) in
  let r01p_inv := ninv ((toC om2) + ((toC q) * omi2)) in
  let r01m_inv := ninv ((toC om2) - ((toC q) * omi2)) in
  (((toC (bose_distribution_zero_chempot q beta)) * (r01p_inv + r01m_inv)) * (toC q3)) / (toC (6 * PI2)).

(* thermal/zero_momentum.rs 387-389 *)
Definition zp_i_m_m_t_i {T1 : Type} {NT1 : Num T1} {T2 : Type} {NT2 : Num T2} {T3 : Type} {NT3 : Num T3} (q : R) (om : T1) (m1 : T2) (m2 : T3) (beta : R) : C :=
  zp_i_m_m_l_i q om m1 m2 beta.

(* thermal/zero_momentum.rs 392-394 *)
Definition zp_i_m_m_t_i_same_mass {T1 : Type} {NT1 : Num T1} {T2 : Type} {NT2 : Num T2} (q : R) (om : T1) (m : T2) (beta : R) : C :=
  zp_i_m_m_l_i_same_mass q om m beta.

(* thermal/zero_momentum.rs 397-399 *)
Definition zp_i_m_0_t_i {T1 : Type} {NT1 : Num T1} {T2 : Type} {NT2 : Num T2} (q : R) (om : T1) (m : T2) (beta : R) : C :=
  zp_i_m_0_l_i q om m beta.

(* thermal/zero_momentum.rs 402-404 *)
Definition zp_i_0_0_t_i {T : Type} {NT : Num T} (q : R) (om : T) (beta : R) : C :=
  zp_i_0_0_l_i q om beta.

(* thermal/zero_momentum.rs 407-421 *)
Definition zp_d_i_m_m_i {T1 : Type} {NT1 : Num T1} {T2 : Type} {NT2 : Num T2} {T3 : Type} {NT3 : Num T3} (q : R) (om : T1) (m1 : T2) (m2 : T3) (beta : R) : C :=
  let delta := (toC (m2 * m2)) - (toC (m1 * m1)) in
  let en1 := energy q m1 in
  let en2 := energy q m2 in
  let r01_inv := ninv (zp_r_0 om en1 delta) in
  let r01_opp_inv := ninv (zp_r_0 (- om) en1 delta) in
  let r02_inv := ninv (zp_r_0 om en2 (- delta)) in
  let r02_opp_inv := ninv (zp_r_0 (- om) en2 (- delta)) in
  let b1 := bose_distribution_zero_chempot en1 beta in
  let b2 := bose_distribution_zero_chempot en2 beta in
  let t10 := (toC (b1 / en1)) * (r01_inv + r01_opp_inv) in
  let t1 := (toC (b1 / en1)) * ((r01_inv * r01_inv) + (r01_opp_inv * r01_opp_inv)) in
  let t2 := (toC (b2 / en2)) * ((r02_inv * r02_inv) + (r02_opp_inv * r02_opp_inv)) in
  ((- t10) + ((((t1 - t2) * (toC q)) * (toC q)) * (toC 2))) / (toC (8 * PI2)).

(* thermal/zero_momentum.rs 424-429 *)
Definition zp_d_i_m_m_i_same_mass {T1 : Type} {NT1 : Num T1} {T2 : Type} {NT2 : Num T2} (q : R) (om : T1) (m : T2) (beta : R) : C :=
  let en := energy q m in
  let r0_inv := ninv (zp_r_0_same_mass om en) in
  let r0_opp_inv := ninv (zp_r_0_same_mass (- om) en) in
  (toC ((- (bose_distribution_zero_chempot en beta)) * (ninv ((en * (ofR 8)) * (ofR PI2))))) * (r0_inv + r0_opp_inv).

(* thermal/zero_momentum.rs 432-445 *)
Definition zp_d_i_m_0_i {T1 : Type} {NT1 : Num T1} {T2 : Type} {NT2 : Num T2} (q : R) (om : T1) (m : T2) (beta : R) : C :=
  let delta := (- m) * m in
  let en1 := energy q m in
  let r01_inv := ninv (zp_r_0 om en1 delta) in
  let r01_opp_inv := ninv (zp_r_0 (- om) en1 delta) in
  let r02_inv := ninv (zp_r_0 om q (- delta)) in
  let r02_opp_inv := ninv (zp_r_0 (- om) q (- delta)) in
  let b1 := bose_distribution_zero_chempot en1 beta in
  let b2 := bose_distribution_zero_chempot q beta in
  let t10 := (toC (b1 / en1)) * (r01_inv + r01_opp_inv) in
  let t1 := (toC ((b1 * (ofR q)) / en1)) * ((r01_inv * r01_inv) + (r01_opp_inv * r01_opp_inv)) in
  let t2 := (toC b2) * ((r02_inv * r02_inv) + (r02_opp_inv * r02_opp_inv)) in
  ((- t10) + (((t1 - t2) * (toC q)) * (toC 2))) / (toC (8 * PI2)).

(* thermal/zero_momentum.rs 448-453 *)
Definition zp_d_i_0_0_i {T : Type} {NT : Num T} (q : R) (om : T) (beta : R) : C :=
  let r0_inv := ninv (zp_r_0_same_mass om q) in
  let r0_opp_inv := ninv (zp_r_0_same_mass (- om) q) in
  let b1 := bose_distribution_zero_chempot q beta in
  ((toC (- b1)) * (r0_inv + r0_opp_inv)) / (toC ((q * 8) * PI2)).

(* thermal/zero_momentum.rs 456-471 *)
Definition zp_d_i_m_m_l_i {T1 : Type} {NT1 : Num T1} {T2 : Type} {NT2 : Num T2} {T3 : Type} {NT3 : Num T3} (q : R) (om : T1) (m1 : T2) (m2 : T3) (beta : R) : C :=
  let q2 := q * q in
  let delta := (toC (m2 * m2)) - (toC (m1 * m1)) in
  let en1 := energy q m1 in
  let en2 := energy q m2 in
  let r01_inv := ninv (zp_r_0 om en1 delta) in
  let r01_opp_inv := ninv (zp_r_0 (- om) en1 delta) in
  let r02_inv := ninv (zp_r_0 om en2 (- delta)) in
  let r02_opp_inv := ninv (zp_r_0 (- om) en2 (- delta)) in
  let b1 := bose_distribution_zero_chempot en1 beta in
  let b2 := bose_distribution_zero_chempot en2 beta in
  let t10 := (toC (b1 / en1)) * (r01_inv + r01_opp_inv) in
  let t1 := (toC (b1 / en1)) * ((r01_inv * r01_inv) + (r01_opp_inv * r01_opp_inv)) in
  let t2 := (toC (b2 / en2)) * ((r02_inv * r02_inv) + (r02_opp_inv * r02_opp_inv)) in
  (((- t10) + ((((t1 - t2) * (toC q2)) * (toC 2)) / (toC 3))) * (toC q2)) / (toC (8 * PI2)).

(* thermal/zero_momentum.rs 474-483 *)
Definition zp_d_i_m_m_l_i_same_mass {T1 : Type} {NT1 : Num T1} {T2 : Type} {NT2 : Num T2} (q : R) (om : T1) (m : T2) (beta : R) : C :=
  let q2 := q * q in
  let en := energy q m in
  let r0_inv := ninv (zp_r_0_same_mass om en) in
  let r0_opp_inv := ninv (zp_r_0_same_mass (- om) en) in
  ((toC ((- (bose_distribution_zero_chempot en beta)) * (ninv ((en * (ofR 8)) * (ofR PI2))))) * (r0_inv + r0_opp_inv)) * (toC q2).

(* thermal/zero_momentum.rs 486-500 *)
Definition zp_d_i_m_0_l_i {T1 : Type} {NT1 : Num T1} {T2 : Type} {NT2 : Num T2} (q : R) (om : T1) (m : T2) (beta : R) : C :=
  let q2 := q * q in
  let delta := (- m) * m in
  let en := energy q m in
  let r01_inv := ninv (zp_r_0 om en delta) in
  let r01_opp_inv := ninv (zp_r_0 (- om) en delta) in
  let r02_inv := ninv (zp_r_0 om q (- delta)) in
  let r02_opp_inv := ninv (zp_r_0 (- om) q (- delta)) in
  let b1 := bose_distribution_zero_chempot en beta in
  let b2 := bose_distribution_zero_chempot q beta in
  let t10 := (toC (b1 / en)) * (r01_inv + r01_opp_inv) in
  let t1 := (toC ((b1 * (ofR q)) / en)) * ((r01_inv * r01_inv) + (r01_opp_inv * r01_opp_inv)) in
  let t2 := (toC b2) * ((r02_inv * r02_inv) + (r02_opp_inv * r02_opp_inv)) in
  (((- t10) + ((((t1 - t2) * (toC q)) * (toC 2)) / (toC 3))) * (toC q2)) / (toC (8 * PI2)).

(* thermal/zero_momentum.rs 503-507 *)
Definition zp_d_i_0_0_l_i {T : Type} {NT : Num T} (q : R) (om : T) (beta : R) : C :=
  let r0_inv := ninv (zp_r_0_same_mass om q) in
  let r0_opp_inv := ninv (zp_r_0_same_mass (- om) q) in
  ((toC ((- (bose_distribution_zero_chempot q beta)) * (ninv (8 * PI2)))) * (r0_inv + r0_opp_inv)) * (toC q).

(* thermal/zero_momentum.rs 510-512 *)
Definition zp_d_i_m_m_t_i {T1 : Type} {NT1 : Num T1} {T2 : Type} {NT2 : Num T2} {T3 : Type} {NT3 : Num T3} (q : R) (om : T1) (m1 : T2) (m2 : T3) (beta : R) : C :=
  zp_d_i_m_m_l_i q om m1 m2 beta.

(* thermal/zero_momentum.rs 515-517 *)
Definition zp_d_i_m_m_t_i_same_mass {T1 : Type} {NT1 : Num T1} {T2 : Type} {NT2 : Num T2} (q : R) (om : T1) (m : T2) (beta : R) : C :=
  zp_d_i_m_m_l_i_same_mass q om m beta.

(* thermal/zero_momentum.rs 520-522 *)
Definition zp_d_i_m_0_t_i {T1 : Type} {NT1 : Num T1} {T2 : Type} {NT2 : Num T2} (q : R) (om : T1) (m : T2) (beta : R) : C :=
  zp_d_i_m_0_l_i q om m beta.

(* thermal/zero_momentum.rs 525-527 *)
Definition zp_d_i_0_0_t_i {T : Type} {NT : Num T} (q : R) (om : T) (beta : R) : C :=
  zp_d_i_0_0_l_i q om beta.
