(** * One-loop thermal integrands in the zero-Matsubara limit
    (qcd-sme/src/low_level/oneloop/thermal/zero_matsubara.rs, module [inlines]) *)
From Coq Require Import Reals.
From Coquelicot Require Import Coquelicot.
From Verif Require Import Num MCommon MThermal.
Open Scope R_scope.
Open Scope num_scope.

(* thermal/zero_matsubara.rs 328-330 *)
Definition zm_r_0 {T : Type} {NT : Num T} (p : R) (delta : T) : T :=
  delta + (ofR (p * p)).

(* thermal/zero_matsubara.rs 339-344 *)
Definition zm_tlog {T : Type} {NT : Num T} (q : R) (p : R) (delta : T) : C :=
  let r_0v := zm_r_0 p delta in
  let q2p := (q * 2) * p in
  let rat := (r_0v + (ofR q2p)) / (r_0v - (ofR q2p)) in
  (nln (toC (rat * rat))) / (toC 2).

(* thermal/zero_matsubara.rs 347-350 *)
Definition zm_tlog_same_mass (q : R) (p : R) : R :=
  let rat := (2 * q + p) / (2 * (- q) + p) in
  (nln (rat * rat)) / 2.

(* thermal/zero_matsubara.rs 353-355 *)
Definition zm_tlog_zero_mass (q : R) (p : R) : R :=
  zm_tlog_same_mass q p.

(* thermal/zero_matsubara.rs 358-362 *)
Definition zm_tlog_t {T : Type} {NT : Num T} (q : R) (p : R) (delta : T) : C :=
  let r0 := zm_r_0 p delta in
  let q2p := (q * 2) * p in
  (toC ((r0 + (ofR q2p)) * (r0 - (ofR q2p)))) * (zm_tlog q p delta).

(* thermal/zero_matsubara.rs 365-367 *)
Definition zm_tlog_t_same_mass (q : R) (p : R) : R :=
  (((p * p) * (2 * q + p)) * (2 * (- q) + p)) * (zm_tlog_same_mass q p).

(* thermal/zero_matsubara.rs 370-372 *)
Definition zm_tlog_t_zero_mass (q : R) (p : R) : R :=
  zm_tlog_t_same_mass q p.

(* thermal/zero_matsubara.rs 375-382 *)
Definition zm_i_m_m_i {T1 : Type} {NT1 : Num T1} {T2 : Type} {NT2 : Num T2} (q : R) (p : R) (m1 : T1) (m2 : T2) (beta : R) : C :=
  let en1 := energy q m1 in
  let en2 := energy q m2 in
  let delta := (toC (m2 * m2)) - (toC (m1 * m1)) in
  let t1 := (toC ((bose_distribution_zero_chempot en1 beta) / en1)) * (zm_tlog q p delta) in
  let t2 := (toC ((bose_distribution_zero_chempot en2 beta) / en2)) * (zm_tlog q p (- delta)) in
  ((t1 + t2) * (toC q)) / (toC ((p * 8) * PI2)).

(* thermal/zero_matsubara.rs 385-389 *)
Definition zm_i_m_m_i_same_mass {T : Type} {NT : Num T} (q : R) (p : R) (m : T) (beta : R) : T :=
  let en := energy q m in
  let t := ((bose_distribution_zero_chempot en beta) / en) * (ofR (zm_tlog_same_mass q p)) in
  (t * (ofR q)) / (ofR ((p * 4) * PI2)).

(* thermal/zero_matsubara.rs 392-398 *)
Definition zm_i_m_0_i {T : Type} {NT : Num T} (q : R) (p : R) (m : T) (beta : R) : C :=
  let en := energy q m in
  let delta := (- m) * m in
  let t1 := (toC (((bose_distribution_zero_chempot en beta) * (ofR q)) / en)) * (zm_tlog q p delta) in
  let t2 := (toC (bose_distribution_zero_chempot q beta)) * (zm_tlog q p (- delta)) in
  (t1 + t2) / (toC ((p * 8) * PI2)).

(* thermal/zero_matsubara.rs 401-403 *)
Definition zm_i_0_0_i (q : R) (p : R) (beta : R) : R :=
  ((bose_distribution_zero_chempot q beta) * (zm_tlog_zero_mass q p)) / ((p * 4) * PI2).

(* thermal/zero_matsubara.rs 406-413 *)
Definition zm_i_m_m_l_i {T1 : Type} {NT1 : Num T1} {T2 : Type} {NT2 : Num T2} (q : R) (p : R) (m1 : T1) (m2 : T2) (beta : R) : C :=
  let en1 := energy q m1 in
  let en2 := energy q m2 in
  let delta := (toC (m2 * m2)) - (toC (m1 * m1)) in
  ((toC (- q)) * (((toC ((bose_distribution_zero_chempot en1 beta) * en1)) * (zm_tlog q p delta)) + ((toC ((bose_distribution_zero_chempot en2 beta) * en2)) * (zm_tlog q p (- delta))))) / (toC ((p * 8) * PI2)).

(* thermal/zero_matsubara.rs 416-419 *)
Definition zm_i_m_m_l_i_same_mass {T : Type} {NT : Num T} (q : R) (p : R) (m : T) (beta : R) : T :=
  let en := energy q m in
  ((((- (bose_distribution_zero_chempot en beta)) * en) * (ofR q)) * (ofR (zm_tlog_same_mass q p))) / (ofR ((p * 4) * PI2)).

(* thermal/zero_matsubara.rs 422-428 *)
Definition zm_i_m_0_l_i {T : Type} {NT : Num T} (q : R) (p : R) (m : T) (beta : R) : C :=
  let en := energy q m in
  let delta := (- m) * m in
  ((toC (- q)) * (((toC ((bose_distribution_zero_chempot en beta) * en)) * (zm_tlog q p delta)) + ((toC ((bose_distribution_zero_chempot q beta) * q)) * (zm_tlog q p (- delta))))) / (toC ((p * 8) * PI2)).

(* thermal/zero_matsubara.rs 431-433 *)
Definition zm_i_0_0_l_i (q : R) (p : R) (beta : R) : R :=
  ((((- (bose_distribution_zero_chempot q beta)) * q) * q) * (zm_tlog_same_mass q p)) / ((p * 4) * PI2).

(* thermal/zero_matsubara.rs 436-448 *)
Definition zm_i_m_m_t_i {T1 : Type} {NT1 : Num T1} {T2 : Type} {NT2 : Num T2} (q : R) (p : R) (m1 : T1) (m2 : T2) (beta : R) : C :=
  let en1 := energy q m1 in
  let en2 := energy q m2 in
  let delta := (toC (m2 * m2)) - (toC (m1 * m1)) in
  let qp := q * p in
  let p2 := p * p in
  let p3 := p2 * p in
  let t1 := (toC ((bose_distribution_zero_chempot en1 beta) / en1)) * ((zm_tlog_t q p delta) - ((toC (4 * qp)) * ((toC p2) + delta))) in
  let t2 := (toC ((bose_distribution_zero_chempot en2 beta) / en2)) * ((zm_tlog_t q p (- delta)) - ((toC (4 * qp)) * ((toC p2) - delta))) in
  (toC ((- (ninv ((p3 * 64) * PI2))) * q)) * (t1 + t2).

(* thermal/zero_matsubara.rs 451-459 *)
Definition zm_i_m_m_t_i_same_mass {T : Type} {NT : Num T} (q : R) (p : R) (m : T) (beta : R) : T :=
  let en := energy q m in
  let qp := q * p in
  let p2 := p * p in
  let p3 := p2 * p in
  let t := ((bose_distribution_zero_chempot en beta) / en) * (ofR (((- p2) * 4) * qp + (zm_tlog_t_same_mass q p))) in
  ((- t) * (ofR q)) / (ofR ((p3 * 32) * PI2)).

(* thermal/zero_matsubara.rs 462-473 *)
Definition zm_i_m_0_t_i {T : Type} {NT : Num T} (q : R) (p : R) (m : T) (beta : R) : C :=
  let en := energy q m in
  let delta := - (toC (m * m)) in
  let qp := q * p in
  let p2 := p * p in
  let p3 := p2 * p in
  let t1 := (toC (((bose_distribution_zero_chempot en beta) * (ofR q)) / en)) * ((zm_tlog_t q p delta) - ((toC (4 * qp)) * ((toC p2) + delta))) in
  let t2 := (toC (bose_distribution_zero_chempot q beta)) * ((zm_tlog_t q p (- delta)) - ((toC (4 * qp)) * ((toC p2) - delta))) in
  (toC (- (ninv ((p3 * 64) * PI2)))) * (t1 + t2).

(* thermal/zero_matsubara.rs 476-483 *)
Definition zm_i_0_0_t_i (q : R) (p : R) (beta : R) : R :=
  let qp := q * p in
  let p2 := p * p in
  let p3 := p2 * p in
  let t := (bose_distribution_zero_chempot q beta) * (((- p2) * 4) * qp + (zm_tlog_t_zero_mass q p)) in
  (- t) / ((p3 * 32) * PI2).

(* thermal/zero_matsubara.rs 486-503 *)
Definition zm_d_i_m_m_i {T1 : Type} {NT1 : Num T1} {T2 : Type} {NT2 : Num T2} (q : R) (p : R) (m1 : T1) (m2 : T2) (beta : R) : C :=
  let q2p := (q * p) * 2 in
  let delta := (toC (m2 * m2)) - (toC (m1 * m1)) in
  let en1 := energy q m1 in
  let en2 := energy q m2 in
  let r01 := zm_r_0 p delta in
  let r02 := zm_r_0 p (- delta) in
  let r1pinv := ninv (r01 + (toC q2p)) in
  let r1minv := ninv (r01 - (toC q2p)) in
  let r2pinv := ninv (r02 + (toC q2p)) in
  let r2minv := ninv (r02 - (toC q2p)) in
  let b1 := bose_distribution_zero_chempot en1 beta in
  let b2 := bose_distribution_zero_chempot en2 beta in
  let t10 := (toC (b1 / en1)) * (r1pinv + r1minv) in
  let t1 := (toC (b1 / en1)) * (r1pinv - r1minv) in
  let t2 := (toC (b2 / en2)) * (r2pinv - r2minv) in
  ((- t10) + (((t2 - t1) * (toC q)) / (toC p))) / (toC (8 * PI2)).

(* thermal/zero_matsubara.rs 506-511 *)
Definition zm_d_i_m_m_i_same_mass {T : Type} {NT : Num T} (q : R) (p : R) (m : T) (beta : R) : T :=
  let en := energy q m in
  let rpinv := ninv (2 * q + p) in
  let rminv := ninv (2 * (- q) + p) in
  ((- (bose_distribution_zero_chempot en beta)) * (ninv (((en * (ofR p)) * (ofR 8)) * (ofR PI2)))) * (ofR (rpinv + rminv)).

(* thermal/zero_matsubara.rs 514-530 *)
Definition zm_d_i_m_0_i {T : Type} {NT : Num T} (q : R) (p : R) (m : T) (beta : R) : T :=
  let q2p := (q * p) * 2 in
  let delta := (- m) * m in
  let en := energy q m in
  let r01 := zm_r_0 p delta in
  let r02 := zm_r_0 p (- delta) in
  let r1pinv := ninv (r01 + (ofR q2p)) in
  let r1minv := ninv (r01 - (ofR q2p)) in
  let r2pinv := ninv (r02 + (ofR q2p)) in
  let r2minv := ninv (r02 - (ofR q2p)) in
  let b1 := bose_distribution_zero_chempot en beta in
  let b2 := bose_distribution_zero_chempot q beta in
  let t10 := (b1 / en) * (r1pinv + r1minv) in
  let t1 := (b1 / en) * (r1pinv - r1minv) in
  let t2 := ((r2pinv - r2minv) * (ofR b2)) / (ofR q) in
  ((- t10) + (((t2 - t1) * (ofR q)) / (ofR p))) / (ofR (8 * PI2)).

(* thermal/zero_matsubara.rs 533-537 *)
Definition zm_d_i_0_0_i (q : R) (p : R) (beta : R) : R :=
  let rpinv := ninv (2 * q + p) in
  let rminv := ninv (2 * (- q) + p) in
  ((- (bose_distribution_zero_chempot q beta)) * (ninv (((q * p) * 8) * PI2))) * (rpinv + rminv).

(* thermal/zero_matsubara.rs 540-558 *)
Definition zm_d_i_m_m_l_i {T1 : Type} {NT1 : Num T1} {T2 : Type} {NT2 : Num T2} (q : R) (p : R) (m1 : T1) (m2 : T2) (beta : R) : C :=
  let p2q := (2 * p) * q in
  let delta := (toC (m2 * m2)) - (toC (m1 * m1)) in
  let en1 := energy q m1 in
  let b1 := bose_distribution_zero_chempot en1 beta in
  let b1en1 := b1 * en1 in
  let r01 := zm_r_0 p delta in
  let r1pinv := ninv (r01 + (toC p2q)) in
  let r1minv := ninv (r01 - (toC p2q)) in
  let en2 := energy q m2 in
  let b2 := bose_distribution_zero_chempot en2 beta in
  let b2en2 := b2 * en2 in
  let r02 := zm_r_0 p (- delta) in
  let r2pinv := ninv (r02 + (toC p2q)) in
  let r2minv := ninv (r02 - (toC p2q)) in
  let t1 := (toC b1en1) * (r1pinv + r1minv) in
  let t5 := ((- (((toC b2en2) * (r2pinv - r2minv)) - ((toC b1en1) * (r1pinv - r1minv)))) * (toC q)) / (toC p) in
  (t1 + t5) / (toC (8 * PI2)).

(* thermal/zero_matsubara.rs 561-566 *)
Definition zm_d_i_m_m_l_i_same_mass {T : Type} {NT : Num T} (q : R) (p : R) (m : T) (beta : R) : T :=
  let en := energy q m in
  let r1pinv := ninv (2 * q + p) in
  let r1minv := ninv (2 * (- q) + p) in
  (((bose_distribution_zero_chempot en beta) * en) * (ofR (r1pinv + r1minv))) / (ofR ((p * 8) * PI2)).

(* thermal/zero_matsubara.rs 569-585 *)
Definition zm_d_i_m_0_l_i {T : Type} {NT : Num T} (q : R) (p : R) (m : T) (beta : R) : T :=
  let p2q := (2 * p) * q in
  let delta := (- m) * m in
  let en := energy q m in
  let b1 := bose_distribution_zero_chempot en beta in
  let b1en1 := b1 * en in
  let r01 := zm_r_0 p delta in
  let r1pinv := ninv (r01 + (ofR p2q)) in
  let r1minv := ninv (r01 - (ofR p2q)) in
  let b2 := bose_distribution_zero_chempot q beta in
  let r02 := zm_r_0 p (- delta) in
  let r2pinv := ninv (r02 + (ofR p2q)) in
  let r2minv := ninv (r02 - (ofR p2q)) in
  let t1 := b1en1 * (r1pinv + r1minv) in
  let t5 := ((- ((((r2pinv - r2minv) * (ofR b2)) * (ofR q)) - (b1en1 * (r1pinv - r1minv)))) * (ofR q)) / (ofR p) in
  (t1 + t5) / (ofR (8 * PI2)).

(* thermal/zero_matsubara.rs 588-592 *)
Definition zm_d_i_0_0_l_i (q : R) (p : R) (beta : R) : R :=
  let r1pinv := ninv (2 * q + p) in
  let r1minv := ninv (2 * (- q) + p) in
  (((bose_distribution_zero_chempot q beta) * q) * (r1pinv + r1minv)) / ((p * 8) * PI2).

(* thermal/zero_matsubara.rs 595-610 *)
Definition zm_d_i_m_m_t_i {T1 : Type} {NT1 : Num T1} {T2 : Type} {NT2 : Num T2} (q : R) (p : R) (m1 : T1) (m2 : T2) (beta : R) : C :=
  let p2 := p * p in
  let delta := (toC (m2 * m2)) - (toC (m1 * m1)) in
  let en1 := energy q m1 in
  let b1 := bose_distribution_zero_chempot en1 beta in
  let tlog1p := zm_tlog q p delta in
  let r01p := zm_r_0 p delta in
  let en2 := energy q m2 in
  let b2 := bose_distribution_zero_chempot en2 beta in
  let tlog2p := zm_tlog q p (- delta) in
  let r02p := zm_r_0 p (- delta) in
  let t1 := ((toC ((- b1) / en1)) * tlog1p) / (toC 2) in
  let t2 := (((toC (b2 / en2)) - (toC (b1 / en1))) * (toC q)) / (toC p) in
  let t3 := (((toC (b1 / en1)) * (r01p * tlog1p)) - ((toC (b2 / en2)) * (r02p * tlog2p))) / (toC (p2 * 4)) in
  (((t1 + t2) + t3) * (toC q)) / (toC ((p * 8) * PI2)).

(* thermal/zero_matsubara.rs 613-618 *)
Definition zm_d_i_m_m_t_i_same_mass {T : Type} {NT : Num T} (q : R) (p : R) (m : T) (beta : R) : T :=
  let en := energy q m in
  let b := bose_distribution_zero_chempot en beta in
  let tlogp := zm_tlog_same_mass q p in
  (((- (ninv (((en * (ofR p)) * (ofR 16)) * (ofR PI2)))) * b) * (ofR tlogp)) * (ofR q).

(* thermal/zero_matsubara.rs 621-635 *)
Definition zm_d_i_m_0_t_i {T : Type} {NT : Num T} (q : R) (p : R) (m : T) (beta : R) : C :=
  let p2 := p * p in
  let delta := (- m) * m in
  let en1 := energy q m in
  let b1 := bose_distribution_zero_chempot en1 beta in
  let tlog1p := zm_tlog q p delta in
  let r01p := zm_r_0 p delta in
  let b2 := bose_distribution_zero_chempot q beta in
  let tlog2p := zm_tlog q p (- delta) in
  let r02p := zm_r_0 p (- delta) in
  let t1 := ((toC ((- b1) / en1)) * tlog1p) / (toC 2) in
  let t2 := (((toC (b2 / q)) - (toC (b1 / en1))) * (toC q)) / (toC p) in
  let t3 := (((toC (b1 / en1)) * ((toC r01p) * tlog1p)) - ((toC (b2 / q)) * ((toC r02p) * tlog2p))) / (toC (p2 * 4)) in
  (((t1 + t2) + t3) * (toC q)) / (toC ((p * 8) * PI2)).

(* thermal/zero_matsubara.rs 638-640 *)
Definition zm_d_i_0_0_t_i (q : R) (p : R) (beta : R) : R :=
  ((- (bose_distribution_zero_chempot q beta)) * (zm_tlog_same_mass q p)) / ((p * 16) * PI2).
