(** * One-loop thermal integrands, general kinematics
    (qcd-sme/src/low_level/oneloop/thermal/mod.rs, module [inlines])

    Generic [T: Num] parameters of the Rust functions are class-polymorphic
    parameters here; [toC] is [Into<C>], [ofR] is [From<R>]; a mixed operation
    of the Rust trait is the operation of the larger type after conversion. *)
From Coq Require Import Reals.
From Coquelicot Require Import Coquelicot.
From Verif Require Import Num MCommon.
Open Scope R_scope.
Open Scope num_scope.

(* thermal/mod.rs 558 *)
Definition PI2 : R := (PI * PI)%R.

(* thermal/mod.rs 562-569 *)
Definition r_0 {T1 : Type} {NT1 : Num T1} {T2 : Type} {NT2 : Num T2} {T3 : Type} {NT3 : Num T3} {T4 : Type} {NT4 : Num T4} (om : T1) (p : T2) (en : T3) (delta : T4) : C :=
  ((toC (om * om)) + ((toC om) * ((toC (en * (ofR 2))) * Ci))) + ((toC (p * p)) + (toC delta)).

(* thermal/mod.rs 572-574 *)
Definition r_0_same_mass {T1 : Type} {NT1 : Num T1} {T2 : Type} {NT2 : Num T2} {T3 : Type} {NT3 : Num T3} (om : T1) (p : T2) (en : T3) : C :=
  (toC (p * p)) + ((toC (om * om)) + ((toC om) * ((toC (en * (ofR 2))) * Ci))).

(* thermal/mod.rs 577-587 *)
Definition tlog {T1 : Type} {NT1 : Num T1} {T2 : Type} {NT2 : Num T2} {T3 : Type} {NT3 : Num T3} {T4 : Type} {NT4 : Num T4} (q : R) (om : T1) (p : T2) (en : T3) (delta : T4) : C :=
  let r_0v := r_0 om p en delta in
  let q2p := (p * (ofR q)) * (ofR 2) in
  nln (((toC q2p) + r_0v) / ((toC (- q2p)) + r_0v)).

(* thermal/mod.rs 590-594 *)
Definition tlog_same_mass {T1 : Type} {NT1 : Num T1} {T2 : Type} {NT2 : Num T2} {T3 : Type} {NT3 : Num T3} (q : R) (om : T1) (p : T2) (en : T3) : C :=
  let r_0v := r_0_same_mass om p en in
  let q2p := (p * (ofR q)) * (ofR 2) in
  nln (((toC q2p) + r_0v) / ((toC (- q2p)) + r_0v)).

(* thermal/mod.rs 597-601 *)
Definition tlog_zero_mass {T1 : Type} {NT1 : Num T1} {T2 : Type} {NT2 : Num T2} (q : R) (om : T1) (p : T2) : C :=
  let r_0v := r_0_same_mass om p q in
  let q2p := (p * (ofR q)) * (ofR 2) in
  nln (((toC q2p) + r_0v) / ((toC (- q2p)) + r_0v)).

(* thermal/mod.rs 604-614 *)
Definition tlog_l {T1 : Type} {NT1 : Num T1} {T2 : Type} {NT2 : Num T2} {T3 : Type} {NT3 : Num T3} {T4 : Type} {NT4 : Num T4} (q : R) (om : T1) (p : T2) (en : T3) (delta : T4) : C :=
  let ei2 := (toC (en * (ofR 2))) * Ci in
  let pf := (((toC (om * om)) + ((toC om) * ei2)) + (toC delta)) + ((toC (p * p)) * (((toC (ninv om)) * ei2) + (toC 1))) in
  ((tlog q om p en delta) * pf) * pf.

(* thermal/mod.rs 617-621 *)
Definition tlog_l_same_mass {T1 : Type} {NT1 : Num T1} {T2 : Type} {NT2 : Num T2} {T3 : Type} {NT3 : Num T3} (q : R) (om : T1) (p : T2) (en : T3) : C :=
  let ei2 := (toC (en * (ofR 2))) * Ci in
  let pf := ((toC (om * om)) + ((toC om) * ei2)) + ((toC (p * p)) * (((toC (ninv om)) * ei2) + (toC 1))) in
  ((tlog_same_mass q om p en) * pf) * pf.

(* thermal/mod.rs 624-628 *)
Definition tlog_l_zero_mass {T1 : Type} {NT1 : Num T1} {T2 : Type} {NT2 : Num T2} (q : R) (om : T1) (p : T2) : C :=
  let ei2 := (toC (q * 2)) * Ci in
  let pf := ((toC (om * om)) + ((toC om) * ei2)) + ((toC (p * p)) * (((toC (ninv om)) * ei2) + (toC 1))) in
  ((tlog_zero_mass q om p) * pf) * pf.

(* thermal/mod.rs 631-641 *)
Definition tlog_t {T1 : Type} {NT1 : Num T1} {T2 : Type} {NT2 : Num T2} {T3 : Type} {NT3 : Num T3} (q : R) (om : T1) (p : R) (en : T2) (delta : T3) : C :=
  let r0 := r_0 om p en delta in
  let q2p := (q * 2) * p in
  ((r0 + (toC q2p)) * (r0 - (toC q2p))) * (tlog q om p en delta).

(* thermal/mod.rs 644-648 *)
Definition tlog_t_same_mass {T1 : Type} {NT1 : Num T1} {T2 : Type} {NT2 : Num T2} (q : R) (om : T1) (p : R) (en : T2) : C :=
  let r0 := r_0_same_mass om p en in
  let q2p := (q * 2) * p in
  ((r0 + (toC q2p)) * (r0 - (toC q2p))) * (tlog_same_mass q om p en).

(* thermal/mod.rs 651-655 *)
Definition tlog_t_zero_mass {T : Type} {NT : Num T} (q : R) (om : T) (p : R) : C :=
  let r0 := r_0_same_mass om p q in
  let q2p := (q * 2) * p in
  ((r0 + (toC q2p)) * (r0 - (toC q2p))) * (tlog_zero_mass q om p).

(* thermal/mod.rs 658-662 *)
Definition j_m_i {T : Type} {NT : Num T} (q : R) (m : T) (beta : R) : T :=
  let q2 := q * q in
  let en := energy q m in
  ((bose_distribution_zero_chempot en beta) * (ofR q2)) / ((en * (ofR 2)) * (ofR PI2)).

(* thermal/mod.rs 665-667 *)
Definition j_0_i (q : R) (beta : R) : R :=
  ((bose_distribution_zero_chempot q beta) * q) / (2 * PI2).

(* thermal/mod.rs 670-674 *)
Definition j_m_l_i {T : Type} {NT : Num T} (q : R) (m : T) (beta : R) : T :=
  let q2 := q * q in
  let en := energy q m in
  (((- (bose_distribution_zero_chempot en beta)) * (ofR q2)) * en) / (ofR (2 * PI2)).

(* thermal/mod.rs 677-681 *)
Definition j_0_l_i (q : R) (beta : R) : R :=
  let q2 := q * q in
  let q3 := q2 * q in
  ((- (bose_distribution_zero_chempot q beta)) * q3) / (2 * PI2).

(* thermal/mod.rs 684-689 *)
Definition j_m_t_i {T : Type} {NT : Num T} (q : R) (m : T) (beta : R) : T :=
  let q2 := q * q in
  let q4 := q2 * q2 in
  let en := energy q m in
  ((bose_distribution_zero_chempot en beta) * (ofR q4)) / ((en * (ofR 6)) * (ofR PI2)).

(* thermal/mod.rs 692-696 *)
Definition j_0_t_i (q : R) (beta : R) : R :=
  let q2 := q * q in
  let q3 := q2 * q in
  ((bose_distribution_zero_chempot q beta) * q3) / (6 * PI2).

(* thermal/mod.rs 699-708 *)
Definition i_m_m_i {T1 : Type} {NT1 : Num T1} {T2 : Type} {NT2 : Num T2} {T3 : Type} {NT3 : Num T3} (q : R) (om : T1) (p : R) (m1 : T2) (m2 : T3) (beta : R) : C :=
  let en1 := energy q m1 in
  let en2 := energy q m2 in
  let delta := (toC (m2 * m2)) - (toC (m1 * m1)) in
  let t1 := (toC ((bose_distribution_zero_chempot en1 beta) / en1)) * ((tlog q om p en1 delta) + (tlog q (- om) p en1 delta)) in
  let t2 := (toC ((bose_distribution_zero_chempot en2 beta) / en2)) * ((tlog q om p en2 (- delta)) + (tlog q (- om) p en2 (- delta))) in
  ((t1 + t2) * (toC q)) / (toC ((p * 16) * PI2)).

(* thermal/mod.rs 711-716 *)
Definition i_m_m_i_same_mass {T1 : Type} {NT1 : Num T1} {T2 : Type} {NT2 : Num T2} {T3 : Type} {NT3 : Num T3} (q : R) (om : T1) (p : T2) (m : T3) (beta : R) : C :=
  let en := energy q m in
  let t := (toC ((bose_distribution_zero_chempot en beta) / en)) * ((tlog_same_mass q om p en) + (tlog_same_mass q (- om) p en)) in
  ((toC (ninv ((p * (ofR 8)) * (ofR PI2)))) * t) * (toC q).

(* thermal/mod.rs 719-727 *)
Definition i_m_0_i {T1 : Type} {NT1 : Num T1} {T2 : Type} {NT2 : Num T2} {T3 : Type} {NT3 : Num T3} (q : R) (om : T1) (p : T2) (m : T3) (beta : R) : C :=
  let en := energy q m in
  let delta := (- m) * m in
  let t1 := (toC (((bose_distribution_zero_chempot en beta) * (ofR q)) / en)) * ((tlog q om p en delta) + (tlog q (- om) p en delta)) in
  let t2 := (toC (bose_distribution_zero_chempot q beta)) * ((tlog q om p q (- delta)) + (tlog q (- om) p q (- delta))) in
  (toC (ninv ((p * (ofR 16)) * (ofR PI2)))) * (t1 + t2).

(* thermal/mod.rs 730-734 *)
Definition i_0_0_i {T : Type} {NT : Num T} (q : R) (om : T) (p : R) (beta : R) : C :=
  let t := (toC (bose_distribution_zero_chempot q beta)) * ((tlog_zero_mass q om p) + (tlog_zero_mass q (- om) p)) in
  t / (toC ((p * 8) * PI2)).

(* thermal/mod.rs 737-753 *)
Definition i_m_m_l_i {T1 : Type} {NT1 : Num T1} {T2 : Type} {NT2 : Num T2} {T3 : Type} {NT3 : Num T3} (q : R) (om : T1) (p : R) (m1 : T2) (m2 : T3) (beta : R) : C :=
  let en1 := energy q m1 in
  let en2 := energy q m2 in
  let delta := (toC (m2 * m2)) - (toC (m1 * m1)) in
  let qp := q * p in
  let p2 := p * p in
  let p3 := p2 * p in
  let om2 := om * om in
  let om2_plus_p2 := om2 + (ofR p2) in
  let t1 := (toC ((bose_distribution_zero_chempot en1 beta) / en1)) * (((tlog_l q om p en1 delta) + (tlog_l q (- om) p en1 delta)) - ((toC (8 * qp)) * ((toC om2_plus_p2) + delta))) in
  let t2 := (toC ((bose_distribution_zero_chempot en2 beta) / en2)) * (((tlog_l q om p en2 (- delta)) + (tlog_l q (- om) p en2 (- delta))) - ((toC (8 * qp)) * ((toC om2_plus_p2) - delta))) in
  (toC (((ninv (((om2_plus_p2 * (ofR p3)) * (ofR 64)) * (ofR PI2))) * om2) * (ofR q))) * (t1 + t2).

(* thermal/mod.rs 756-774 *)
Definition i_m_m_l_i_same_mass {T1 : Type} {NT1 : Num T1} {T2 : Type} {NT2 : Num T2} {T3 : Type} {NT3 : Num T3} (q : R) (om : T1) (p : T2) (m : T3) (beta : R) : C :=
  let en := energy q m in
  let qp := p * (ofR q) in
  let p2 := p * p in
  let p3 := p2 * p in
  let om2 := om * om in
  let om2_plus_p2 := (toC om2) + (toC p2) in
  let t := (toC ((bose_distribution_zero_chempot en beta) / en)) * (((((toC (- qp)) * om2_plus_p2) * (toC 8)) + (tlog_l_same_mass q om p en)) + (tlog_l_same_mass q (- om) p en)) in
  (((toC om2) * (ninv ((((toC p3) * om2_plus_p2) * (toC 32)) * (toC PI2)))) * (toC q)) * t.

(* thermal/mod.rs 777-792 *)
Definition i_m_0_l_i {T1 : Type} {NT1 : Num T1} {T2 : Type} {NT2 : Num T2} {T3 : Type} {NT3 : Num T3} (q : R) (om : T1) (p : T2) (m : T3) (beta : R) : C :=
  let en := energy q m in
  let delta := - (toC (m * m)) in
  let qp := p * (ofR q) in
  let p2 := p * p in
  let p3 := p2 * p in
  let om2 := om * om in
  let om2_plus_p2 := (toC om2) + (toC p2) in
  let t1 := (toC (((bose_distribution_zero_chempot en beta) * (ofR q)) / en)) * (((tlog_l q om p en delta) + (tlog_l q (- om) p en delta)) - ((toC (qp * (ofR 8))) * (om2_plus_p2 + delta))) in
  let t2 := (toC (bose_distribution_zero_chempot q beta)) * (((tlog_l q om p q (- delta)) + (tlog_l q (- om) p q (- delta))) - ((toC (qp * (ofR 8))) * (om2_plus_p2 - delta))) in
  ((toC om2) * (ninv ((((toC p3) * om2_plus_p2) * (toC 64)) * (toC PI2)))) * (t1 + t2).

(* thermal/mod.rs 795-804 *)
Definition i_0_0_l_i {T1 : Type} {NT1 : Num T1} {T2 : Type} {NT2 : Num T2} (q : R) (om : T1) (p : T2) (beta : R) : C :=
  let qp := p * (ofR q) in
  let p2 := p * p in
  let p3 := p2 * p in
  let om2 := om * om in
  let om2_plus_p2 := (toC om2) + (toC p2) in
  let t := (toC (bose_distribution_zero_chempot q beta)) * (((((toC (- qp)) * om2_plus_p2) * (toC 8)) + (tlog_l_zero_mass q om p)) + (tlog_l_zero_mass q (- om) p)) in
  ((toC om2) * (ninv ((((toC p3) * om2_plus_p2) * (toC 32)) * (toC PI2)))) * t.

(* thermal/mod.rs 807-823 *)
Definition i_m_m_t_i {T1 : Type} {NT1 : Num T1} {T2 : Type} {NT2 : Num T2} {T3 : Type} {NT3 : Num T3} (q : R) (om : T1) (p : R) (m1 : T2) (m2 : T3) (beta : R) : C :=
  let en1 := energy q m1 in
  let en2 := energy q m2 in
  let delta := (toC (m2 * m2)) - (toC (m1 * m1)) in
  let qp := q * p in
  let p2 := p * p in
  let p3 := p2 * p in
  let om2 := om * om in
  let om2_plus_p2 := om2 + (ofR p2) in
  let t1 := (toC ((bose_distribution_zero_chempot en1 beta) / en1)) * (((tlog_t q om p en1 delta) + (tlog_t q (- om) p en1 delta)) - ((toC (8 * qp)) * ((toC om2_plus_p2) + delta))) in
  let t2 := (toC ((bose_distribution_zero_chempot en2 beta) / en2)) * (((tlog_t q om p en2 (- delta)) + (tlog_t q (- om) p en2 (- delta))) - ((toC (8 * qp)) * ((toC om2_plus_p2) - delta))) in
  (toC ((- (ninv ((p3 * 128) * PI2))) * q)) * (t1 + t2).

(* thermal/mod.rs 826-838 *)
Definition i_m_m_t_i_same_mass {T1 : Type} {NT1 : Num T1} {T2 : Type} {NT2 : Num T2} (q : R) (om : T1) (p : R) (m : T2) (beta : R) : C :=
  let en := energy q m in
  let qp := q * p in
  let p2 := p * p in
  let p3 := p2 * p in
  let om2 := om * om in
  let om2_plus_p2 := om2 + (ofR p2) in
  let t := (toC ((bose_distribution_zero_chempot en beta) / en)) * (((toC (((- om2_plus_p2) * (ofR 8)) * (ofR qp))) + (tlog_t_same_mass q om p en)) + (tlog_t_same_mass q (- om) p en)) in
  (toC ((- (ninv ((p3 * 64) * PI2))) * q)) * t.

(* thermal/mod.rs 841-856 *)
Definition i_m_0_t_i {T1 : Type} {NT1 : Num T1} {T2 : Type} {NT2 : Num T2} (q : R) (om : T1) (p : R) (m : T2) (beta : R) : C :=
  let en := energy q m in
  let delta := - (toC (m * m)) in
  let qp := q * p in
  let p2 := p * p in
  let p3 := p2 * p in
  let om2 := om * om in
  let om2_plus_p2 := om2 + (ofR p2) in
  let t1 := (toC (((bose_distribution_zero_chempot en beta) * (ofR q)) / en)) * (((tlog_t q om p en delta) + (tlog_t q (- om) p en delta)) - ((toC (8 * qp)) * ((toC om2_plus_p2) + delta))) in
  let t2 := (toC (bose_distribution_zero_chempot q beta)) * (((tlog_t q om p q (- delta)) + (tlog_t q (- om) p q (- delta))) - ((toC (8 * qp)) * ((toC om2_plus_p2) - delta))) in
  (toC (- (ninv ((p3 * 128) * PI2)))) * (t1 + t2).

(* thermal/mod.rs 859-868 *)
Definition i_0_0_t_i {T : Type} {NT : Num T} (q : R) (om : T) (p : R) (beta : R) : C :=
  let qp := q * p in
  let p2 := p * p in
  let p3 := p2 * p in
  let om2 := om * om in
  let om2_plus_p2 := om2 + (ofR p2) in
  let t := (toC (bose_distribution_zero_chempot q beta)) * (((toC (((- om2_plus_p2) * (ofR 8)) * (ofR qp))) + (tlog_t_zero_mass q om p)) + (tlog_t_zero_mass q (- om) p)) in
  (toC (- (ninv ((p3 * 64) * PI2)))) * t.

(* thermal/mod.rs 871-874 *)
Definition d_j_m_i {T : Type} {NT : Num T} (q : R) (m : T) (beta : R) : T :=
  let en := energy q m in
  (- (bose_distribution_zero_chempot en beta)) / ((en * (ofR 4)) * (ofR PI2)).

(* thermal/mod.rs 877-879 *)
Definition d_j_0_i (q : R) (beta : R) : R :=
  (- (bose_distribution_zero_chempot q beta)) / ((q * 4) * PI2).

(* thermal/mod.rs 882-889 *)
Definition d2_j_m_i {T : Type} {NT : Num T} (q : R) (m : T) (beta : R) : T :=
  let en := energy q m in
  let en3 := (en * en) * en in
  let ben := en * (ofR beta) in
  let bp := bose_distribution_zero_chempot en beta in
  let bm := bose_distribution_zero_chempot (- en) beta in
  (bp / ((en3 * (ofR 8)) * (ofR PI2))) * (((- ben) * bm) + (ofR 1)).

(* thermal/mod.rs 892-898 *)
Definition d2_j_0_i (q : R) (beta : R) : R :=
  let q3 := (q * q) * q in
  let bq := q * beta in
  let bp := bose_distribution_zero_chempot q beta in
  let bm := bose_distribution_zero_chempot (- q) beta in
  (bp / ((q3 * 8) * PI2)) * ((- bq) * bm + 1).

(* thermal/mod.rs 901-904 *)
Definition d_j_m_l_i {T : Type} {NT : Num T} (q : R) (m : T) (beta : R) : T :=
  let en := energy q m in
  (en * (bose_distribution_zero_chempot en beta)) / (ofR (4 * PI2)).

(* thermal/mod.rs 907-909 *)
Definition d_j_0_l_i (q : R) (beta : R) : R :=
  (q * (bose_distribution_zero_chempot q beta)) / (4 * PI2).

(* thermal/mod.rs 912-917 *)
Definition d2_j_m_l_i {T : Type} {NT : Num T} (q : R) (m : T) (beta : R) : T :=
  let en := energy q m in
  let bp := bose_distribution_zero_chempot en beta in
  let bm := bose_distribution_zero_chempot (- en) beta in
  (bp / (ofR (8 * PI2))) * ((bm * (ofR beta)) + (ninv en)).

(* thermal/mod.rs 920-924 *)
Definition d2_j_0_l_i (q : R) (beta : R) : R :=
  let bp := bose_distribution_zero_chempot q beta in
  let bm := bose_distribution_zero_chempot (- q) beta in
  (bp / (8 * PI2)) * (bm * beta + (1 / q)).

(* thermal/mod.rs 927-931 *)
Definition d_j_m_t_i {T : Type} {NT : Num T} (q : R) (m : T) (beta : R) : T :=
  let q2 := q * q in
  let en := energy q m in
  ((- (bose_distribution_zero_chempot en beta)) * (ofR q2)) / ((en * (ofR 4)) * (ofR PI2)).

(* thermal/mod.rs 934-936 *)
Definition d_j_0_t_i (q : R) (beta : R) : R :=
  ((- (bose_distribution_zero_chempot q beta)) * q) / (4 * PI2).

(* thermal/mod.rs 939-942 *)
Definition d2_j_m_t_i {T : Type} {NT : Num T} (q : R) (m : T) (beta : R) : T :=
  let en := energy q m in
  (bose_distribution_zero_chempot en beta) / ((en * (ofR 8)) * (ofR PI2)).

(* thermal/mod.rs 945-947 *)
Definition d2_j_0_t_i (q : R) (beta : R) : R :=
  (bose_distribution_zero_chempot q beta) / ((q * 8) * PI2).

(* thermal/mod.rs 950-973 *)
Definition d_i_m_m_i {T1 : Type} {NT1 : Num T1} {T2 : Type} {NT2 : Num T2} {T3 : Type} {NT3 : Num T3} (q : R) (om : T1) (p : R) (m1 : T2) (m2 : T3) (beta : R) : C :=
  let q2p := (q * p) * 2 in
  let delta := (toC (m2 * m2)) - (toC (m1 * m1)) in
  let en1 := energy q m1 in
  let en2 := energy q m2 in
  let r01 := r_0 om p en1 delta in
  let r02 := r_0 om p en2 (- delta) in
  let r1pinv := ninv (r01 + (toC q2p)) in
  let r1minv := ninv (r01 - (toC q2p)) in
  let r2pinv := ninv (r02 + (toC q2p)) in
  let r2minv := ninv (r02 - (toC q2p)) in
  let r01_opp := r_0 (- om) p en1 delta in
  let r02_opp := r_0 (- om) p en2 (- delta) in
  let r1pinv_opp := ninv (r01_opp + (toC q2p)) in
  let r1minv_opp := ninv (r01_opp - (toC q2p)) in
  let r2pinv_opp := ninv (r02_opp + (toC q2p)) in
  let r2minv_opp := ninv (r02_opp - (toC q2p)) in
  let b1 := bose_distribution_zero_chempot en1 beta in
  let b2 := bose_distribution_zero_chempot en2 beta in
  let t10 := (toC (b1 / en1)) * (((r1pinv + r1minv) + r1pinv_opp) + r1minv_opp) in
  let t1 := (toC (b1 / en1)) * (((r1pinv - r1minv) + r1pinv_opp) - r1minv_opp) in
  let t2 := (toC (b2 / en2)) * (((r2pinv - r2minv) + r2pinv_opp) - r2minv_opp) in
  ((- t10) + (((t2 - t1) * (toC q)) / (toC p))) / (toC (16 * PI2)).

(* thermal/mod.rs 976-994 *)
Definition d_i_m_m_i_same_mass {T1 : Type} {NT1 : Num T1} {T2 : Type} {NT2 : Num T2} {T3 : Type} {NT3 : Num T3} (q : R) (om : T1) (p : T2) (m : T3) (beta : R) : C :=
  let q2p := (p * (ofR q)) * (ofR 2) in
  let en := energy q m in
  let r0 := r_0_same_mass om p en in
  let rpinv := ninv ((toC q2p) + r0) in
  let rminv := ninv ((toC (- q2p)) + r0) in
  let r0_opp := r_0_same_mass (- om) p en in
  let rpinv_opp := ninv ((toC q2p) + r0_opp) in
  let rminv_opp := ninv ((toC (- q2p)) + r0_opp) in
  (toC ((- (bose_distribution_zero_chempot en beta)) * (ninv ((en * (ofR 16)) * (ofR PI2))))) * (((rpinv + rminv) + rpinv_opp) + rminv_opp).

(* thermal/mod.rs 997-1019 *)
Definition d_i_m_0_i {T1 : Type} {NT1 : Num T1} {T2 : Type} {NT2 : Num T2} {T3 : Type} {NT3 : Num T3} (q : R) (om : T1) (p : T2) (m : T3) (beta : R) : C :=
  let q2p := (p * (ofR q)) * (ofR 2) in
  let delta := (- m) * m in
  let en := energy q m in
  let r01 := r_0 om p en delta in
  let r02 := r_0 om p q (- delta) in
  let r1pinv := ninv ((toC q2p) + r01) in
  let r1minv := ninv ((toC (- q2p)) + r01) in
  let r2pinv := ninv ((toC q2p) + r02) in
  let r2minv := ninv ((toC (- q2p)) + r02) in
  let r01_opp := r_0 (- om) p en delta in
  let r02_opp := r_0 (- om) p q (- delta) in
  let r1pinv_opp := ninv ((toC q2p) + r01_opp) in
  let r1minv_opp := ninv ((toC (- q2p)) + r01_opp) in
  let r2pinv_opp := ninv ((toC q2p) + r02_opp) in
  let r2minv_opp := ninv ((toC (- q2p)) + r02_opp) in
  let b1 := bose_distribution_zero_chempot en beta in
  let b2 := bose_distribution_zero_chempot q beta in
  let t10 := (toC (b1 / en)) * (((r1pinv + r1minv) + r1pinv_opp) + r1minv_opp) in
  let t1 := (toC (b1 / en)) * (((r1pinv - r1minv) + r1pinv_opp) - r1minv_opp) in
  let t2 := (toC (b2 / q)) * (((r2pinv - r2minv) + r2pinv_opp) - r2minv_opp) in
  ((- t10) + (((toC (ninv p)) * (t2 - t1)) * (toC q))) / (toC (16 * PI2)).

(* thermal/mod.rs 1022-1032 *)
Definition d_i_0_0_i {T : Type} {NT : Num T} (q : R) (om : T) (p : R) (beta : R) : C :=
  let q2p := (q * p) * 2 in
  let r0 := r_0_same_mass om p q in
  let rpinv := ninv (r0 + (toC q2p)) in
  let rminv := ninv (r0 - (toC q2p)) in
  let r0_opp := r_0_same_mass (- om) p q in
  let rpinv_opp := ninv (r0_opp + (toC q2p)) in
  let rminv_opp := ninv (r0_opp - (toC q2p)) in
  ((toC (- (bose_distribution_zero_chempot q beta))) * (((rpinv + rminv) + rpinv_opp) + rminv_opp)) / (toC ((q * 16) * PI2)).

(* thermal/mod.rs 1035-1090 *)
Definition d_i_m_m_l_i {T1 : Type} {NT1 : Num T1} {T2 : Type} {NT2 : Num T2} {T3 : Type} {NT3 : Num T3} (q : R) (om : T1) (p : R) (m1 : T2) (m2 : T3) (beta : R) : C :=
  let om2 := om * om in
  let ominv := ninv om in
  let p2 := p * p in
  let p2q := (2 * p) * q in
  let delta := (toC (m2 * m2)) - (toC (m1 * m1)) in
  let k := ((toC (ominv * (ofR 2))) * Ci) * (toC p2) in
  let en1 := energy q m1 in
  let b1 := bose_distribution_zero_chempot en1 beta in
  let b1en1 := b1 / en1 in
  let tlog1p := tlog q om p en1 delta in
  let tlog1m := tlog q (- om) p en1 delta in
  let r01p := r_0 om p en1 delta in
  let r01m := r_0 (- om) p en1 delta in
  let r1ppinv := ninv (r01p + (toC p2q)) in
  let r1pminv := ninv (r01p - (toC p2q)) in
  let r1mpinv := ninv (r01m + (toC p2q)) in
  let r1mminv := ninv (r01m - (toC p2q)) in
  let xp1 := r01p + ((toC en1) * k) in
  let xp12 := xp1 * xp1 in
  let xm1 := r01m - ((toC en1) * k) in
  let xm12 := xm1 * xm1 in
  let en2 := energy q m2 in
  let b2 := bose_distribution_zero_chempot en2 beta in
  let b2en2 := b2 / en2 in
  let tlog2p := tlog q om p en2 (- delta) in
  let tlog2m := tlog q (- om) p en2 (- delta) in
  let r02p := r_0 om p en2 (- delta) in
  let r02m := r_0 (- om) p en2 (- delta) in
  let r2ppinv := ninv (r02p + (toC p2q)) in
  let r2pminv := ninv (r02p - (toC p2q)) in
  let r2mpinv := ninv (r02m + (toC p2q)) in
  let r2mminv := ninv (r02m - (toC p2q)) in
  let xp2 := r02p + ((toC en2) * k) in
  let xp22 := xp2 * xp2 in
  let xm2 := r02m - ((toC en2) * k) in
  let xm22 := xm2 * xm2 in
  let t1 := (toC (- b1en1)) * (((r1ppinv + r1pminv) * xp12) + ((r1mpinv + r1mminv) * xm12)) in
  let t2 := ((toC b1en1) * ((toC (om2 + (ofR p2))) + delta)) * (toC 4) in
  let t3 := ((((toC b1en1) - (toC b2en2)) * (toC q)) * (toC q)) * (toC 8) in
  let t4 := (((((toC b2en2) * ((xp2 * tlog2p) + (xm2 * tlog2m))) - ((toC b1en1) * ((xp1 * tlog1p) + (xm1 * tlog1m)))) * (toC q)) / (toC p)) * (toC 2) in
  let t5 := ((((toC b2en2) * ((xp22 * (r2ppinv - r2pminv)) + (xm22 * (r2mpinv - r2mminv)))) - ((toC b1en1) * ((xp12 * (r1ppinv - r1pminv)) + (xm12 * (r1mpinv - r1mminv))))) * (toC q)) / (toC p) in
  (toC (om2 * (ninv ((((om2 + (ofR p2)) * (ofR p2)) * (ofR 64)) * (ofR PI2))))) * ((((t1 + t2) + t3) + t4) + t5).

(* thermal/mod.rs 1093-1122 *)
Definition d_i_m_m_l_i_same_mass {T1 : Type} {NT1 : Num T1} {T2 : Type} {NT2 : Num T2} {T3 : Type} {NT3 : Num T3} (q : R) (om : T1) (p : T2) (m : T3) (beta : R) : C :=
  let om2 := om * om in
  let ominv := ninv om in
  let p2 := p * p in
  let p2q := (p * (ofR q)) * (ofR 2) in
  let s := (toC om2) + (toC p2) in
  let k := (toC p2) * ((toC (ominv * (ofR 2))) * Ci) in
  let en := energy q m in
  let b := bose_distribution_zero_chempot en beta in
  let ben := b / en in
  let r0p := r_0_same_mass om p en in
  let r0m := r_0_same_mass (- om) p en in
  let rppinv := ninv ((toC p2q) + r0p) in
  let rpminv := ninv ((toC (- p2q)) + r0p) in
  let rmpinv := ninv ((toC p2q) + r0m) in
  let rmminv := ninv ((toC (- p2q)) + r0m) in
  let xp := r0p + ((toC en) * k) in
  let xp2 := xp * xp in
  let xm := r0m - ((toC en) * k) in
  let xm2 := xm * xm in
  let t1 := (toC (- ben)) * (((rppinv + rpminv) * xp2) + ((rmpinv + rmminv) * xm2)) in
  let t2 := ((toC ben) * s) * (toC 4) in
  ((toC om2) * (ninv ((((toC p2) * s) * (toC 64)) * (toC PI2)))) * (t1 + t2).

(* thermal/mod.rs 1125-1171 *)
Definition d_i_m_0_l_i {T1 : Type} {NT1 : Num T1} {T2 : Type} {NT2 : Num T2} {T3 : Type} {NT3 : Num T3} (q : R) (om : T1) (p : T2) (m : T3) (beta : R) : C :=
  let om2 := om * om in
  let ominv := ninv om in
  let p2 := p * p in
  let p2q := (p * (ofR q)) * (ofR 2) in
  let s := (toC om2) + (toC p2) in
  let delta := (- m) * m in
  let k := (toC p2) * ((toC (ominv * (ofR 2))) * Ci) in
  let en1 := energy q m in
  let b1 := bose_distribution_zero_chempot en1 beta in
  let b1en1 := b1 / en1 in
  let tlog1p := tlog q om p en1 delta in
  let tlog1m := tlog q (- om) p en1 delta in
  let r01p := r_0 om p en1 delta in
  let r01m := r_0 (- om) p en1 delta in
  let r1ppinv := ninv ((toC p2q) + r01p) in
  let r1pminv := ninv ((toC (- p2q)) + r01p) in
  let r1mpinv := ninv ((toC p2q) + r01m) in
  let r1mminv := ninv ((toC (- p2q)) + r01m) in
  let xp1 := r01p + ((toC en1) * k) in
  let xp12 := xp1 * xp1 in
  let xm1 := r01m - ((toC en1) * k) in
  let xm12 := xm1 * xm1 in
  let b2 := bose_distribution_zero_chempot q beta in
  let tlog2p := tlog q om p q (- delta) in
  let tlog2m := tlog q (- om) p q (- delta) in
  let r02p := r_0 om p q (- delta) in
  let r02m := r_0 (- om) p q (- delta) in
  let r2ppinv := ninv ((toC p2q) + r02p) in
  let r2pminv := ninv ((toC (- p2q)) + r02p) in
  let r2mpinv := ninv ((toC p2q) + r02m) in
  let r2mminv := ninv ((toC (- p2q)) + r02m) in
  let xp2 := r02p + ((toC q) * k) in
  let xp22 := xp2 * xp2 in
  let xm2 := r02m - ((toC q) * k) in
  let xm22 := xm2 * xm2 in
  let t1 := (toC (- b1en1)) * (((r1ppinv + r1pminv) * xp12) + ((r1mpinv + r1mminv) * xm12)) in
  let t2 := ((toC b1en1) * ((toC delta) + s)) * (toC 4) in
  let t3 := (((toC (b1en1 * (ofR q))) - (toC b2)) * (toC q)) * (toC 8) in
  let t4 := ((toC (ninv p)) * (((toC b2) * ((xp2 * tlog2p) + (xm2 * tlog2m))) - ((toC (b1en1 * (ofR q))) * ((xp1 * tlog1p) + (xm1 * tlog1m))))) * (toC 2) in
  let t5 := (toC (ninv p)) * (((toC b2) * ((xp22 * (r2ppinv - r2pminv)) + (xm22 * (r2mpinv - r2mminv)))) - ((toC (b1en1 * (ofR q))) * ((xp12 * (r1ppinv - r1pminv)) + (xm12 * (r1mpinv - r1mminv))))) in
  ((toC om2) * (ninv ((((toC p2) * s) * (toC 64)) * (toC PI2)))) * ((((t1 + t2) + t3) + t4) + t5).

(* thermal/mod.rs 1174-1196 *)
Definition d_i_0_0_l_i {T : Type} {NT : Num T} (q : R) (om : T) (p : R) (beta : R) : C :=
  let om2 := om * om in
  let ominv := ninv om in
  let p2 := p * p in
  let p2q := (2 * p) * q in
  let k := ((toC (ominv * (ofR 2))) * Ci) * (toC p2) in
  let r0p := r_0_same_mass om p q in
  let r0m := r_0_same_mass (- om) p q in
  let rppinv := ninv (r0p + (toC p2q)) in
  let rpminv := ninv (r0p - (toC p2q)) in
  let rmpinv := ninv (r0m + (toC p2q)) in
  let rmminv := ninv (r0m - (toC p2q)) in
  let xp := r0p + ((toC q) * k) in
  let xp2 := xp * xp in
  let xm := r0m - ((toC q) * k) in
  let xm2 := xm * xm in
  let t1 := - (((rppinv + rpminv) * xp2) + ((rmpinv + rmminv) * xm2)) in
  let t2 := (toC (om2 + (ofR p2))) * (toC 4) in
  (((toC (om2 * (ninv ((((om2 + (ofR p2)) * (ofR p2)) * (ofR 64)) * (ofR PI2))))) * (t1 + t2)) * (toC (bose_distribution_zero_chempot q beta))) / (toC q).

(* thermal/mod.rs 1199-1227 *)
Definition d_i_m_m_t_i {T1 : Type} {NT1 : Num T1} {T2 : Type} {NT2 : Num T2} {T3 : Type} {NT3 : Num T3} (q : R) (om : T1) (p : R) (m1 : T2) (m2 : T3) (beta : R) : C :=
  let p2 := p * p in
  let delta := (toC (m2 * m2)) - (toC (m1 * m1)) in
  let en1 := energy q m1 in
  let b1 := bose_distribution_zero_chempot en1 beta in
  let tlog1p := tlog q om p en1 delta in
  let tlog1m := tlog q (- om) p en1 delta in
  let r01p := r_0 om p en1 delta in
  let r01m := r_0 (- om) p en1 delta in
  let en2 := energy q m2 in
  let b2 := bose_distribution_zero_chempot en2 beta in
  let tlog2p := tlog q om p en2 (- delta) in
  let tlog2m := tlog q (- om) p en2 (- delta) in
  let r02p := r_0 om p en2 (- delta) in
  let r02m := r_0 (- om) p en2 (- delta) in
  let t1 := ((toC ((- b1) / en1)) * (tlog1p + tlog1m)) / (toC 4) in
  let t2 := (((toC (b2 / en2)) - (toC (b1 / en1))) * (toC q)) / (toC p) in
  let t3 := (((toC (b1 / en1)) * ((r01p * tlog1p) + (r01m * tlog1m))) - ((toC (b2 / en2)) * ((r02p * tlog2p) + (r02m * tlog2m)))) / (toC (p2 * 8)) in
  (((t1 + t2) + t3) * (toC q)) / (toC ((p * 8) * PI2)).

(* thermal/mod.rs 1230-1236 *)
Definition d_i_m_m_t_i_same_mass {T1 : Type} {NT1 : Num T1} {T2 : Type} {NT2 : Num T2} (q : R) (om : T1) (p : R) (m : T2) (beta : R) : C :=
  let en := energy q m in
  let b := bose_distribution_zero_chempot en beta in
  let tlogp := tlog_same_mass q om p en in
  let tlogm := tlog_same_mass q (- om) p en in
  ((toC ((- (ninv (((en * (ofR p)) * (ofR 32)) * (ofR PI2)))) * b)) * (tlogp + tlogm)) * (toC q).

(* thermal/mod.rs 1239-1259 *)
Definition d_i_m_0_t_i {T1 : Type} {NT1 : Num T1} {T2 : Type} {NT2 : Num T2} (q : R) (om : T1) (p : R) (m : T2) (beta : R) : C :=
  let p2 := p * p in
  let delta := (- m) * m in
  let en1 := energy q m in
  let b1 := bose_distribution_zero_chempot en1 beta in
  let tlog1p := tlog q om p en1 delta in
  let tlog1m := tlog q (- om) p en1 delta in
  let r01p := r_0 om p en1 delta in
  let r01m := r_0 (- om) p en1 delta in
  let b2 := bose_distribution_zero_chempot q beta in
  let tlog2p := tlog q om p q (- delta) in
  let tlog2m := tlog q (- om) p q (- delta) in
  let r02p := r_0 om p q (- delta) in
  let r02m := r_0 (- om) p q (- delta) in
  let t1 := ((toC ((- b1) / en1)) * (tlog1p + tlog1m)) / (toC 4) in
  let t2 := (((toC (b2 / q)) - (toC (b1 / en1))) * (toC q)) / (toC p) in
  let t3 := (((toC (b1 / en1)) * ((r01p * tlog1p) + (r01m * tlog1m))) - ((toC (b2 / q)) * ((r02p * tlog2p) + (r02m * tlog2m)))) / (toC (p2 * 8)) in
  (((t1 + t2) + t3) * (toC q)) / (toC ((p * 8) * PI2)).

(* thermal/mod.rs 1262-1266 *)
Definition d_i_0_0_t_i {T : Type} {NT : Num T} (q : R) (om : T) (p : R) (beta : R) : C :=
  ((toC (- (bose_distribution_zero_chempot q beta))) * ((tlog_same_mass q om p q) + (tlog_same_mass q (- om) p q))) / (toC ((p * 32) * PI2)).
