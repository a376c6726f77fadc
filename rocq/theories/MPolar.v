(** * Ghost self-energy and gluon polarization integrands
    (qcd-sme/src/low_level/oneloop/thermal/{ghost,gluon}.rs, modules [inlines])

    Functions reading the global number of colors take it as parameter [nc]. *)
From Coq Require Import Reals.
From Coquelicot Require Import Coquelicot.
From Verif Require Import Num MCommon MThermal MThermalZM MThermalZP.
Open Scope R_scope.
Open Scope num_scope.

(** ** Ghost self-energy *)

(* thermal/ghost.rs 77-89 *)
Definition ghost_self_energy_thermal_part_landau_i {T : Type} {NT : Num T} (q : R) (om : T) (p : R) (m : R) (beta : R) : C :=
  let s := (om * om) + (ofR (p * p)) in
  let m2 := m * m in
  let a := s + (ofR m2) in
  let t1 := (toC (((- a) * s) / (ofR (2 * m2)))) * (i_m_0_i q om p m beta) in
  let t2 := (toC ((s * s) / (ofR (2 * m2)))) * (i_0_0_i q om p beta) in
  let t3 := (((s * (ofR 2)) - (ofR m2)) / (ofR (4 * m2))) * (ofR ((j_m_i q m beta) - (j_0_i q beta))) in
  let t4 := (toC ((a * a) / (ofR 4))) * (d_i_m_0_i q om p m beta) in
  let t5 := ((- (s - (ofR m2))) / (ofR 4)) * (ofR (d_j_m_i q m beta)) in
  (((toC t5) + ((toC t3) + t1)) + t2) + t4.

(* thermal/ghost.rs 147-159 *)
Definition zm_ghost_self_energy_thermal_part_landau_i (q : R) (p : R) (m : R) (beta : R) : C :=
  let s := p * p in
  let m2 := m * m in
  let a := s + m2 in
  let t1 := (toC (((- a) * s) / (2 * m2))) * (zm_i_m_0_i q p m beta) in
  let t2 := ((s * s) / (2 * m2)) * (zm_i_0_0_i q p beta) in
  let t3 := ((s * 2 + (- m2)) / (4 * m2)) * ((j_m_i q m beta) - (j_0_i q beta)) in
  let t4 := ((a * a) / 4) * (zm_d_i_m_0_i q p m beta) in
  let t5 := ((- (s - m2)) / 4) * (d_j_m_i q m beta) in
  (((toC t5) + ((toC t3) + t1)) + (toC t2)) + (toC t4).

(* thermal/ghost.rs 215-227 *)
Definition zp_ghost_self_energy_thermal_part_landau_i {T : Type} {NT : Num T} (q : R) (om : T) (m : R) (beta : R) : C :=
  let s := om * om in
  let m2 := m * m in
  let a := s + (ofR m2) in
  let t1 := (toC (((- a) * s) / (ofR (2 * m2)))) * (zp_i_m_0_i q om m beta) in
  let t2 := (toC ((s * s) / (ofR (2 * m2)))) * (zp_i_0_0_i q om beta) in
  let t3 := (((s * (ofR 2)) - (ofR m2)) / (ofR (4 * m2))) * (ofR ((j_m_i q m beta) - (j_0_i q beta))) in
  let t4 := (toC ((a * a) / (ofR 4))) * (zp_d_i_m_0_i q om m beta) in
  let t5 := ((- (s - (ofR m2))) / (ofR 4)) * (ofR (d_j_m_i q m beta)) in
  (((toC t5) + ((toC t3) + t1)) + t2) + t4.


(** ** Gluon polarization *)

(* thermal/gluon.rs 388-436 *)
Definition polarization_glue_l_thermal_part_landau_i {T1 : Type} {NT1 : Num T1} {T2 : Type} {NT2 : Num T2} (q : R) (om : T1) (p : T2) (m : R) (beta : R) : C :=
  let s := (toC (om * om)) + (toC (p * p)) in
  let s2 := s * s in
  let s_inv := ninv s in
  let m2 := m * m in
  let m4 := m2 * m2 in
  let a := s + (toC (m2 * 2)) in
  let b := s + (toC m2) in
  let b2 := b * b in
  let j_m_l_p_i := s_inv * ((toC ((om * om) * (ofR (j_m_t_i q m beta)))) + (toC ((p * p) * (ofR (j_m_l_i q m beta))))) in
  let j_0_l_p_i := s_inv * ((toC ((om * om) * (ofR (j_0_t_i q beta)))) + (toC ((p * p) * (ofR (j_0_l_i q beta))))) in
  let d_j_m_l_p_i := s_inv * ((toC ((om * om) * (ofR (d_j_m_t_i q m beta)))) + (toC ((p * p) * (ofR (d_j_m_l_i q m beta))))) in
  let d2_j_m_l_p_i := s_inv * ((toC ((om * om) * (ofR (d2_j_m_t_i q m beta)))) + (toC ((p * p) * (ofR (d2_j_m_l_i q m beta))))) in
  let t1 := (((s2 * (toC 3)) / (toC (m4 * 2))) - (toC 1)) * (i_0_0_l_i q om p beta) in
  let t2 := (((((s2 * (toC 3)) + ((s * (toC m2)) * (toC 8))) + (toC (4 * m4))) / (toC (2 * m4))) + (toC 4)) * (i_m_m_l_i_same_mass q om p m beta) in
  let t3 := ((- (((s2 * (toC 3)) + ((s * (toC m2)) * (toC 4))) + (toC m4))) / (toC m4)) * (i_m_0_l_i q om p m beta) in
  let t4 := (((a * s) * (toC 2)) / (toC m2)) * (i_m_m_i_same_mass q om p m beta) in
  let t5 := ((((- b) * s) * (toC 2)) / (toC m2)) * (i_m_0_i q om p m beta) in
  let t6 := ((- ((s * (toC 2)) + (toC (m2 * 3)))) / (toC m2)) * (toC (j_m_i q m beta)) in
  let t7 := (((s * (toC 2)) + (toC m2)) / (toC m2)) * (toC (j_0_i q beta)) in
  let t8 := (- (((a * a) / (toC m2)) + (toC (m2 * 8)))) * (d_i_m_m_l_i_same_mass q om p m beta) in
  let t9 := (b2 / (toC m2)) * (d_i_m_0_l_i q om p m beta) in
  let t10 := (((- s) * (toC 2)) * (s + (toC (m2 * 4)))) * (d_i_m_m_i_same_mass q om p m beta) in
  let t11 := b2 * (d_i_m_0_i q om p m beta) in
  let t12 := (s + (toC (m2 * 3))) * (toC (d_j_m_i q m beta)) in
  let t13 := (- m4) * (d2_j_m_i q m beta) in
  let t14 := (j_m_l_p_i - j_0_l_p_i) / (toC m2) in
  let t15 := (- d_j_m_l_p_i) + ((d2_j_m_l_p_i * (toC m2)) / (toC 2)) in
  (((((((((((t14 + t15) + (toC t13)) + t12) + (t7 + (t6 + t1))) + t2) + t3) + t4) + t5) + t8) + t9) + t10) + t11.

(* thermal/gluon.rs 439-473 *)
Definition polarization_glue_t_thermal_part_landau_i {T : Type} {NT : Num T} (q : R) (om : T) (p : R) (m : R) (beta : R) : C :=
  let s := (om * om) + (ofR (p * p)) in
  let s2 := s * s in
  let m2 := m * m in
  let m4 := m2 * m2 in
  let a := s + (ofR (m2 * 2)) in
  let b := s + (ofR m2) in
  let b2 := b * b in
  let t1 := (toC (((s2 * (ofR 3)) / (ofR (m4 * 2))) - (ofR 1))) * (i_0_0_t_i q om p beta) in
  let t2 := (toC (((((s2 * (ofR 3)) + ((s * (ofR m2)) * (ofR 8))) + (ofR (4 * m4))) / (ofR (2 * m4))) + (ofR 4))) * (i_m_m_t_i_same_mass q om p m beta) in
  let t3 := (toC ((- (((s2 * (ofR 3)) + ((s * (ofR m2)) * (ofR 4))) + (ofR m4))) / (ofR m4))) * (i_m_0_t_i q om p m beta) in
  let t4 := (toC (((a * s) * (ofR 2)) / (ofR m2))) * (i_m_m_i_same_mass q om p m beta) in
  let t5 := (toC ((((- b) * s) * (ofR 2)) / (ofR m2))) * (i_m_0_i q om p m beta) in
  let t6 := ((- ((s * (ofR 2)) + (ofR (m2 * 3)))) / (ofR m2)) * (ofR (j_m_i q m beta)) in
  let t7 := (((s * (ofR 2)) + (ofR m2)) / (ofR m2)) * (ofR (j_0_i q beta)) in
  let t8 := (toC (- (((a * a) / (ofR m2)) + (ofR (m2 * 8))))) * (d_i_m_m_t_i_same_mass q om p m beta) in
  let t9 := (toC (b2 / (ofR m2))) * (d_i_m_0_t_i q om p m beta) in
  let t10 := (toC (((- s) * (ofR 2)) * (s + (ofR (m2 * 4))))) * (d_i_m_m_i_same_mass q om p m beta) in
  let t11 := (toC b2) * (d_i_m_0_i q om p m beta) in
  let t12 := (s + (ofR (m2 * 3))) * (ofR (d_j_m_i q m beta)) in
  let t13 := (- m4) * (d2_j_m_i q m beta) in
  let t14 := ((j_m_t_i q m beta) - (j_0_t_i q beta)) / m2 in
  let t15 := (- (d_j_m_t_i q m beta)) + (((d2_j_m_t_i q m beta) * m2) / 2) in
  ((((((((((((toC t12) + ((toC t7) + ((toC t6) + t1))) + t2) + t3) + t4) + t5) + t8) + t9) + t10) + t11) + (toC t14)) + (toC t15)) + (toC t13).

(* thermal/gluon.rs 476-497 *)
Definition polarization_quark_l_thermal_part_landau_i {T1 : Type} {NT1 : Num T1} {T2 : Type} {NT2 : Num T2} (nc : nat) (q : R) (om : T1) (p : T2) (mq : R) (beta : R) (mu : R) : C :=
  let p2 := p * p in
  let s := (toC (om * om)) + (toC p2) in
  let en := energy q mq in
  let tl := tlog_same_mass q om p en in
  let tl_opp := tlog_same_mass q (- om) p en in
  let t1 := ((s - (toC ((en * en) * 4))) + (((toC (om * (ofR 4))) * Ci) * (toC en))) * tl in
  let t1_opp := ((s - (toC ((en * en) * 4))) - (((toC (om * (ofR 4))) * Ci) * (toC en))) * tl_opp in
  ((((toC ((- (ninv ((((p2 * (ofR en)) * (ofR (INR nc))) * (ofR 2)) * (ofR PI2)))) * (ofR (fermi_distribution_double en beta mu)))) * s) * (toC q)) * (toC q)) * ((toC 1) - ((toC (ninv ((p * (ofR q)) * (ofR 8)))) * (t1 + t1_opp))).

(* thermal/gluon.rs 500-522 *)
Definition polarization_quark_t_thermal_part_landau_i {T : Type} {NT : Num T} (nc : nat) (q : R) (om : T) (p : R) (mq : R) (beta : R) (mu : R) : C :=
  let p2 := p * p in
  let om2 := om * om in
  let s := om2 + (ofR p2) in
  let q2 := q * q in
  let en := energy q mq in
  let a := (- om2) + (ofR p2) in
  let b := ((a * s) + (ofR ((4 * q2) * p2))) + (((om2 * (ofR 4)) * (ofR en)) * (ofR en)) in
  let c := ((toC ((om * s) * (ofR 4))) * Ci) * (toC en) in
  let tl := tlog_same_mass q om p en in
  let tl_opp := tlog_same_mass q (- om) p en in
  let t1 := ((toC b) - c) * tl in
  let t1_opp := ((toC b) + c) * tl_opp in
  (toC (((- (fermi_distribution_double en beta mu)) * q2) / ((((p2 * en) * (INR nc)) * 4) * PI2))) * ((toC a) - ((t1 + t1_opp) / (toC ((8 * q) * p)))).

(* thermal/gluon.rs 525-545 *)
Definition polarization_quark_l_thermal_part_zero_temp_landau_i {T1 : Type} {NT1 : Num T1} {T2 : Type} {NT2 : Num T2} (nc : nat) (q : R) (om : T1) (p : T2) (mq : R) (mu : R) : C :=
  let p2 := p * p in
  let s := (toC (om * om)) + (toC p2) in
  let en := energy q mq in
  let tl := tlog_same_mass q om p en in
  let tl_opp := tlog_same_mass q (- om) p en in
  let t1 := ((s - (toC ((en * en) * 4))) + (((toC (om * (ofR 4))) * Ci) * (toC en))) * tl in
  let t1_opp := ((s - (toC ((en * en) * 4))) - (((toC (om * (ofR 4))) * Ci) * (toC en))) * tl_opp in
  ((((toC ((- (ninv ((((p2 * (ofR en)) * (ofR (INR nc))) * (ofR 2)) * (ofR PI2)))) * (ofR (fermi_distribution_double_zero_temp en mu)))) * s) * (toC q)) * (toC q)) * ((toC 1) - ((toC (ninv ((p * (ofR q)) * (ofR 8)))) * (t1 + t1_opp))).

(* thermal/gluon.rs 548-569 *)
Definition polarization_quark_t_thermal_part_zero_temp_landau_i {T : Type} {NT : Num T} (nc : nat) (q : R) (om : T) (p : R) (mq : R) (mu : R) : C :=
  let p2 := p * p in
  let om2 := om * om in
  let s := om2 + (ofR p2) in
  let q2 := q * q in
  let en := energy q mq in
  let a := (- om2) + (ofR p2) in
  let b := ((a * s) + (ofR ((4 * q2) * p2))) + (((om2 * (ofR 4)) * (ofR en)) * (ofR en)) in
  let c := ((toC ((om * s) * (ofR 4))) * Ci) * (toC en) in
  let tl := tlog_same_mass q om p en in
  let tl_opp := tlog_same_mass q (- om) p en in
  let t1 := ((toC b) - c) * tl in
  let t1_opp := ((toC b) + c) * tl_opp in
  (toC (((- (fermi_distribution_double_zero_temp en mu)) * q2) / ((((p2 * en) * (INR nc)) * 4) * PI2))) * ((toC a) - ((t1 + t1_opp) / (toC ((8 * q) * p)))).

(* thermal/gluon.rs 917-949 *)
Definition zm_polarization_glue_l_thermal_part_landau_i (q : R) (p : R) (m : R) (beta : R) : C :=
  let s := p * p in
  let s2 := s * s in
  let m2 := m * m in
  let m4 := m2 * m2 in
  let a := m2 * 2 + s in
  let b := s + m2 in
  let j_m_l_p_i := j_m_l_i q m beta in
  let j_0_l_p_i := j_0_l_i q beta in
  let d_j_m_l_p_i := d_j_m_l_i q m beta in
  let d2_j_m_l_p_i := d2_j_m_l_i q m beta in
  let t1 := (((s2 * 3) / (m4 * 2)) - 1) * (zm_i_0_0_l_i q p beta) in
  let t2 := (((4 * m4 + (s2 * 3 + ((s * m2) * 8))) / (2 * m4)) + 4) * (zm_i_m_m_l_i_same_mass q p m beta) in
  let t3 := (toC ((- ((s2 * 3 + ((s * m2) * 4)) + m4)) / m4)) * (zm_i_m_0_l_i q p m beta) in
  let t4 := (((a * s) * 2) / m2) * (zm_i_m_m_i_same_mass q p m beta) in
  let t5 := (toC ((((- b) * s) * 2) / m2)) * (zm_i_m_0_i q p m beta) in
  let t6 := ((- (s * 2 + (m2 * 3))) / m2) * (j_m_i q m beta) in
  let t7 := ((s * 2 + m2) / m2) * (j_0_i q beta) in
  let t8 := (- (m2 * 8 + ((a * a) / m2))) * (zm_d_i_m_m_l_i_same_mass q p m beta) in
  let t9 := ((b * b) / m2) * (zm_d_i_m_0_l_i q p m beta) in
  let t10 := (((- s) * 2) * (m2 * 4 + s)) * (zm_d_i_m_m_i_same_mass q p m beta) in
  let t11 := (b * b) * (zm_d_i_m_0_i q p m beta) in
  let t12 := (m2 * 3 + s) * (d_j_m_i q m beta) in
  let t13 := (- m4) * (d2_j_m_i q m beta) in
  let t14 := (j_m_l_p_i - j_0_l_p_i) / m2 in
  let t15 := (- d_j_m_l_p_i) + ((d2_j_m_l_p_i * m2) / 2) in
  (((((((toC (((((t14 + t15) + t13) + t12) + (t7 + (t6 + t1))) + t2)) + t3) + (toC t4)) + t5) + (toC t8)) + (toC t9)) + (toC t10)) + (toC t11).

(* thermal/gluon.rs 952-979 *)
Definition zm_polarization_glue_t_thermal_part_landau_i (q : R) (p : R) (m : R) (beta : R) : C :=
  let s := p * p in
  let s2 := s * s in
  let m2 := m * m in
  let m4 := m2 * m2 in
  let a := m2 * 2 + s in
  let b := s + m2 in
  let t1 := (((s2 * 3) / (m4 * 2)) - 1) * (zm_i_0_0_t_i q p beta) in
  let t2 := (((4 * m4 + (s2 * 3 + ((s * m2) * 8))) / (2 * m4)) + 4) * (zm_i_m_m_t_i_same_mass q p m beta) in
  let t3 := (toC ((- ((s2 * 3 + ((s * m2) * 4)) + m4)) / m4)) * (zm_i_m_0_t_i q p m beta) in
  let t4 := (((a * s) * 2) / m2) * (zm_i_m_m_i_same_mass q p m beta) in
  let t5 := (toC ((((- b) * s) * 2) / m2)) * (zm_i_m_0_i q p m beta) in
  let t6 := ((- (s * 2 + (m2 * 3))) / m2) * (j_m_i q m beta) in
  let t7 := ((s * 2 + m2) / m2) * (j_0_i q beta) in
  let t8 := (- (m2 * 8 + ((a * a) / m2))) * (zm_d_i_m_m_t_i_same_mass q p m beta) in
  let t9 := (toC ((b * b) / m2)) * (zm_d_i_m_0_t_i q p m beta) in
  let t10 := (((- s) * 2) * (m2 * 4 + s)) * (zm_d_i_m_m_i_same_mass q p m beta) in
  let t11 := (b * b) * (zm_d_i_m_0_i q p m beta) in
  let t12 := (m2 * 3 + s) * (d_j_m_i q m beta) in
  let t13 := (- m4) * (d2_j_m_i q m beta) in
  let t14 := ((j_m_t_i q m beta) - (j_0_t_i q beta)) / m2 in
  let t15 := (- (d_j_m_t_i q m beta)) + (((d2_j_m_t_i q m beta) * m2) / 2) in
  ((((((((((toC ((t12 + (t7 + (t6 + t1))) + t2)) + t3) + (toC t4)) + t5) + (toC t8)) + t9) + (toC t10)) + (toC t11)) + (toC t14)) + (toC t15)) + (toC t13).

(* thermal/gluon.rs 982-988 *)
Definition zm_polarization_quark_l_thermal_part_landau_i (nc : nat) (q : R) (p : R) (mq : R) (beta : R) (mu : R) : R :=
  let s := p * p in
  let en := energy q mq in
  let t1 := (((en * en) * (- 4) + s) / ((4 * q) * p)) * (zm_tlog_same_mass q p) in
  ((((- (fermi_distribution_double en beta mu)) * q) * q) / (((en * (INR nc)) * 2) * PI2)) * (1 - t1).

(* thermal/gluon.rs 991-998 *)
Definition zm_polarization_quark_t_thermal_part_landau_i (nc : nat) (q : R) (p : R) (mq : R) (beta : R) (mu : R) : R :=
  let p2 := p * p in
  let q2 := q * q in
  let en := energy q mq in
  let t1 := (4 * q2 + p2) * (zm_tlog_same_mass q p) in
  (((- (fermi_distribution_double en beta mu)) * q2) / (((en * (INR nc)) * 4) * PI2)) * (1 - (t1 / ((4 * q) * p))).

(* thermal/gluon.rs 1001-1007 *)
Definition zm_polarization_quark_l_thermal_part_zero_temp_landau_i (nc : nat) (q : R) (p : R) (mq : R) (mu : R) : R :=
  let s := p * p in
  let en := energy q mq in
  let t1 := (((en * en) * (- 4) + s) / ((4 * q) * p)) * (zm_tlog_same_mass q p) in
  ((((- (fermi_distribution_double_zero_temp en mu)) * q) * q) / (((en * (INR nc)) * 2) * PI2)) * (1 - t1).

(* thermal/gluon.rs 1010-1017 *)
Definition zm_polarization_quark_t_thermal_part_zero_temp_landau_i (nc : nat) (q : R) (p : R) (mq : R) (mu : R) : R :=
  let p2 := p * p in
  let q2 := q * q in
  let en := energy q mq in
  let t1 := (4 * q2 + p2) * (zm_tlog_same_mass q p) in
  (((- (fermi_distribution_double_zero_temp en mu)) * q2) / (((en * (INR nc)) * 4) * PI2)) * (1 - (t1 / ((4 * q) * p))).

(* thermal/gluon.rs 1343-1375 *)
Definition zp_polarization_glue_l_thermal_part_landau_i {T : Type} {NT : Num T} (q : R) (om : T) (m : R) (beta : R) : C :=
  let s := om * om in
  let s2 := s * s in
  let m2 := m * m in
  let m4 := m2 * m2 in
  let a := s + (ofR (m2 * 2)) in
  let b := s + (ofR m2) in
  let j_m_l_p_i := j_m_t_i q m beta in
  let j_0_l_p_i := j_0_t_i q beta in
  let d_j_m_l_p_i := d_j_m_t_i q m beta in
  let d2_j_m_l_p_i := d2_j_m_t_i q m beta in
  let t1 := (toC (((s2 * (ofR 3)) / (ofR (m4 * 2))) - (ofR 1))) * (zp_i_0_0_l_i q om beta) in
  let t2 := (toC (((((s2 * (ofR 3)) + ((s * (ofR m2)) * (ofR 8))) + (ofR (4 * m4))) / (ofR (2 * m4))) + (ofR 4))) * (zp_i_m_m_l_i_same_mass q om m beta) in
  let t3 := (toC ((- (((s2 * (ofR 3)) + ((s * (ofR m2)) * (ofR 4))) + (ofR m4))) / (ofR m4))) * (zp_i_m_0_l_i q om m beta) in
  let t4 := (toC (((a * s) * (ofR 2)) / (ofR m2))) * (zp_i_m_m_i_same_mass q om m beta) in
  let t5 := (toC ((((- b) * s) * (ofR 2)) / (ofR m2))) * (zp_i_m_0_i q om m beta) in
  let t6 := ((- ((s * (ofR 2)) + (ofR (m2 * 3)))) / (ofR m2)) * (ofR (j_m_i q m beta)) in
  let t7 := (((s * (ofR 2)) + (ofR m2)) / (ofR m2)) * (ofR (j_0_i q beta)) in
  let t8 := (toC (- (((a * a) / (ofR m2)) + (ofR (m2 * 8))))) * (zp_d_i_m_m_l_i_same_mass q om m beta) in
  let t9 := (toC ((b * b) / (ofR m2))) * (zp_d_i_m_0_l_i q om m beta) in
  let t10 := (toC (((- s) * (ofR 2)) * (s + (ofR (m2 * 4))))) * (zp_d_i_m_m_i_same_mass q om m beta) in
  let t11 := (toC (b * b)) * (zp_d_i_m_0_i q om m beta) in
  let t12 := (s + (ofR (m2 * 3))) * (ofR (d_j_m_i q m beta)) in
  let t13 := (- m4) * (d2_j_m_i q m beta) in
  let t14 := (j_m_l_p_i - j_0_l_p_i) / m2 in
  let t15 := (- d_j_m_l_p_i) + ((d2_j_m_l_p_i * m2) / 2) in
  (((((((((toC (t12 + (ofR ((t14 + t15) + t13)))) + ((toC t7) + ((toC t6) + t1))) + t2) + t3) + t4) + t5) + t8) + t9) + t10) + t11.

(* thermal/gluon.rs 1378-1380 *)
Definition zp_polarization_glue_t_thermal_part_landau_i {T : Type} {NT : Num T} (q : R) (om : T) (m : R) (beta : R) : C :=
  zp_polarization_glue_l_thermal_part_landau_i q om m beta.

(* thermal/gluon.rs 1383-1399 *)
Definition zp_polarization_quark_l_thermal_part_landau_i {T : Type} {NT : Num T} (nc : nat) (q : R) (om : T) (mq : R) (beta : R) (mu : R) : T :=
  let en := energy q mq in
  let en2 := en * en in
  let q2 := q * q in
  ((((ninv ((((((om * om) + (ofR (4 * en2))) * (ofR en)) * (ofR 3)) * (ofR PI2)) * (ofR (INR nc)))) * (ofR 2)) * (ofR (fermi_distribution_double en beta mu))) * (ofR q2)) * (ofR (3 * (- en2) + q2)).

(* thermal/gluon.rs 1402-1410 *)
Definition zp_polarization_quark_t_thermal_part_landau_i {T : Type} {NT : Num T} (nc : nat) (q : R) (om : T) (mq : R) (beta : R) (mu : R) : T :=
  zp_polarization_quark_l_thermal_part_landau_i nc q om mq beta mu.

(* thermal/gluon.rs 1413-1428 *)
Definition zp_polarization_quark_l_thermal_part_zero_temp_landau_i {T : Type} {NT : Num T} (nc : nat) (q : R) (om : T) (mq : R) (mu : R) : T :=
  let en := energy q mq in
  let en2 := en * en in
  let q2 := q * q in
  ((((ninv ((((((om * om) + (ofR (4 * en2))) * (ofR en)) * (ofR 3)) * (ofR PI2)) * (ofR (INR nc)))) * (ofR 2)) * (ofR (fermi_distribution_double_zero_temp en mu))) * (ofR q2)) * (ofR (3 * (- en2) + q2)).

(* thermal/gluon.rs 1431-1438 *)
Definition zp_polarization_quark_t_thermal_part_zero_temp_landau_i {T : Type} {NT : Num T} (nc : nat) (q : R) (om : T) (mq : R) (mu : R) : T :=
  zp_polarization_quark_l_thermal_part_zero_temp_landau_i nc q om mq mu.
