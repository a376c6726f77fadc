(** * The integrands, listed (for the statements of C29-C38, C41, C57)

    General kinematics, zero Matsubara frequency and zero momentum list the
    same quantities in the same order. Real values are embedded by [toC]. *)
From Coq Require Import Reals List.
From Coquelicot Require Import Coquelicot.
From Verif Require Import Num MCommon MThermal MThermalZM MThermalZP MPolar.
Import List ListNotations.
Open Scope R_scope.

(** ** General kinematics *)

Definition bubbles_mm {T : Type} {NT : Num T} {T1 : Type} {NT1 : Num T1} {T2 : Type} {NT2 : Num T2} (q : R) (om : T) (p : R) (m1 : T1) (m2 : T2) (beta : R) : list C :=
  [ i_m_m_i q om p m1 m2 beta;
    i_m_m_l_i q om p m1 m2 beta;
    i_m_m_t_i q om p m1 m2 beta;
    d_i_m_m_i q om p m1 m2 beta;
    d_i_m_m_l_i q om p m1 m2 beta;
    d_i_m_m_t_i q om p m1 m2 beta ].

Definition bubbles_same {T : Type} {NT : Num T} {T1 : Type} {NT1 : Num T1} (q : R) (om : T) (p : R) (m : T1) (beta : R) : list C :=
  [ i_m_m_i_same_mass q om p m beta;
    i_m_m_l_i_same_mass q om p m beta;
    i_m_m_t_i_same_mass q om p m beta;
    d_i_m_m_i_same_mass q om p m beta;
    d_i_m_m_l_i_same_mass q om p m beta;
    d_i_m_m_t_i_same_mass q om p m beta ].

Definition bubbles_m0 {T : Type} {NT : Num T} {T1 : Type} {NT1 : Num T1} (q : R) (om : T) (p : R) (m : T1) (beta : R) : list C :=
  [ i_m_0_i q om p m beta;
    i_m_0_l_i q om p m beta;
    i_m_0_t_i q om p m beta;
    d_i_m_0_i q om p m beta;
    d_i_m_0_l_i q om p m beta;
    d_i_m_0_t_i q om p m beta ].

Definition bubbles_0 {T : Type} {NT : Num T} (q : R) (om : T) (p : R) (beta : R) : list C :=
  [ i_0_0_i q om p beta;
    i_0_0_l_i q om p beta;
    i_0_0_t_i q om p beta;
    d_i_0_0_i q om p beta;
    d_i_0_0_l_i q om p beta;
    d_i_0_0_t_i q om p beta ].

Definition glue_parts {T : Type} {NT : Num T} (q : R) (om : T) (p : R) (m : R) (beta : R) : list C :=
  [ ghost_self_energy_thermal_part_landau_i q om p m beta;
    polarization_glue_l_thermal_part_landau_i q om p m beta;
    polarization_glue_t_thermal_part_landau_i q om p m beta ].

Definition quark_parts {T : Type} {NT : Num T} (nc : nat) (q : R) (om : T) (p : R) (mq : R) (beta mu : R) : list C :=
  [ polarization_quark_l_thermal_part_landau_i nc q om p mq beta mu;
    polarization_quark_t_thermal_part_landau_i nc q om p mq beta mu ].

Definition quark_parts_zero_temp {T : Type} {NT : Num T} (nc : nat) (q : R) (om : T) (p : R) (mq : R) (mu : R) : list C :=
  [ polarization_quark_l_thermal_part_zero_temp_landau_i nc q om p mq mu;
    polarization_quark_t_thermal_part_zero_temp_landau_i nc q om p mq mu ].

(** ** Zero Matsubara frequency *)

Definition zm_bubbles_mm {T1 : Type} {NT1 : Num T1} {T2 : Type} {NT2 : Num T2} (q p : R) (m1 : T1) (m2 : T2) (beta : R) : list C :=
  [ zm_i_m_m_i q p m1 m2 beta;
    zm_i_m_m_l_i q p m1 m2 beta;
    zm_i_m_m_t_i q p m1 m2 beta;
    zm_d_i_m_m_i q p m1 m2 beta;
    zm_d_i_m_m_l_i q p m1 m2 beta;
    zm_d_i_m_m_t_i q p m1 m2 beta ].

Definition zm_bubbles_same {T1 : Type} {NT1 : Num T1} (q p : R) (m : T1) (beta : R) : list C :=
  [ toC (zm_i_m_m_i_same_mass q p m beta);
    toC (zm_i_m_m_l_i_same_mass q p m beta);
    toC (zm_i_m_m_t_i_same_mass q p m beta);
    toC (zm_d_i_m_m_i_same_mass q p m beta);
    toC (zm_d_i_m_m_l_i_same_mass q p m beta);
    toC (zm_d_i_m_m_t_i_same_mass q p m beta) ].

Definition zm_bubbles_m0 {T1 : Type} {NT1 : Num T1} (q p : R) (m : T1) (beta : R) : list C :=
  [ zm_i_m_0_i q p m beta;
    zm_i_m_0_l_i q p m beta;
    zm_i_m_0_t_i q p m beta;
    toC (zm_d_i_m_0_i q p m beta);
    toC (zm_d_i_m_0_l_i q p m beta);
    zm_d_i_m_0_t_i q p m beta ].

Definition zm_bubbles_0 (q p : R) (beta : R) : list C :=
  [ toC (zm_i_0_0_i q p beta);
    toC (zm_i_0_0_l_i q p beta);
    toC (zm_i_0_0_t_i q p beta);
    toC (zm_d_i_0_0_i q p beta);
    toC (zm_d_i_0_0_l_i q p beta);
    toC (zm_d_i_0_0_t_i q p beta) ].

Definition zm_glue_parts (q p m : R) (beta : R) : list C :=
  [ zm_ghost_self_energy_thermal_part_landau_i q p m beta;
    zm_polarization_glue_l_thermal_part_landau_i q p m beta;
    zm_polarization_glue_t_thermal_part_landau_i q p m beta ].

Definition zm_quark_parts (nc : nat) (q p : R) (mq : R) (beta mu : R) : list C :=
  [ toC (zm_polarization_quark_l_thermal_part_landau_i nc q p mq beta mu);
    toC (zm_polarization_quark_t_thermal_part_landau_i nc q p mq beta mu) ].

Definition zm_quark_parts_zero_temp (nc : nat) (q p : R) (mq : R) (mu : R) : list C :=
  [ toC (zm_polarization_quark_l_thermal_part_zero_temp_landau_i nc q p mq mu);
    toC (zm_polarization_quark_t_thermal_part_zero_temp_landau_i nc q p mq mu) ].

(** ** Zero momentum *)

Definition zp_bubbles_mm {T : Type} {NT : Num T} {T1 : Type} {NT1 : Num T1} {T2 : Type} {NT2 : Num T2} (q : R) (om : T) (m1 : T1) (m2 : T2) (beta : R) : list C :=
  [ zp_i_m_m_i q om m1 m2 beta;
    zp_i_m_m_l_i q om m1 m2 beta;
    zp_i_m_m_t_i q om m1 m2 beta;
    zp_d_i_m_m_i q om m1 m2 beta;
    zp_d_i_m_m_l_i q om m1 m2 beta;
    zp_d_i_m_m_t_i q om m1 m2 beta ].

Definition zp_bubbles_same {T : Type} {NT : Num T} {T1 : Type} {NT1 : Num T1} (q : R) (om : T) (m : T1) (beta : R) : list C :=
  [ zp_i_m_m_i_same_mass q om m beta;
    zp_i_m_m_l_i_same_mass q om m beta;
    zp_i_m_m_t_i_same_mass q om m beta;
    zp_d_i_m_m_i_same_mass q om m beta;
    zp_d_i_m_m_l_i_same_mass q om m beta;
    zp_d_i_m_m_t_i_same_mass q om m beta ].

Definition zp_bubbles_m0 {T : Type} {NT : Num T} {T1 : Type} {NT1 : Num T1} (q : R) (om : T) (m : T1) (beta : R) : list C :=
  [ zp_i_m_0_i q om m beta;
    zp_i_m_0_l_i q om m beta;
    zp_i_m_0_t_i q om m beta;
    zp_d_i_m_0_i q om m beta;
    zp_d_i_m_0_l_i q om m beta;
    zp_d_i_m_0_t_i q om m beta ].

Definition zp_bubbles_0 {T : Type} {NT : Num T} (q : R) (om : T) (beta : R) : list C :=
  [ zp_i_0_0_i q om beta;
    zp_i_0_0_l_i q om beta;
    zp_i_0_0_t_i q om beta;
    zp_d_i_0_0_i q om beta;
    zp_d_i_0_0_l_i q om beta;
    zp_d_i_0_0_t_i q om beta ].

Definition zp_glue_parts {T : Type} {NT : Num T} (q : R) (om : T) (m : R) (beta : R) : list C :=
  [ zp_ghost_self_energy_thermal_part_landau_i q om m beta;
    zp_polarization_glue_l_thermal_part_landau_i q om m beta;
    zp_polarization_glue_t_thermal_part_landau_i q om m beta ].

Definition zp_quark_parts {T : Type} {NT : Num T} (nc : nat) (q : R) (om : T) (mq : R) (beta mu : R) : list C :=
  [ toC (zp_polarization_quark_l_thermal_part_landau_i nc q om mq beta mu);
    toC (zp_polarization_quark_t_thermal_part_landau_i nc q om mq beta mu) ].

Definition zp_quark_parts_zero_temp {T : Type} {NT : Num T} (nc : nat) (q : R) (om : T) (mq : R) (mu : R) : list C :=
  [ toC (zp_polarization_quark_l_thermal_part_zero_temp_landau_i nc q om mq mu);
    toC (zp_polarization_quark_t_thermal_part_zero_temp_landau_i nc q om mq mu) ].

(** ** Tadpoles *)

Definition tadpoles {T : Type} {NT : Num T} (q : R) (m : T) (beta : R) : list T :=
  [ j_m_i q m beta; j_m_l_i q m beta; j_m_t_i q m beta; d_j_m_i q m beta; d_j_m_l_i q m beta; d_j_m_t_i q m beta;
    d2_j_m_i q m beta; d2_j_m_l_i q m beta; d2_j_m_t_i q m beta ].

Definition tadpoles_0 (q : R) (beta : R) : list R :=
  [ j_0_i q beta; j_0_l_i q beta; j_0_t_i q beta; d_j_0_i q beta; d_j_0_l_i q beta; d_j_0_t_i q beta;
    d2_j_0_i q beta; d2_j_0_l_i q beta; d2_j_0_t_i q beta ].

(** ** All the quark polarization integrands *)
Definition all_quark {T : Type} {NT : Num T} (nc : nat) (q : R) (om : T) (p mq beta mu : R) : list C :=
  quark_parts nc q om p mq beta mu ++ zp_quark_parts nc q om mq beta mu ++ zm_quark_parts nc q p mq beta mu.
Definition all_quark0 {T : Type} {NT : Num T} (nc : nat) (q : R) (om : T) (p mq mu : R) : list C :=
  quark_parts_zero_temp nc q om p mq mu ++ zp_quark_parts_zero_temp nc q om mq mu ++ zm_quark_parts_zero_temp nc q p mq mu.

(** ** Logarithmic singularities at zero frequency

    At om = 0 the logarithms of mass difference [d] have their singularities at
    p^2 + d + 2 q p = 0 and p^2 + d - 2 q p = 0. *)
Definition nonsing (q p d : R) : Prop := p * p + d + 2 * q * p <> 0 /\ p * p + d - 2 * q * p <> 0.
