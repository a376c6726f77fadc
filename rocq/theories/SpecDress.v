(** * Vocabulary for the thermal dressing functions and propagators

    Every list is in the order longitudinal, transverse (ghost first where
    present). [gen] is general kinematics, [zm] zero Matsubara frequency, [zp]
    zero momentum; [zt] zero temperature; [cfg] explicit field configuration. *)
From Coq Require Import Reals List.
From Coquelicot Require Import Coquelicot.
From Verif Require Import Num MConsts MVacuum MThermal MPolar MDress.
Import ListNotations.
Open Scope R_scope.

(** Weighted sums. *)
Definition wsum_R (l : list (R * R)) : R := fold_right (fun x acc => fst x * snd x + acc) 0 l.
Definition wsum_C (l : list (R * C)) : C := fold_right (fun x acc => (RtoC (fst x) * snd x + acc)%C) (RtoC 0) l.

(** (inverse dressing, dressing, propagator). *)
Definition gen_families {T : Type} {NT : Num T} (J : Integrator) (g : globals R) (om : T) (p : R) (m mq beta mu g0 f0 : R) (cfg : FieldConfig) : list (C * C * C) :=
  [ (ym_ghost_dressing_inv J g om p m beta g0, ym_ghost_dressing J g om p m beta g0, ym_ghost_propagator J g om p m beta g0);
    (ym_gluon_dressing_l_inv J g om p m beta f0, ym_gluon_dressing_l J g om p m beta f0, ym_gluon_propagator_l J g om p m beta f0);
    (ym_gluon_dressing_t_inv J g om p m beta f0, ym_gluon_dressing_t J g om p m beta f0, ym_gluon_propagator_t J g om p m beta f0);
    (qcd_gluon_dressing_l_inv J g om p m mq beta mu f0, qcd_gluon_dressing_l J g om p m mq beta mu f0, qcd_gluon_propagator_l J g om p m mq beta mu f0);
    (qcd_gluon_dressing_t_inv J g om p m mq beta mu f0, qcd_gluon_dressing_t J g om p m mq beta mu f0, qcd_gluon_propagator_t J g om p m mq beta mu f0);
    (qcd_gluon_dressing_l_inv_zero_temp J g om p m mq mu f0, qcd_gluon_dressing_l_zero_temp J g om p m mq mu f0, qcd_gluon_propagator_l_zero_temp J g om p m mq mu f0);
    (qcd_gluon_dressing_t_inv_zero_temp J g om p m mq mu f0, qcd_gluon_dressing_t_zero_temp J g om p m mq mu f0, qcd_gluon_propagator_t_zero_temp J g om p m mq mu f0);
    (qcd_gluon_dressing_l_inv_w_field_config J g om p beta mu f0 cfg, qcd_gluon_dressing_l_w_field_config J g om p beta mu f0 cfg, qcd_gluon_propagator_l_w_field_config J g om p beta mu f0 cfg);
    (qcd_gluon_dressing_t_inv_w_field_config J g om p beta mu f0 cfg, qcd_gluon_dressing_t_w_field_config J g om p beta mu f0 cfg, qcd_gluon_propagator_t_w_field_config J g om p beta mu f0 cfg);
    (qcd_gluon_dressing_l_inv_zero_temp_w_field_config J g om p mu f0 cfg, qcd_gluon_dressing_l_zero_temp_w_field_config J g om p mu f0 cfg, qcd_gluon_propagator_l_zero_temp_w_field_config J g om p mu f0 cfg);
    (qcd_gluon_dressing_t_inv_zero_temp_w_field_config J g om p mu f0 cfg, qcd_gluon_dressing_t_zero_temp_w_field_config J g om p mu f0 cfg, qcd_gluon_propagator_t_zero_temp_w_field_config J g om p mu f0 cfg) ].

(** (sign, weighted thermal integrals, inverse dressing, vacuum inverse dressing). *)
Definition gen_reductions {T : Type} {NT : Num T} (J : Integrator) (g : globals R) (om : T) (p : R) (nc : nat) (m mq beta mu g0 f0 : R) (quarks : list (nat * R)) : list (R * list (R * C) * C * C) :=
  let cfg := FieldConfig_new nc m quarks in
  [ (1, [(1, ghost_self_energy J g om p m beta)],
      ym_ghost_dressing_inv J g om p m beta g0,
      toC (ym_ghost_dressing_inv_landau ((om * om + ofR (p * p))%num / ofR (m * m))%num g0));
    (-1, [(1, polarization_glue_l_thermal_part_landau J g om p m beta)],
      ym_gluon_dressing_l_inv J g om p m beta f0,
      toC (ym_gluon_dressing_inv_landau ((om * om + ofR (p * p))%num / ofR (m * m))%num f0));
    (-1, [(1, polarization_glue_t_thermal_part_landau J g om p m beta)],
      ym_gluon_dressing_t_inv J g om p m beta f0,
      toC (ym_gluon_dressing_inv_landau ((om * om + ofR (p * p))%num / ofR (m * m))%num f0));
    (-1, [(1, polarization_glue_l_thermal_part_landau J g om p m beta);
        (INR (g_nf g), polarization_quark_l_thermal_part_landau J g om p mq beta mu)],
      qcd_gluon_dressing_l_inv J g om p m mq beta mu f0,
      toC (qcd_gluon_dressing_inv_landau (g_nf_div_nc g) ((om * om + ofR (p * p))%num / ofR (m * m))%num (mq / m) f0));
    (-1, [(1, polarization_glue_t_thermal_part_landau J g om p m beta);
        (INR (g_nf g), polarization_quark_t_thermal_part_landau J g om p mq beta mu)],
      qcd_gluon_dressing_t_inv J g om p m mq beta mu f0,
      toC (qcd_gluon_dressing_inv_landau (g_nf_div_nc g) ((om * om + ofR (p * p))%num / ofR (m * m))%num (mq / m) f0));
    (-1, [(INR (g_nf g), polarization_quark_l_thermal_part_zero_temp_landau J g om p mq mu)],
      qcd_gluon_dressing_l_inv_zero_temp J g om p m mq mu f0,
      toC (qcd_gluon_dressing_inv_landau (g_nf_div_nc g) ((om * om + ofR (p * p))%num / ofR (m * m))%num (mq / m) f0));
    (-1, [(INR (g_nf g), polarization_quark_t_thermal_part_zero_temp_landau J g om p mq mu)],
      qcd_gluon_dressing_t_inv_zero_temp J g om p m mq mu f0,
      toC (qcd_gluon_dressing_inv_landau (g_nf_div_nc g) ((om * om + ofR (p * p))%num / ofR (m * m))%num (mq / m) f0));
    (-1, (1, polarization_glue_l_thermal_part_landau J g om p m beta) ::
       map (fun q => (INR (fst q), polarization_quark_l_thermal_part_landau J g om p (snd q) beta mu)) quarks,
      qcd_gluon_dressing_l_inv_w_field_config J g om p beta mu f0 cfg,
      toC (qcd_gluon_dressing_inv_landau_w_field_config ((om * om + ofR (p * p))%num / ofR (m * m))%num f0 cfg));
    (-1, (1, polarization_glue_t_thermal_part_landau J g om p m beta) ::
       map (fun q => (INR (fst q), polarization_quark_t_thermal_part_landau J g om p (snd q) beta mu)) quarks,
      qcd_gluon_dressing_t_inv_w_field_config J g om p beta mu f0 cfg,
      toC (qcd_gluon_dressing_inv_landau_w_field_config ((om * om + ofR (p * p))%num / ofR (m * m))%num f0 cfg));
    (-1, map (fun q => (INR (fst q), polarization_quark_l_thermal_part_zero_temp_landau J g om p (snd q) mu)) quarks,
      qcd_gluon_dressing_l_inv_zero_temp_w_field_config J g om p mu f0 cfg,
      toC (qcd_gluon_dressing_inv_landau_w_field_config ((om * om + ofR (p * p))%num / ofR (m * m))%num f0 cfg));
    (-1, map (fun q => (INR (fst q), polarization_quark_t_thermal_part_zero_temp_landau J g om p (snd q) mu)) quarks,
      qcd_gluon_dressing_t_inv_zero_temp_w_field_config J g om p mu f0 cfg,
      toC (qcd_gluon_dressing_inv_landau_w_field_config ((om * om + ofR (p * p))%num / ofR (m * m))%num f0 cfg)) ].

Definition gen_ym_l {T : Type} {NT : Num T} (J : Integrator) (g : globals R) (om : T) (p : R) (m beta f0 : R) : list C :=
  [ ym_gluon_dressing_l_inv J g om p m beta f0;
    ym_gluon_dressing_l J g om p m beta f0;
    ym_gluon_propagator_l J g om p m beta f0 ].
Definition gen_ym_t {T : Type} {NT : Num T} (J : Integrator) (g : globals R) (om : T) (p : R) (m beta f0 : R) : list C :=
  [ ym_gluon_dressing_t_inv J g om p m beta f0;
    ym_gluon_dressing_t J g om p m beta f0;
    ym_gluon_propagator_t J g om p m beta f0 ].

Definition gen_qcd_l {T : Type} {NT : Num T} (J : Integrator) (g : globals R) (om : T) (p : R) (m mq beta mu f0 : R) : list C :=
  [ qcd_gluon_dressing_l_inv J g om p m mq beta mu f0;
    qcd_gluon_dressing_l J g om p m mq beta mu f0;
    qcd_gluon_propagator_l J g om p m mq beta mu f0 ].
Definition gen_qcd_t {T : Type} {NT : Num T} (J : Integrator) (g : globals R) (om : T) (p : R) (m mq beta mu f0 : R) : list C :=
  [ qcd_gluon_dressing_t_inv J g om p m mq beta mu f0;
    qcd_gluon_dressing_t J g om p m mq beta mu f0;
    qcd_gluon_propagator_t J g om p m mq beta mu f0 ].

Definition gen_qcd_zt_l {T : Type} {NT : Num T} (J : Integrator) (g : globals R) (om : T) (p : R) (m mq mu f0 : R) : list C :=
  [ qcd_gluon_dressing_l_inv_zero_temp J g om p m mq mu f0;
    qcd_gluon_dressing_l_zero_temp J g om p m mq mu f0;
    qcd_gluon_propagator_l_zero_temp J g om p m mq mu f0 ].
Definition gen_qcd_zt_t {T : Type} {NT : Num T} (J : Integrator) (g : globals R) (om : T) (p : R) (m mq mu f0 : R) : list C :=
  [ qcd_gluon_dressing_t_inv_zero_temp J g om p m mq mu f0;
    qcd_gluon_dressing_t_zero_temp J g om p m mq mu f0;
    qcd_gluon_propagator_t_zero_temp J g om p m mq mu f0 ].

Definition gen_qcd_cfg_l {T : Type} {NT : Num T} (J : Integrator) (g : globals R) (om : T) (p : R) (beta mu f0 : R) (cfg : FieldConfig) : list C :=
  [ qcd_gluon_dressing_l_inv_w_field_config J g om p beta mu f0 cfg;
    qcd_gluon_dressing_l_w_field_config J g om p beta mu f0 cfg;
    qcd_gluon_propagator_l_w_field_config J g om p beta mu f0 cfg ].
Definition gen_qcd_cfg_t {T : Type} {NT : Num T} (J : Integrator) (g : globals R) (om : T) (p : R) (beta mu f0 : R) (cfg : FieldConfig) : list C :=
  [ qcd_gluon_dressing_t_inv_w_field_config J g om p beta mu f0 cfg;
    qcd_gluon_dressing_t_w_field_config J g om p beta mu f0 cfg;
    qcd_gluon_propagator_t_w_field_config J g om p beta mu f0 cfg ].

Definition gen_qcd_zt_cfg_l {T : Type} {NT : Num T} (J : Integrator) (g : globals R) (om : T) (p : R) (mu f0 : R) (cfg : FieldConfig) : list C :=
  [ qcd_gluon_dressing_l_inv_zero_temp_w_field_config J g om p mu f0 cfg;
    qcd_gluon_dressing_l_zero_temp_w_field_config J g om p mu f0 cfg;
    qcd_gluon_propagator_l_zero_temp_w_field_config J g om p mu f0 cfg ].
Definition gen_qcd_zt_cfg_t {T : Type} {NT : Num T} (J : Integrator) (g : globals R) (om : T) (p : R) (mu f0 : R) (cfg : FieldConfig) : list C :=
  [ qcd_gluon_dressing_t_inv_zero_temp_w_field_config J g om p mu f0 cfg;
    qcd_gluon_dressing_t_zero_temp_w_field_config J g om p mu f0 cfg;
    qcd_gluon_propagator_t_zero_temp_w_field_config J g om p mu f0 cfg ].

(** Vacuum Yang-Mills values at the same momentum (dimensionful propagator). *)
Definition gen_ym_vac {T : Type} {NT : Num T} (om : T) (p : R) (m f0 : R) : list C :=
  [ toC (ym_gluon_dressing_inv_landau ((om * om + ofR (p * p))%num / ofR (m * m))%num f0);
    toC (ym_gluon_dressing_landau ((om * om + ofR (p * p))%num / ofR (m * m))%num f0);
    (toC (ninv (om * om + ofR (p * p))%num) * toC (ym_gluon_dressing_landau ((om * om + ofR (p * p))%num / ofR (m * m))%num f0))%C ].

(** (inverse dressing, dressing, propagator). *)
Definition zm_families  (J : Integrator) (g : globals R) (p : R) (m mq beta mu g0 f0 : R) (cfg : FieldConfig) : list (R * R * R) :=
  [ (zm_ym_ghost_dressing_inv J g p m beta g0, zm_ym_ghost_dressing J g p m beta g0, zm_ym_ghost_propagator J g p m beta g0);
    (zm_ym_gluon_dressing_l_inv J g p m beta f0, zm_ym_gluon_dressing_l J g p m beta f0, zm_ym_gluon_propagator_l J g p m beta f0);
    (zm_ym_gluon_dressing_t_inv J g p m beta f0, zm_ym_gluon_dressing_t J g p m beta f0, zm_ym_gluon_propagator_t J g p m beta f0);
    (zm_qcd_gluon_dressing_l_inv J g p m mq beta mu f0, zm_qcd_gluon_dressing_l J g p m mq beta mu f0, zm_qcd_gluon_propagator_l J g p m mq beta mu f0);
    (zm_qcd_gluon_dressing_t_inv J g p m mq beta mu f0, zm_qcd_gluon_dressing_t J g p m mq beta mu f0, zm_qcd_gluon_propagator_t J g p m mq beta mu f0);
    (zm_qcd_gluon_dressing_l_inv_zero_temp J g p m mq mu f0, zm_qcd_gluon_dressing_l_zero_temp J g p m mq mu f0, zm_qcd_gluon_propagator_l_zero_temp J g p m mq mu f0);
    (zm_qcd_gluon_dressing_t_inv_zero_temp J g p m mq mu f0, zm_qcd_gluon_dressing_t_zero_temp J g p m mq mu f0, zm_qcd_gluon_propagator_t_zero_temp J g p m mq mu f0);
    (zm_qcd_gluon_dressing_l_inv_w_field_config J g p beta mu f0 cfg, zm_qcd_gluon_dressing_l_w_field_config J g p beta mu f0 cfg, zm_qcd_gluon_propagator_l_w_field_config J g p beta mu f0 cfg);
    (zm_qcd_gluon_dressing_t_inv_w_field_config J g p beta mu f0 cfg, zm_qcd_gluon_dressing_t_w_field_config J g p beta mu f0 cfg, zm_qcd_gluon_propagator_t_w_field_config J g p beta mu f0 cfg);
    (zm_qcd_gluon_dressing_l_inv_zero_temp_w_field_config J g p mu f0 cfg, zm_qcd_gluon_dressing_l_zero_temp_w_field_config J g p mu f0 cfg, zm_qcd_gluon_propagator_l_zero_temp_w_field_config J g p mu f0 cfg);
    (zm_qcd_gluon_dressing_t_inv_zero_temp_w_field_config J g p mu f0 cfg, zm_qcd_gluon_dressing_t_zero_temp_w_field_config J g p mu f0 cfg, zm_qcd_gluon_propagator_t_zero_temp_w_field_config J g p mu f0 cfg) ].

(** (sign, weighted thermal integrals, inverse dressing, vacuum inverse dressing). *)
Definition zm_reductions  (J : Integrator) (g : globals R) (p : R) (nc : nat) (m mq beta mu g0 f0 : R) (quarks : list (nat * R)) : list (R * list (R * R) * R * R) :=
  let cfg := FieldConfig_new nc m quarks in
  [ (1, [(1, zm_ghost_self_energy J g p m beta)],
      zm_ym_ghost_dressing_inv J g p m beta g0,
      ym_ghost_dressing_inv_landau ((p * p) / ofR (m * m))%num g0);
    (-1, [(1, zm_polarization_glue_l_thermal_part_landau J g p m beta)],
      zm_ym_gluon_dressing_l_inv J g p m beta f0,
      ym_gluon_dressing_inv_landau ((p * p) / ofR (m * m))%num f0);
    (-1, [(1, zm_polarization_glue_t_thermal_part_landau J g p m beta)],
      zm_ym_gluon_dressing_t_inv J g p m beta f0,
      ym_gluon_dressing_inv_landau ((p * p) / ofR (m * m))%num f0);
    (-1, [(1, zm_polarization_glue_l_thermal_part_landau J g p m beta);
        (INR (g_nf g), zm_polarization_quark_l_thermal_part_landau J g p mq beta mu)],
      zm_qcd_gluon_dressing_l_inv J g p m mq beta mu f0,
      qcd_gluon_dressing_inv_landau (g_nf_div_nc g) ((p * p) / ofR (m * m))%num (mq / m) f0);
    (-1, [(1, zm_polarization_glue_t_thermal_part_landau J g p m beta);
        (INR (g_nf g), zm_polarization_quark_t_thermal_part_landau J g p mq beta mu)],
      zm_qcd_gluon_dressing_t_inv J g p m mq beta mu f0,
      qcd_gluon_dressing_inv_landau (g_nf_div_nc g) ((p * p) / ofR (m * m))%num (mq / m) f0);
    (-1, [(INR (g_nf g), zm_polarization_quark_l_thermal_part_zero_temp_landau J g p mq mu)],
      zm_qcd_gluon_dressing_l_inv_zero_temp J g p m mq mu f0,
      qcd_gluon_dressing_inv_landau (g_nf_div_nc g) ((p * p) / ofR (m * m))%num (mq / m) f0);
    (-1, [(INR (g_nf g), zm_polarization_quark_t_thermal_part_zero_temp_landau J g p mq mu)],
      zm_qcd_gluon_dressing_t_inv_zero_temp J g p m mq mu f0,
      qcd_gluon_dressing_inv_landau (g_nf_div_nc g) ((p * p) / ofR (m * m))%num (mq / m) f0);
    (-1, (1, zm_polarization_glue_l_thermal_part_landau J g p m beta) ::
       map (fun q => (INR (fst q), zm_polarization_quark_l_thermal_part_landau J g p (snd q) beta mu)) quarks,
      zm_qcd_gluon_dressing_l_inv_w_field_config J g p beta mu f0 cfg,
      qcd_gluon_dressing_inv_landau_w_field_config ((p * p) / ofR (m * m))%num f0 cfg);
    (-1, (1, zm_polarization_glue_t_thermal_part_landau J g p m beta) ::
       map (fun q => (INR (fst q), zm_polarization_quark_t_thermal_part_landau J g p (snd q) beta mu)) quarks,
      zm_qcd_gluon_dressing_t_inv_w_field_config J g p beta mu f0 cfg,
      qcd_gluon_dressing_inv_landau_w_field_config ((p * p) / ofR (m * m))%num f0 cfg);
    (-1, map (fun q => (INR (fst q), zm_polarization_quark_l_thermal_part_zero_temp_landau J g p (snd q) mu)) quarks,
      zm_qcd_gluon_dressing_l_inv_zero_temp_w_field_config J g p mu f0 cfg,
      qcd_gluon_dressing_inv_landau_w_field_config ((p * p) / ofR (m * m))%num f0 cfg);
    (-1, map (fun q => (INR (fst q), zm_polarization_quark_t_thermal_part_zero_temp_landau J g p (snd q) mu)) quarks,
      zm_qcd_gluon_dressing_t_inv_zero_temp_w_field_config J g p mu f0 cfg,
      qcd_gluon_dressing_inv_landau_w_field_config ((p * p) / ofR (m * m))%num f0 cfg) ].

Definition zm_ym_l  (J : Integrator) (g : globals R) (p : R) (m beta f0 : R) : list R :=
  [ zm_ym_gluon_dressing_l_inv J g p m beta f0;
    zm_ym_gluon_dressing_l J g p m beta f0;
    zm_ym_gluon_propagator_l J g p m beta f0 ].
Definition zm_ym_t  (J : Integrator) (g : globals R) (p : R) (m beta f0 : R) : list R :=
  [ zm_ym_gluon_dressing_t_inv J g p m beta f0;
    zm_ym_gluon_dressing_t J g p m beta f0;
    zm_ym_gluon_propagator_t J g p m beta f0 ].

Definition zm_qcd_l  (J : Integrator) (g : globals R) (p : R) (m mq beta mu f0 : R) : list R :=
  [ zm_qcd_gluon_dressing_l_inv J g p m mq beta mu f0;
    zm_qcd_gluon_dressing_l J g p m mq beta mu f0;
    zm_qcd_gluon_propagator_l J g p m mq beta mu f0 ].
Definition zm_qcd_t  (J : Integrator) (g : globals R) (p : R) (m mq beta mu f0 : R) : list R :=
  [ zm_qcd_gluon_dressing_t_inv J g p m mq beta mu f0;
    zm_qcd_gluon_dressing_t J g p m mq beta mu f0;
    zm_qcd_gluon_propagator_t J g p m mq beta mu f0 ].

Definition zm_qcd_zt_l  (J : Integrator) (g : globals R) (p : R) (m mq mu f0 : R) : list R :=
  [ zm_qcd_gluon_dressing_l_inv_zero_temp J g p m mq mu f0;
    zm_qcd_gluon_dressing_l_zero_temp J g p m mq mu f0;
    zm_qcd_gluon_propagator_l_zero_temp J g p m mq mu f0 ].
Definition zm_qcd_zt_t  (J : Integrator) (g : globals R) (p : R) (m mq mu f0 : R) : list R :=
  [ zm_qcd_gluon_dressing_t_inv_zero_temp J g p m mq mu f0;
    zm_qcd_gluon_dressing_t_zero_temp J g p m mq mu f0;
    zm_qcd_gluon_propagator_t_zero_temp J g p m mq mu f0 ].

Definition zm_qcd_cfg_l  (J : Integrator) (g : globals R) (p : R) (beta mu f0 : R) (cfg : FieldConfig) : list R :=
  [ zm_qcd_gluon_dressing_l_inv_w_field_config J g p beta mu f0 cfg;
    zm_qcd_gluon_dressing_l_w_field_config J g p beta mu f0 cfg;
    zm_qcd_gluon_propagator_l_w_field_config J g p beta mu f0 cfg ].
Definition zm_qcd_cfg_t  (J : Integrator) (g : globals R) (p : R) (beta mu f0 : R) (cfg : FieldConfig) : list R :=
  [ zm_qcd_gluon_dressing_t_inv_w_field_config J g p beta mu f0 cfg;
    zm_qcd_gluon_dressing_t_w_field_config J g p beta mu f0 cfg;
    zm_qcd_gluon_propagator_t_w_field_config J g p beta mu f0 cfg ].

Definition zm_qcd_zt_cfg_l  (J : Integrator) (g : globals R) (p : R) (mu f0 : R) (cfg : FieldConfig) : list R :=
  [ zm_qcd_gluon_dressing_l_inv_zero_temp_w_field_config J g p mu f0 cfg;
    zm_qcd_gluon_dressing_l_zero_temp_w_field_config J g p mu f0 cfg;
    zm_qcd_gluon_propagator_l_zero_temp_w_field_config J g p mu f0 cfg ].
Definition zm_qcd_zt_cfg_t  (J : Integrator) (g : globals R) (p : R) (mu f0 : R) (cfg : FieldConfig) : list R :=
  [ zm_qcd_gluon_dressing_t_inv_zero_temp_w_field_config J g p mu f0 cfg;
    zm_qcd_gluon_dressing_t_zero_temp_w_field_config J g p mu f0 cfg;
    zm_qcd_gluon_propagator_t_zero_temp_w_field_config J g p mu f0 cfg ].

(** Vacuum Yang-Mills values at the same momentum (dimensionful propagator). *)
Definition zm_ym_vac  (p : R) (m f0 : R) : list R :=
  [ ym_gluon_dressing_inv_landau ((p * p) / ofR (m * m))%num f0;
    ym_gluon_dressing_landau ((p * p) / ofR (m * m))%num f0;
    ym_gluon_dressing_landau ((p * p) / ofR (m * m))%num f0 / (p * p) ].

(** (inverse dressing, dressing, propagator). *)
Definition zp_families {T : Type} {NT : Num T} (J : Integrator) (g : globals R) (om : T) (m mq beta mu g0 f0 : R) (cfg : FieldConfig) : list (C * C * C) :=
  [ (zp_ym_ghost_dressing_inv J g om m beta g0, zp_ym_ghost_dressing J g om m beta g0, zp_ym_ghost_propagator J g om m beta g0);
    (zp_ym_gluon_dressing_l_inv J g om m beta f0, zp_ym_gluon_dressing_l J g om m beta f0, zp_ym_gluon_propagator_l J g om m beta f0);
    (zp_ym_gluon_dressing_t_inv J g om m beta f0, zp_ym_gluon_dressing_t J g om m beta f0, zp_ym_gluon_propagator_t J g om m beta f0);
    (zp_qcd_gluon_dressing_l_inv J g om m mq beta mu f0, zp_qcd_gluon_dressing_l J g om m mq beta mu f0, zp_qcd_gluon_propagator_l J g om m mq beta mu f0);
    (zp_qcd_gluon_dressing_t_inv J g om m mq beta mu f0, zp_qcd_gluon_dressing_t J g om m mq beta mu f0, zp_qcd_gluon_propagator_t J g om m mq beta mu f0);
    (zp_qcd_gluon_dressing_l_inv_zero_temp J g om m mq mu f0, zp_qcd_gluon_dressing_l_zero_temp J g om m mq mu f0, zp_qcd_gluon_propagator_l_zero_temp J g om m mq mu f0);
    (zp_qcd_gluon_dressing_t_inv_zero_temp J g om m mq mu f0, zp_qcd_gluon_dressing_t_zero_temp J g om m mq mu f0, zp_qcd_gluon_propagator_t_zero_temp J g om m mq mu f0);
    (zp_qcd_gluon_dressing_l_inv_w_field_config J g om beta mu f0 cfg, zp_qcd_gluon_dressing_l_w_field_config J g om beta mu f0 cfg, zp_qcd_gluon_propagator_l_w_field_config J g om beta mu f0 cfg);
    (zp_qcd_gluon_dressing_t_inv_w_field_config J g om beta mu f0 cfg, zp_qcd_gluon_dressing_t_w_field_config J g om beta mu f0 cfg, zp_qcd_gluon_propagator_t_w_field_config J g om beta mu f0 cfg);
    (zp_qcd_gluon_dressing_l_inv_zero_temp_w_field_config J g om mu f0 cfg, zp_qcd_gluon_dressing_l_zero_temp_w_field_config J g om mu f0 cfg, zp_qcd_gluon_propagator_l_zero_temp_w_field_config J g om mu f0 cfg);
    (zp_qcd_gluon_dressing_t_inv_zero_temp_w_field_config J g om mu f0 cfg, zp_qcd_gluon_dressing_t_zero_temp_w_field_config J g om mu f0 cfg, zp_qcd_gluon_propagator_t_zero_temp_w_field_config J g om mu f0 cfg) ].

(** (sign, weighted thermal integrals, inverse dressing, vacuum inverse dressing). *)
Definition zp_reductions {T : Type} {NT : Num T} (J : Integrator) (g : globals R) (om : T) (nc : nat) (m mq beta mu g0 f0 : R) (quarks : list (nat * R)) : list (R * list (R * C) * C * C) :=
  let cfg := FieldConfig_new nc m quarks in
  [ (1, [(1, zp_ghost_self_energy J g om m beta)],
      zp_ym_ghost_dressing_inv J g om m beta g0,
      toC (ym_ghost_dressing_inv_landau ((om * om)%num / ofR (m * m))%num g0));
    (-1, [(1, zp_polarization_glue_l_thermal_part_landau J g om m beta)],
      zp_ym_gluon_dressing_l_inv J g om m beta f0,
      toC (ym_gluon_dressing_inv_landau ((om * om)%num / ofR (m * m))%num f0));
    (-1, [(1, zp_polarization_glue_t_thermal_part_landau J g om m beta)],
      zp_ym_gluon_dressing_t_inv J g om m beta f0,
      toC (ym_gluon_dressing_inv_landau ((om * om)%num / ofR (m * m))%num f0));
    (-1, [(1, zp_polarization_glue_l_thermal_part_landau J g om m beta);
        (INR (g_nf g), zp_polarization_quark_l_thermal_part_landau J g om mq beta mu)],
      zp_qcd_gluon_dressing_l_inv J g om m mq beta mu f0,
      toC (qcd_gluon_dressing_inv_landau (g_nf_div_nc g) ((om * om)%num / ofR (m * m))%num (mq / m) f0));
    (-1, [(1, zp_polarization_glue_t_thermal_part_landau J g om m beta);
        (INR (g_nf g), zp_polarization_quark_t_thermal_part_landau J g om mq beta mu)],
      zp_qcd_gluon_dressing_t_inv J g om m mq beta mu f0,
      toC (qcd_gluon_dressing_inv_landau (g_nf_div_nc g) ((om * om)%num / ofR (m * m))%num (mq / m) f0));
    (-1, [(INR (g_nf g), zp_polarization_quark_l_thermal_part_zero_temp_landau J g om mq mu)],
      zp_qcd_gluon_dressing_l_inv_zero_temp J g om m mq mu f0,
      toC (qcd_gluon_dressing_inv_landau (g_nf_div_nc g) ((om * om)%num / ofR (m * m))%num (mq / m) f0));
    (-1, [(INR (g_nf g), zp_polarization_quark_t_thermal_part_zero_temp_landau J g om mq mu)],
      zp_qcd_gluon_dressing_t_inv_zero_temp J g om m mq mu f0,
      toC (qcd_gluon_dressing_inv_landau (g_nf_div_nc g) ((om * om)%num / ofR (m * m))%num (mq / m) f0));
    (-1, (1, zp_polarization_glue_l_thermal_part_landau J g om m beta) ::
       map (fun q => (INR (fst q), zp_polarization_quark_l_thermal_part_landau J g om (snd q) beta mu)) quarks,
      zp_qcd_gluon_dressing_l_inv_w_field_config J g om beta mu f0 cfg,
      toC (qcd_gluon_dressing_inv_landau_w_field_config ((om * om)%num / ofR (m * m))%num f0 cfg));
    (-1, (1, zp_polarization_glue_t_thermal_part_landau J g om m beta) ::
       map (fun q => (INR (fst q), zp_polarization_quark_t_thermal_part_landau J g om (snd q) beta mu)) quarks,
      zp_qcd_gluon_dressing_t_inv_w_field_config J g om beta mu f0 cfg,
      toC (qcd_gluon_dressing_inv_landau_w_field_config ((om * om)%num / ofR (m * m))%num f0 cfg));
    (-1, map (fun q => (INR (fst q), zp_polarization_quark_l_thermal_part_zero_temp_landau J g om (snd q) mu)) quarks,
      zp_qcd_gluon_dressing_l_inv_zero_temp_w_field_config J g om mu f0 cfg,
      toC (qcd_gluon_dressing_inv_landau_w_field_config ((om * om)%num / ofR (m * m))%num f0 cfg));
    (-1, map (fun q => (INR (fst q), zp_polarization_quark_t_thermal_part_zero_temp_landau J g om (snd q) mu)) quarks,
      zp_qcd_gluon_dressing_t_inv_zero_temp_w_field_config J g om mu f0 cfg,
      toC (qcd_gluon_dressing_inv_landau_w_field_config ((om * om)%num / ofR (m * m))%num f0 cfg)) ].

Definition zp_ym_l {T : Type} {NT : Num T} (J : Integrator) (g : globals R) (om : T) (m beta f0 : R) : list C :=
  [ zp_ym_gluon_dressing_l_inv J g om m beta f0;
    zp_ym_gluon_dressing_l J g om m beta f0;
    zp_ym_gluon_propagator_l J g om m beta f0 ].
Definition zp_ym_t {T : Type} {NT : Num T} (J : Integrator) (g : globals R) (om : T) (m beta f0 : R) : list C :=
  [ zp_ym_gluon_dressing_t_inv J g om m beta f0;
    zp_ym_gluon_dressing_t J g om m beta f0;
    zp_ym_gluon_propagator_t J g om m beta f0 ].

Definition zp_qcd_l {T : Type} {NT : Num T} (J : Integrator) (g : globals R) (om : T) (m mq beta mu f0 : R) : list C :=
  [ zp_qcd_gluon_dressing_l_inv J g om m mq beta mu f0;
    zp_qcd_gluon_dressing_l J g om m mq beta mu f0;
    zp_qcd_gluon_propagator_l J g om m mq beta mu f0 ].
Definition zp_qcd_t {T : Type} {NT : Num T} (J : Integrator) (g : globals R) (om : T) (m mq beta mu f0 : R) : list C :=
  [ zp_qcd_gluon_dressing_t_inv J g om m mq beta mu f0;
    zp_qcd_gluon_dressing_t J g om m mq beta mu f0;
    zp_qcd_gluon_propagator_t J g om m mq beta mu f0 ].

Definition zp_qcd_zt_l {T : Type} {NT : Num T} (J : Integrator) (g : globals R) (om : T) (m mq mu f0 : R) : list C :=
  [ zp_qcd_gluon_dressing_l_inv_zero_temp J g om m mq mu f0;
    zp_qcd_gluon_dressing_l_zero_temp J g om m mq mu f0;
    zp_qcd_gluon_propagator_l_zero_temp J g om m mq mu f0 ].
Definition zp_qcd_zt_t {T : Type} {NT : Num T} (J : Integrator) (g : globals R) (om : T) (m mq mu f0 : R) : list C :=
  [ zp_qcd_gluon_dressing_t_inv_zero_temp J g om m mq mu f0;
    zp_qcd_gluon_dressing_t_zero_temp J g om m mq mu f0;
    zp_qcd_gluon_propagator_t_zero_temp J g om m mq mu f0 ].

Definition zp_qcd_cfg_l {T : Type} {NT : Num T} (J : Integrator) (g : globals R) (om : T) (beta mu f0 : R) (cfg : FieldConfig) : list C :=
  [ zp_qcd_gluon_dressing_l_inv_w_field_config J g om beta mu f0 cfg;
    zp_qcd_gluon_dressing_l_w_field_config J g om beta mu f0 cfg;
    zp_qcd_gluon_propagator_l_w_field_config J g om beta mu f0 cfg ].
Definition zp_qcd_cfg_t {T : Type} {NT : Num T} (J : Integrator) (g : globals R) (om : T) (beta mu f0 : R) (cfg : FieldConfig) : list C :=
  [ zp_qcd_gluon_dressing_t_inv_w_field_config J g om beta mu f0 cfg;
    zp_qcd_gluon_dressing_t_w_field_config J g om beta mu f0 cfg;
    zp_qcd_gluon_propagator_t_w_field_config J g om beta mu f0 cfg ].

Definition zp_qcd_zt_cfg_l {T : Type} {NT : Num T} (J : Integrator) (g : globals R) (om : T) (mu f0 : R) (cfg : FieldConfig) : list C :=
  [ zp_qcd_gluon_dressing_l_inv_zero_temp_w_field_config J g om mu f0 cfg;
    zp_qcd_gluon_dressing_l_zero_temp_w_field_config J g om mu f0 cfg;
    zp_qcd_gluon_propagator_l_zero_temp_w_field_config J g om mu f0 cfg ].
Definition zp_qcd_zt_cfg_t {T : Type} {NT : Num T} (J : Integrator) (g : globals R) (om : T) (mu f0 : R) (cfg : FieldConfig) : list C :=
  [ zp_qcd_gluon_dressing_t_inv_zero_temp_w_field_config J g om mu f0 cfg;
    zp_qcd_gluon_dressing_t_zero_temp_w_field_config J g om mu f0 cfg;
    zp_qcd_gluon_propagator_t_zero_temp_w_field_config J g om mu f0 cfg ].

(** Vacuum Yang-Mills values at the same momentum (dimensionful propagator). *)
Definition zp_ym_vac {T : Type} {NT : Num T} (om : T) (m f0 : R) : list C :=
  [ toC (ym_gluon_dressing_inv_landau ((om * om)%num / ofR (m * m))%num f0);
    toC (ym_gluon_dressing_landau ((om * om)%num / ofR (m * m))%num f0);
    (toC (ninv (om * om)%num) * toC (ym_gluon_dressing_landau ((om * om)%num / ofR (m * m))%num f0))%C ].

(** All functions of a field configuration at finite temperature. *)
Definition thermal_cfg_values_C {T : Type} {NT : Num T} (J : Integrator) (g : globals R) (om : T) (p beta mu f0 : R) (cfg : FieldConfig) : list C :=
  gen_qcd_cfg_l J g om p beta mu f0 cfg ++ gen_qcd_cfg_t J g om p beta mu f0 cfg ++
  gen_qcd_zt_cfg_l J g om p mu f0 cfg ++ gen_qcd_zt_cfg_t J g om p mu f0 cfg ++
  zp_qcd_cfg_l J g om beta mu f0 cfg ++ zp_qcd_cfg_t J g om beta mu f0 cfg ++
  zp_qcd_zt_cfg_l J g om mu f0 cfg ++ zp_qcd_zt_cfg_t J g om mu f0 cfg.
Definition thermal_cfg_values_R (J : Integrator) (g : globals R) (p beta mu f0 : R) (cfg : FieldConfig) : list R :=
  zm_qcd_cfg_l J g p beta mu f0 cfg ++ zm_qcd_cfg_t J g p beta mu f0 cfg ++
  zm_qcd_zt_cfg_l J g p mu f0 cfg ++ zm_qcd_zt_cfg_t J g p mu f0 cfg.

(** The same with the global number of flavours and one quark mass. *)
Definition thermal_values_C {T : Type} {NT : Num T} (J : Integrator) (g : globals R) (om : T) (p m mq beta mu f0 : R) : list C :=
  gen_qcd_l J g om p m mq beta mu f0 ++ gen_qcd_t J g om p m mq beta mu f0 ++
  gen_qcd_zt_l J g om p m mq mu f0 ++ gen_qcd_zt_t J g om p m mq mu f0 ++
  zp_qcd_l J g om m mq beta mu f0 ++ zp_qcd_t J g om m mq beta mu f0 ++
  zp_qcd_zt_l J g om m mq mu f0 ++ zp_qcd_zt_t J g om m mq mu f0.
Definition thermal_values_R (J : Integrator) (g : globals R) (p m mq beta mu f0 : R) : list R :=
  zm_qcd_l J g p m mq beta mu f0 ++ zm_qcd_t J g p m mq beta mu f0 ++
  zm_qcd_zt_l J g p m mq mu f0 ++ zm_qcd_zt_t J g p m mq mu f0.

(** Their pure-glue counterparts: Yang-Mills at finite temperature, vacuum
    Yang-Mills at zero temperature. *)
Definition thermal_ym_values_C {T : Type} {NT : Num T} (J : Integrator) (g : globals R) (om : T) (p m beta f0 : R) : list C :=
  gen_ym_l J g om p m beta f0 ++ gen_ym_t J g om p m beta f0 ++
  gen_ym_vac om p m f0 ++ gen_ym_vac om p m f0 ++
  zp_ym_l J g om m beta f0 ++ zp_ym_t J g om m beta f0 ++
  zp_ym_vac om m f0 ++ zp_ym_vac om m f0.
Definition thermal_ym_values_R (J : Integrator) (g : globals R) (p m beta f0 : R) : list R :=
  zm_ym_l J g p m beta f0 ++ zm_ym_t J g p m beta f0 ++ zm_ym_vac p m f0 ++ zm_ym_vac p m f0.
