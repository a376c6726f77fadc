(** * Vocabulary for the high-temperature and high-density limits of the integrated thermal parts

    [mu T] is an arbitrary chemical potential with mu T / T -> nu. The limits are
    taken at fixed external frequency, momentum and masses. *)
From Coq Require Import Reals List.
From Coquelicot Require Import Coquelicot.
From Verif Require Import Num MConsts MVacuum MThermal MPolar MDress MQuark SpecLim SpecHtl.
Import ListNotations.
Open Scope R_scope.

(** (thermal part as a function of the temperature, limit of thermal part / T^2).
    At rest both hard-thermal-loop functions are 1/9. *)
Definition hot_quark_C (J : Integrator) (g : globals R) (om p mq : R) (mu : R -> R) (nu : R) (I : Integral R) : list ((R -> C) * R) :=
  let w := (1 + 3 * (nu * nu) / (PI * PI)) / (2 * INR (g_nc g)) in
  [ (fun T => polarization_quark_l_thermal_part_landau_w_method J g om p mq (/ T) (mu T) I, - (w * htl_L om p));
    (fun T => polarization_quark_l_thermal_part_landau J g om p mq (/ T) (mu T), - (w * htl_L om p));
    (fun T => polarization_quark_t_thermal_part_landau_w_method J g om p mq (/ T) (mu T) I, - (w * htl_T om p));
    (fun T => polarization_quark_t_thermal_part_landau J g om p mq (/ T) (mu T), - (w * htl_T om p));
    (fun T => zp_polarization_quark_l_thermal_part_landau_w_method J g om mq (/ T) (mu T) I, - (w * / 9));
    (fun T => zp_polarization_quark_l_thermal_part_landau J g om mq (/ T) (mu T), - (w * / 9));
    (fun T => zp_polarization_quark_t_thermal_part_landau_w_method J g om mq (/ T) (mu T) I, - (w * / 9));
    (fun T => zp_polarization_quark_t_thermal_part_landau J g om mq (/ T) (mu T), - (w * / 9)) ].
(** At zero Matsubara frequency the code evaluates the same functions at the regulator. *)
Definition hot_quark_R (J : Integrator) (g : globals R) (p mq : R) (mu : R -> R) (nu : R) (I : Integral R) : list ((R -> R) * R) :=
  let w := (1 + 3 * (nu * nu) / (PI * PI)) / (2 * INR (g_nc g)) in
  let om := g_matsubara_reg g in
  [ (fun T => zm_polarization_quark_l_thermal_part_landau_w_method J g p mq (/ T) (mu T) I, - (w * htl_L om p));
    (fun T => zm_polarization_quark_l_thermal_part_landau J g p mq (/ T) (mu T), - (w * htl_L om p));
    (fun T => zm_polarization_quark_t_thermal_part_landau_w_method J g p mq (/ T) (mu T) I, - (w * htl_T om p));
    (fun T => zm_polarization_quark_t_thermal_part_landau J g p mq (/ T) (mu T), - (w * htl_T om p)) ].

(** (zero-temperature part as a function of the chemical potential, limit of the part / mu^2). *)
Definition dense_quark_C (J : Integrator) (g : globals R) (om p mq : R) (I : Integral R) : list ((R -> C) * R) :=
  let w := 3 / (PI * PI) / (2 * INR (g_nc g)) in
  [ (fun mu => polarization_quark_l_thermal_part_zero_temp_landau_w_method J g om p mq mu I, - (w * htl_L om p));
    (fun mu => polarization_quark_l_thermal_part_zero_temp_landau J g om p mq mu, - (w * htl_L om p));
    (fun mu => polarization_quark_t_thermal_part_zero_temp_landau_w_method J g om p mq mu I, - (w * htl_T om p));
    (fun mu => polarization_quark_t_thermal_part_zero_temp_landau J g om p mq mu, - (w * htl_T om p));
    (fun mu => zp_polarization_quark_l_thermal_part_zero_temp_landau_w_method J g om mq mu I, - (w * / 9));
    (fun mu => zp_polarization_quark_l_thermal_part_zero_temp_landau J g om mq mu, - (w * / 9));
    (fun mu => zp_polarization_quark_t_thermal_part_zero_temp_landau_w_method J g om mq mu I, - (w * / 9));
    (fun mu => zp_polarization_quark_t_thermal_part_zero_temp_landau J g om mq mu, - (w * / 9)) ].
Definition dense_quark_R (J : Integrator) (g : globals R) (p mq : R) (I : Integral R) : list ((R -> R) * R) :=
  let w := 3 / (PI * PI) / (2 * INR (g_nc g)) in
  let om := g_matsubara_reg g in
  [ (fun mu => zm_polarization_quark_l_thermal_part_zero_temp_landau_w_method J g p mq mu I, - (w * htl_L om p));
    (fun mu => zm_polarization_quark_l_thermal_part_zero_temp_landau J g p mq mu, - (w * htl_L om p));
    (fun mu => zm_polarization_quark_t_thermal_part_zero_temp_landau_w_method J g p mq mu I, - (w * htl_T om p));
    (fun mu => zm_polarization_quark_t_thermal_part_zero_temp_landau J g p mq mu, - (w * htl_T om p)) ].

(** ** Gluon and ghost loops, per T^2

    The gluon loop carries the hard-thermal-loop functions with weight 1, the
    ghost self-energy has no T^2 term. *)
Definition hot_glue_C (J : Integrator) (g : globals R) (om p m : R) (I : Integral R) : list ((R -> C) * R) :=
  [ (fun T => ghost_self_energy_w_method J om p m (/ T) I, 0);
    (fun T => ghost_self_energy J g om p m (/ T), 0);
    (fun T => zp_ghost_self_energy_w_method J om m (/ T) I, 0);
    (fun T => zp_ghost_self_energy J g om m (/ T), 0);
    (fun T => polarization_glue_l_thermal_part_landau_w_method J om p m (/ T) I, - htl_L om p);
    (fun T => polarization_glue_l_thermal_part_landau J g om p m (/ T), - htl_L om p);
    (fun T => polarization_glue_t_thermal_part_landau_w_method J om p m (/ T) I, - htl_T om p);
    (fun T => polarization_glue_t_thermal_part_landau J g om p m (/ T), - htl_T om p);
    (fun T => zp_polarization_glue_l_thermal_part_landau_w_method J om m (/ T) I, - / 9);
    (fun T => zp_polarization_glue_l_thermal_part_landau J g om m (/ T), - / 9);
    (fun T => zp_polarization_glue_t_thermal_part_landau_w_method J om m (/ T) I, - / 9);
    (fun T => zp_polarization_glue_t_thermal_part_landau J g om m (/ T), - / 9) ].
(** The zero-Matsubara ghost self-energy is excluded: its integrand has a pole (C82). *)
Definition hot_glue_R (J : Integrator) (g : globals R) (p m : R) (I : Integral R) : list ((R -> R) * R) :=
  let om := g_matsubara_reg g in
  [ (fun T => zm_polarization_glue_l_thermal_part_landau_w_method J g p m (/ T) I, - htl_L om p);
    (fun T => zm_polarization_glue_l_thermal_part_landau J g p m (/ T), - htl_L om p);
    (fun T => zm_polarization_glue_t_thermal_part_landau_w_method J g p m (/ T) I, - htl_T om p);
    (fun T => zm_polarization_glue_t_thermal_part_landau J g p m (/ T), - htl_T om p) ].

(** ** Gluon dressing functions and propagators

    A triple (inverse dressing, dressing, propagator) as a function of a large
    scale t, at squared momentum s: the inverse propagator grows like l t^2. *)
Definition screened_C (s : R) (f : R -> C * C * C) (l : R) : Prop :=
  tendsC (Rbar_locally p_infty) (fun t => fst (fst (f t)) / RtoC (t * t))%C (RtoC (l / s)) /\
  tendsC (Rbar_locally p_infty) (fun t => RtoC (t * t) * snd (fst (f t)))%C (RtoC (s / l)) /\
  tendsC (Rbar_locally p_infty) (fun t => RtoC (t * t) * snd (f t))%C (RtoC (/ l)).
Definition screened_R (s : R) (f : R -> R * R * R) (l : R) : Prop :=
  tends (Rbar_locally p_infty) (fun t => fst (fst (f t)) / (t * t)) (l / s) /\
  tends (Rbar_locally p_infty) (fun t => t * t * snd (fst (f t))) (s / l) /\
  tends (Rbar_locally p_infty) (fun t => t * t * snd (f t)) (/ l).

(** 16 pi^2 / 3 times the thermal weight of the gluons (if any) and of [nf] quarks. *)
Definition hot_mass (nc nf : nat) (nu : R) : R := 16 * (PI * PI) / 3 * (1 + INR nf * ((1 + 3 * (nu * nu) / (PI * PI)) / (2 * INR nc))).
Definition dense_mass (nc nf : nat) : R := 16 * (PI * PI) / 3 * (INR nf * (3 / (PI * PI) / (2 * INR nc))).
Definition quark_total (quarks : list (nat * R)) : nat := fold_right (fun q n => (fst q + n)%nat) 0%nat quarks.

Definition hot_gen (J : Integrator) (g : globals R) (om p m mq f0 : R) (mu : R -> R) (nu : R) (nc : nat) (quarks : list (nat * R)) : list ((R -> C * C * C) * R) :=
  let cfg := FieldConfig_new nc m quarks in
  [ ((fun T => (ym_gluon_dressing_l_inv J g om p m (/ T) f0, ym_gluon_dressing_l J g om p m (/ T) f0, ym_gluon_propagator_l J g om p m (/ T) f0)), hot_mass (g_nc g) 0 nu * htl_L om p);
    ((fun T => (ym_gluon_dressing_t_inv J g om p m (/ T) f0, ym_gluon_dressing_t J g om p m (/ T) f0, ym_gluon_propagator_t J g om p m (/ T) f0)), hot_mass (g_nc g) 0 nu * htl_T om p);
    ((fun T => (qcd_gluon_dressing_l_inv J g om p m mq (/ T) (mu T) f0, qcd_gluon_dressing_l J g om p m mq (/ T) (mu T) f0, qcd_gluon_propagator_l J g om p m mq (/ T) (mu T) f0)), hot_mass (g_nc g) (g_nf g) nu * htl_L om p);
    ((fun T => (qcd_gluon_dressing_t_inv J g om p m mq (/ T) (mu T) f0, qcd_gluon_dressing_t J g om p m mq (/ T) (mu T) f0, qcd_gluon_propagator_t J g om p m mq (/ T) (mu T) f0)), hot_mass (g_nc g) (g_nf g) nu * htl_T om p);
    ((fun T => (qcd_gluon_dressing_l_inv_w_field_config J g om p (/ T) (mu T) f0 cfg, qcd_gluon_dressing_l_w_field_config J g om p (/ T) (mu T) f0 cfg, qcd_gluon_propagator_l_w_field_config J g om p (/ T) (mu T) f0 cfg)), hot_mass (g_nc g) (quark_total quarks) nu * htl_L om p);
    ((fun T => (qcd_gluon_dressing_t_inv_w_field_config J g om p (/ T) (mu T) f0 cfg, qcd_gluon_dressing_t_w_field_config J g om p (/ T) (mu T) f0 cfg, qcd_gluon_propagator_t_w_field_config J g om p (/ T) (mu T) f0 cfg)), hot_mass (g_nc g) (quark_total quarks) nu * htl_T om p) ].
Definition hot_zp (J : Integrator) (g : globals R) (om m mq f0 : R) (mu : R -> R) (nu : R) (nc : nat) (quarks : list (nat * R)) : list ((R -> C * C * C) * R) :=
  let cfg := FieldConfig_new nc m quarks in
  [ ((fun T => (zp_ym_gluon_dressing_l_inv J g om m (/ T) f0, zp_ym_gluon_dressing_l J g om m (/ T) f0, zp_ym_gluon_propagator_l J g om m (/ T) f0)), hot_mass (g_nc g) 0 nu * / 9);
    ((fun T => (zp_ym_gluon_dressing_t_inv J g om m (/ T) f0, zp_ym_gluon_dressing_t J g om m (/ T) f0, zp_ym_gluon_propagator_t J g om m (/ T) f0)), hot_mass (g_nc g) 0 nu * / 9);
    ((fun T => (zp_qcd_gluon_dressing_l_inv J g om m mq (/ T) (mu T) f0, zp_qcd_gluon_dressing_l J g om m mq (/ T) (mu T) f0, zp_qcd_gluon_propagator_l J g om m mq (/ T) (mu T) f0)), hot_mass (g_nc g) (g_nf g) nu * / 9);
    ((fun T => (zp_qcd_gluon_dressing_t_inv J g om m mq (/ T) (mu T) f0, zp_qcd_gluon_dressing_t J g om m mq (/ T) (mu T) f0, zp_qcd_gluon_propagator_t J g om m mq (/ T) (mu T) f0)), hot_mass (g_nc g) (g_nf g) nu * / 9);
    ((fun T => (zp_qcd_gluon_dressing_l_inv_w_field_config J g om (/ T) (mu T) f0 cfg, zp_qcd_gluon_dressing_l_w_field_config J g om (/ T) (mu T) f0 cfg, zp_qcd_gluon_propagator_l_w_field_config J g om (/ T) (mu T) f0 cfg)), hot_mass (g_nc g) (quark_total quarks) nu * / 9);
    ((fun T => (zp_qcd_gluon_dressing_t_inv_w_field_config J g om (/ T) (mu T) f0 cfg, zp_qcd_gluon_dressing_t_w_field_config J g om (/ T) (mu T) f0 cfg, zp_qcd_gluon_propagator_t_w_field_config J g om (/ T) (mu T) f0 cfg)), hot_mass (g_nc g) (quark_total quarks) nu * / 9) ].
Definition hot_zm (J : Integrator) (g : globals R) (p m mq f0 : R) (mu : R -> R) (nu : R) (nc : nat) (quarks : list (nat * R)) : list ((R -> R * R * R) * R) :=
  let cfg := FieldConfig_new nc m quarks in
  [ ((fun T => (zm_ym_gluon_dressing_l_inv J g p m (/ T) f0, zm_ym_gluon_dressing_l J g p m (/ T) f0, zm_ym_gluon_propagator_l J g p m (/ T) f0)), hot_mass (g_nc g) 0 nu * htl_L (g_matsubara_reg g) p);
    ((fun T => (zm_ym_gluon_dressing_t_inv J g p m (/ T) f0, zm_ym_gluon_dressing_t J g p m (/ T) f0, zm_ym_gluon_propagator_t J g p m (/ T) f0)), hot_mass (g_nc g) 0 nu * htl_T (g_matsubara_reg g) p);
    ((fun T => (zm_qcd_gluon_dressing_l_inv J g p m mq (/ T) (mu T) f0, zm_qcd_gluon_dressing_l J g p m mq (/ T) (mu T) f0, zm_qcd_gluon_propagator_l J g p m mq (/ T) (mu T) f0)), hot_mass (g_nc g) (g_nf g) nu * htl_L (g_matsubara_reg g) p);
    ((fun T => (zm_qcd_gluon_dressing_t_inv J g p m mq (/ T) (mu T) f0, zm_qcd_gluon_dressing_t J g p m mq (/ T) (mu T) f0, zm_qcd_gluon_propagator_t J g p m mq (/ T) (mu T) f0)), hot_mass (g_nc g) (g_nf g) nu * htl_T (g_matsubara_reg g) p);
    ((fun T => (zm_qcd_gluon_dressing_l_inv_w_field_config J g p (/ T) (mu T) f0 cfg, zm_qcd_gluon_dressing_l_w_field_config J g p (/ T) (mu T) f0 cfg, zm_qcd_gluon_propagator_l_w_field_config J g p (/ T) (mu T) f0 cfg)), hot_mass (g_nc g) (quark_total quarks) nu * htl_L (g_matsubara_reg g) p);
    ((fun T => (zm_qcd_gluon_dressing_t_inv_w_field_config J g p (/ T) (mu T) f0 cfg, zm_qcd_gluon_dressing_t_w_field_config J g p (/ T) (mu T) f0 cfg, zm_qcd_gluon_propagator_t_w_field_config J g p (/ T) (mu T) f0 cfg)), hot_mass (g_nc g) (quark_total quarks) nu * htl_T (g_matsubara_reg g) p) ].
Definition dense_gen (J : Integrator) (g : globals R) (om p m mq f0 : R) : list ((R -> C * C * C) * R) :=
  [ ((fun mu => (qcd_gluon_dressing_l_inv_zero_temp J g om p m mq mu f0, qcd_gluon_dressing_l_zero_temp J g om p m mq mu f0, qcd_gluon_propagator_l_zero_temp J g om p m mq mu f0)), dense_mass (g_nc g) (g_nf g) * htl_L om p);
    ((fun mu => (qcd_gluon_dressing_t_inv_zero_temp J g om p m mq mu f0, qcd_gluon_dressing_t_zero_temp J g om p m mq mu f0, qcd_gluon_propagator_t_zero_temp J g om p m mq mu f0)), dense_mass (g_nc g) (g_nf g) * htl_T om p) ].
Definition dense_cfg_gen (J : Integrator) (g : globals R) (om p m f0 : R) (nc : nat) (quarks : list (nat * R)) : list ((R -> C * C * C) * R) :=
  [ ((fun mu => (qcd_gluon_dressing_l_inv_zero_temp_w_field_config J g om p mu f0 (FieldConfig_new nc m quarks), qcd_gluon_dressing_l_zero_temp_w_field_config J g om p mu f0 (FieldConfig_new nc m quarks), qcd_gluon_propagator_l_zero_temp_w_field_config J g om p mu f0 (FieldConfig_new nc m quarks))), dense_mass (g_nc g) (quark_total quarks) * htl_L om p);
    ((fun mu => (qcd_gluon_dressing_t_inv_zero_temp_w_field_config J g om p mu f0 (FieldConfig_new nc m quarks), qcd_gluon_dressing_t_zero_temp_w_field_config J g om p mu f0 (FieldConfig_new nc m quarks), qcd_gluon_propagator_t_zero_temp_w_field_config J g om p mu f0 (FieldConfig_new nc m quarks))), dense_mass (g_nc g) (quark_total quarks) * htl_T om p) ].
Definition dense_zp (J : Integrator) (g : globals R) (om m mq f0 : R) : list ((R -> C * C * C) * R) :=
  [ ((fun mu => (zp_qcd_gluon_dressing_l_inv_zero_temp J g om m mq mu f0, zp_qcd_gluon_dressing_l_zero_temp J g om m mq mu f0, zp_qcd_gluon_propagator_l_zero_temp J g om m mq mu f0)), dense_mass (g_nc g) (g_nf g) * / 9);
    ((fun mu => (zp_qcd_gluon_dressing_t_inv_zero_temp J g om m mq mu f0, zp_qcd_gluon_dressing_t_zero_temp J g om m mq mu f0, zp_qcd_gluon_propagator_t_zero_temp J g om m mq mu f0)), dense_mass (g_nc g) (g_nf g) * / 9) ].
Definition dense_cfg_zp (J : Integrator) (g : globals R) (om m f0 : R) (nc : nat) (quarks : list (nat * R)) : list ((R -> C * C * C) * R) :=
  [ ((fun mu => (zp_qcd_gluon_dressing_l_inv_zero_temp_w_field_config J g om mu f0 (FieldConfig_new nc m quarks), zp_qcd_gluon_dressing_l_zero_temp_w_field_config J g om mu f0 (FieldConfig_new nc m quarks), zp_qcd_gluon_propagator_l_zero_temp_w_field_config J g om mu f0 (FieldConfig_new nc m quarks))), dense_mass (g_nc g) (quark_total quarks) * / 9);
    ((fun mu => (zp_qcd_gluon_dressing_t_inv_zero_temp_w_field_config J g om mu f0 (FieldConfig_new nc m quarks), zp_qcd_gluon_dressing_t_zero_temp_w_field_config J g om mu f0 (FieldConfig_new nc m quarks), zp_qcd_gluon_propagator_t_zero_temp_w_field_config J g om mu f0 (FieldConfig_new nc m quarks))), dense_mass (g_nc g) (quark_total quarks) * / 9) ].
Definition dense_zm (J : Integrator) (g : globals R) (p m mq f0 : R) : list ((R -> R * R * R) * R) :=
  [ ((fun mu => (zm_qcd_gluon_dressing_l_inv_zero_temp J g p m mq mu f0, zm_qcd_gluon_dressing_l_zero_temp J g p m mq mu f0, zm_qcd_gluon_propagator_l_zero_temp J g p m mq mu f0)), dense_mass (g_nc g) (g_nf g) * htl_L (g_matsubara_reg g) p);
    ((fun mu => (zm_qcd_gluon_dressing_t_inv_zero_temp J g p m mq mu f0, zm_qcd_gluon_dressing_t_zero_temp J g p m mq mu f0, zm_qcd_gluon_propagator_t_zero_temp J g p m mq mu f0)), dense_mass (g_nc g) (g_nf g) * htl_T (g_matsubara_reg g) p) ].
Definition dense_cfg_zm (J : Integrator) (g : globals R) (p m f0 : R) (nc : nat) (quarks : list (nat * R)) : list ((R -> R * R * R) * R) :=
  [ ((fun mu => (zm_qcd_gluon_dressing_l_inv_zero_temp_w_field_config J g p mu f0 (FieldConfig_new nc m quarks), zm_qcd_gluon_dressing_l_zero_temp_w_field_config J g p mu f0 (FieldConfig_new nc m quarks), zm_qcd_gluon_propagator_l_zero_temp_w_field_config J g p mu f0 (FieldConfig_new nc m quarks))), dense_mass (g_nc g) (quark_total quarks) * htl_L (g_matsubara_reg g) p);
    ((fun mu => (zm_qcd_gluon_dressing_t_inv_zero_temp_w_field_config J g p mu f0 (FieldConfig_new nc m quarks), zm_qcd_gluon_dressing_t_zero_temp_w_field_config J g p mu f0 (FieldConfig_new nc m quarks), zm_qcd_gluon_propagator_t_zero_temp_w_field_config J g p mu f0 (FieldConfig_new nc m quarks))), dense_mass (g_nc g) (quark_total quarks) * htl_T (g_matsubara_reg g) p) ].
