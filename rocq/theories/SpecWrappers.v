(** * "The default wrappers only ever use method M", as a relation between the
    results obtained with two integration routines *)
From Coq Require Import Reals.
From Coquelicot Require Import Coquelicot.
From Verif Require Import Num MConsts MVacuum MDress MQuark.
Open Scope R_scope.

Definition same_results_default {T : Type} {N : Num T} (J J' : Integrator) (g : globals R) : Prop :=
  (forall (om : T) (p m beta : R), ghost_self_energy J g om p m beta = ghost_self_energy J' g om p m beta) /\
  (forall (om : T) (p m beta : R), polarization_glue_l_thermal_part_landau J g om p m beta = polarization_glue_l_thermal_part_landau J' g om p m beta) /\
  (forall (om : T) (p m beta : R), polarization_glue_t_thermal_part_landau J g om p m beta = polarization_glue_t_thermal_part_landau J' g om p m beta) /\
  (forall (om : T) (p mq beta mu : R), polarization_quark_l_thermal_part_landau J g om p mq beta mu = polarization_quark_l_thermal_part_landau J' g om p mq beta mu) /\
  (forall (om : T) (p mq beta mu : R), polarization_quark_t_thermal_part_landau J g om p mq beta mu = polarization_quark_t_thermal_part_landau J' g om p mq beta mu) /\
  (forall (om : T) (p mq mu : R), polarization_quark_l_thermal_part_zero_temp_landau J g om p mq mu = polarization_quark_l_thermal_part_zero_temp_landau J' g om p mq mu) /\
  (forall (om : T) (p mq mu : R), polarization_quark_t_thermal_part_zero_temp_landau J g om p mq mu = polarization_quark_t_thermal_part_zero_temp_landau J' g om p mq mu) /\
  (forall (om : T) (m beta : R), zp_ghost_self_energy J g om m beta = zp_ghost_self_energy J' g om m beta) /\
  (forall (om : T) (m beta : R), zp_polarization_glue_l_thermal_part_landau J g om m beta = zp_polarization_glue_l_thermal_part_landau J' g om m beta) /\
  (forall (om : T) (m beta : R), zp_polarization_glue_t_thermal_part_landau J g om m beta = zp_polarization_glue_t_thermal_part_landau J' g om m beta) /\
  (forall (om : T) (mq beta mu : R), zp_polarization_quark_l_thermal_part_landau J g om mq beta mu = zp_polarization_quark_l_thermal_part_landau J' g om mq beta mu) /\
  (forall (om : T) (mq beta mu : R), zp_polarization_quark_t_thermal_part_landau J g om mq beta mu = zp_polarization_quark_t_thermal_part_landau J' g om mq beta mu) /\
  (forall (om : T) (mq mu : R), zp_polarization_quark_l_thermal_part_zero_temp_landau J g om mq mu = zp_polarization_quark_l_thermal_part_zero_temp_landau J' g om mq mu) /\
  (forall (om : T) (mq mu : R), zp_polarization_quark_t_thermal_part_zero_temp_landau J g om mq mu = zp_polarization_quark_t_thermal_part_zero_temp_landau J' g om mq mu) /\
  (forall (p m beta : R), zm_ghost_self_energy J g p m beta = zm_ghost_self_energy J' g p m beta) /\
  (forall (om : T) (p : R) (m beta f0 : R), ym_gluon_propagator_l J g om p m beta f0 = ym_gluon_propagator_l J' g om p m beta f0) /\
  (forall (om : T) (p : R) (m mq beta mu f0 : R), qcd_gluon_propagator_l J g om p m mq beta mu f0 = qcd_gluon_propagator_l J' g om p m mq beta mu f0) /\
  (forall (om : T) (p : R) (m mq mu f0 : R), qcd_gluon_propagator_l_zero_temp J g om p m mq mu f0 = qcd_gluon_propagator_l_zero_temp J' g om p m mq mu f0) /\
  (forall (om : T) (p : R) (beta mu f0 : R) (c : FieldConfig), qcd_gluon_propagator_l_w_field_config J g om p beta mu f0 c = qcd_gluon_propagator_l_w_field_config J' g om p beta mu f0 c) /\
  (forall (om : T) (p : R) (mu f0 : R) (c : FieldConfig), qcd_gluon_propagator_l_zero_temp_w_field_config J g om p mu f0 c = qcd_gluon_propagator_l_zero_temp_w_field_config J' g om p mu f0 c) /\
  (forall (om : T) (p : R) (m beta f0 : R), ym_gluon_propagator_t J g om p m beta f0 = ym_gluon_propagator_t J' g om p m beta f0) /\
  (forall (om : T) (p : R) (m mq beta mu f0 : R), qcd_gluon_propagator_t J g om p m mq beta mu f0 = qcd_gluon_propagator_t J' g om p m mq beta mu f0) /\
  (forall (om : T) (p : R) (m mq mu f0 : R), qcd_gluon_propagator_t_zero_temp J g om p m mq mu f0 = qcd_gluon_propagator_t_zero_temp J' g om p m mq mu f0) /\
  (forall (om : T) (p : R) (beta mu f0 : R) (c : FieldConfig), qcd_gluon_propagator_t_w_field_config J g om p beta mu f0 c = qcd_gluon_propagator_t_w_field_config J' g om p beta mu f0 c) /\
  (forall (om : T) (p : R) (mu f0 : R) (c : FieldConfig), qcd_gluon_propagator_t_zero_temp_w_field_config J g om p mu f0 c = qcd_gluon_propagator_t_zero_temp_w_field_config J' g om p mu f0 c) /\
  (forall (om : T) (m beta f0 : R), zp_ym_gluon_propagator_l J g om m beta f0 = zp_ym_gluon_propagator_l J' g om m beta f0) /\
  (forall (om : T) (m mq beta mu f0 : R), zp_qcd_gluon_propagator_l J g om m mq beta mu f0 = zp_qcd_gluon_propagator_l J' g om m mq beta mu f0) /\
  (forall (om : T) (m mq mu f0 : R), zp_qcd_gluon_propagator_l_zero_temp J g om m mq mu f0 = zp_qcd_gluon_propagator_l_zero_temp J' g om m mq mu f0) /\
  (forall (om : T) (beta mu f0 : R) (c : FieldConfig), zp_qcd_gluon_propagator_l_w_field_config J g om beta mu f0 c = zp_qcd_gluon_propagator_l_w_field_config J' g om beta mu f0 c) /\
  (forall (om : T) (mu f0 : R) (c : FieldConfig), zp_qcd_gluon_propagator_l_zero_temp_w_field_config J g om mu f0 c = zp_qcd_gluon_propagator_l_zero_temp_w_field_config J' g om mu f0 c) /\
  (forall (om : T) (m beta f0 : R), zp_ym_gluon_propagator_t J g om m beta f0 = zp_ym_gluon_propagator_t J' g om m beta f0) /\
  (forall (om : T) (m mq beta mu f0 : R), zp_qcd_gluon_propagator_t J g om m mq beta mu f0 = zp_qcd_gluon_propagator_t J' g om m mq beta mu f0) /\
  (forall (om : T) (m mq mu f0 : R), zp_qcd_gluon_propagator_t_zero_temp J g om m mq mu f0 = zp_qcd_gluon_propagator_t_zero_temp J' g om m mq mu f0) /\
  (forall (om : T) (beta mu f0 : R) (c : FieldConfig), zp_qcd_gluon_propagator_t_w_field_config J g om beta mu f0 c = zp_qcd_gluon_propagator_t_w_field_config J' g om beta mu f0 c) /\
  (forall (om : T) (mu f0 : R) (c : FieldConfig), zp_qcd_gluon_propagator_t_zero_temp_w_field_config J g om mu f0 c = zp_qcd_gluon_propagator_t_zero_temp_w_field_config J' g om mu f0 c) /\
  (forall (om : T) (p m beta g0 : R), ym_ghost_propagator J g om p m beta g0 = ym_ghost_propagator J' g om p m beta g0) /\
  (forall (om : T) (m beta g0 : R), zp_ym_ghost_propagator J g om m beta g0 = zp_ym_ghost_propagator J' g om m beta g0) /\
  (forall (p m beta g0 : R), zm_ym_ghost_propagator J g p m beta g0 = zm_ym_ghost_propagator J' g p m beta g0) /\
  (forall (m beta mu : R), charge_density J g m beta mu = charge_density J' g m beta mu) /\
  (forall (m beta n : R), chemical_potential J g m beta n = chemical_potential J' g m beta n).

Definition same_results_zero_matsubara (J J' : Integrator) (g : globals R) : Prop :=
  (forall (p m beta : R), zm_polarization_glue_l_thermal_part_landau J g p m beta = zm_polarization_glue_l_thermal_part_landau J' g p m beta) /\
  (forall (p m beta : R), zm_polarization_glue_t_thermal_part_landau J g p m beta = zm_polarization_glue_t_thermal_part_landau J' g p m beta) /\
  (forall (p mq beta mu : R), zm_polarization_quark_l_thermal_part_landau J g p mq beta mu = zm_polarization_quark_l_thermal_part_landau J' g p mq beta mu) /\
  (forall (p mq beta mu : R), zm_polarization_quark_t_thermal_part_landau J g p mq beta mu = zm_polarization_quark_t_thermal_part_landau J' g p mq beta mu) /\
  (forall (p mq mu : R), zm_polarization_quark_l_thermal_part_zero_temp_landau J g p mq mu = zm_polarization_quark_l_thermal_part_zero_temp_landau J' g p mq mu) /\
  (forall (p mq mu : R), zm_polarization_quark_t_thermal_part_zero_temp_landau J g p mq mu = zm_polarization_quark_t_thermal_part_zero_temp_landau J' g p mq mu) /\
  (forall (p : R) (m beta f0 : R), zm_ym_gluon_propagator_l J g p m beta f0 = zm_ym_gluon_propagator_l J' g p m beta f0) /\
  (forall (p : R) (m mq beta mu f0 : R), zm_qcd_gluon_propagator_l J g p m mq beta mu f0 = zm_qcd_gluon_propagator_l J' g p m mq beta mu f0) /\
  (forall (p : R) (m mq mu f0 : R), zm_qcd_gluon_propagator_l_zero_temp J g p m mq mu f0 = zm_qcd_gluon_propagator_l_zero_temp J' g p m mq mu f0) /\
  (forall (p : R) (beta mu f0 : R) (c : FieldConfig), zm_qcd_gluon_propagator_l_w_field_config J g p beta mu f0 c = zm_qcd_gluon_propagator_l_w_field_config J' g p beta mu f0 c) /\
  (forall (p : R) (mu f0 : R) (c : FieldConfig), zm_qcd_gluon_propagator_l_zero_temp_w_field_config J g p mu f0 c = zm_qcd_gluon_propagator_l_zero_temp_w_field_config J' g p mu f0 c) /\
  (forall (p : R) (m beta f0 : R), zm_ym_gluon_propagator_t J g p m beta f0 = zm_ym_gluon_propagator_t J' g p m beta f0) /\
  (forall (p : R) (m mq beta mu f0 : R), zm_qcd_gluon_propagator_t J g p m mq beta mu f0 = zm_qcd_gluon_propagator_t J' g p m mq beta mu f0) /\
  (forall (p : R) (m mq mu f0 : R), zm_qcd_gluon_propagator_t_zero_temp J g p m mq mu f0 = zm_qcd_gluon_propagator_t_zero_temp J' g p m mq mu f0) /\
  (forall (p : R) (beta mu f0 : R) (c : FieldConfig), zm_qcd_gluon_propagator_t_w_field_config J g p beta mu f0 c = zm_qcd_gluon_propagator_t_w_field_config J' g p beta mu f0 c) /\
  (forall (p : R) (mu f0 : R) (c : FieldConfig), zm_qcd_gluon_propagator_t_zero_temp_w_field_config J g p mu f0 c = zm_qcd_gluon_propagator_t_zero_temp_w_field_config J' g p mu f0 c).
