(** * Vocabulary for the zero-temperature limit of the integrated functions *)
From Coq Require Import Reals List.
From Coquelicot Require Import Coquelicot.
From Verif Require Import Num MConsts MVacuum MThermal MPolar MDress MQuark SpecLim.
Import ListNotations.
Open Scope R_scope.

(** (function of the inverse temperature, its zero-temperature counterpart). *)
Definition cold_C (J : Integrator) (g : globals R) (om p m mq mu : R) (I : Integral R) : list ((R -> C) * C) :=
  [ ((fun b => ghost_self_energy_w_method J om p m b I), RtoC 0);
    ((fun b => ghost_self_energy J g om p m b), RtoC 0);
    ((fun b => zp_ghost_self_energy_w_method J om m b I), RtoC 0);
    ((fun b => zp_ghost_self_energy J g om m b), RtoC 0);
    ((fun b => polarization_glue_l_thermal_part_landau_w_method J om p m b I), RtoC 0);
    ((fun b => polarization_glue_l_thermal_part_landau J g om p m b), RtoC 0);
    ((fun b => polarization_glue_t_thermal_part_landau_w_method J om p m b I), RtoC 0);
    ((fun b => polarization_glue_t_thermal_part_landau J g om p m b), RtoC 0);
    ((fun b => zp_polarization_glue_l_thermal_part_landau_w_method J om m b I), RtoC 0);
    ((fun b => zp_polarization_glue_l_thermal_part_landau J g om m b), RtoC 0);
    ((fun b => zp_polarization_glue_t_thermal_part_landau_w_method J om m b I), RtoC 0);
    ((fun b => zp_polarization_glue_t_thermal_part_landau J g om m b), RtoC 0);
    ((fun b => polarization_quark_l_thermal_part_landau_w_method J g om p mq b mu I), polarization_quark_l_thermal_part_zero_temp_landau_w_method J g om p mq mu I);
    ((fun b => polarization_quark_l_thermal_part_landau J g om p mq b mu), polarization_quark_l_thermal_part_zero_temp_landau J g om p mq mu);
    ((fun b => polarization_quark_t_thermal_part_landau_w_method J g om p mq b mu I), polarization_quark_t_thermal_part_zero_temp_landau_w_method J g om p mq mu I);
    ((fun b => polarization_quark_t_thermal_part_landau J g om p mq b mu), polarization_quark_t_thermal_part_zero_temp_landau J g om p mq mu);
    ((fun b => zp_polarization_quark_l_thermal_part_landau_w_method J g om mq b mu I), zp_polarization_quark_l_thermal_part_zero_temp_landau_w_method J g om mq mu I);
    ((fun b => zp_polarization_quark_l_thermal_part_landau J g om mq b mu), zp_polarization_quark_l_thermal_part_zero_temp_landau J g om mq mu);
    ((fun b => zp_polarization_quark_t_thermal_part_landau_w_method J g om mq b mu I), zp_polarization_quark_t_thermal_part_zero_temp_landau_w_method J g om mq mu I);
    ((fun b => zp_polarization_quark_t_thermal_part_landau J g om mq b mu), zp_polarization_quark_t_thermal_part_zero_temp_landau J g om mq mu) ].
(** Zero Matsubara frequency (regulated) and charge density. *)
Definition cold_R (J : Integrator) (g : globals R) (p m mq mu : R) (I : Integral R) : list ((R -> R) * R) :=
  [ ((fun b => zm_polarization_glue_l_thermal_part_landau_w_method J g p m b I), 0);
    ((fun b => zm_polarization_glue_l_thermal_part_landau J g p m b), 0);
    ((fun b => zm_polarization_glue_t_thermal_part_landau_w_method J g p m b I), 0);
    ((fun b => zm_polarization_glue_t_thermal_part_landau J g p m b), 0);
    ((fun b => zm_polarization_quark_l_thermal_part_landau_w_method J g p mq b mu I), zm_polarization_quark_l_thermal_part_zero_temp_landau_w_method J g p mq mu I);
    ((fun b => zm_polarization_quark_l_thermal_part_landau J g p mq b mu), zm_polarization_quark_l_thermal_part_zero_temp_landau J g p mq mu);
    ((fun b => zm_polarization_quark_t_thermal_part_landau_w_method J g p mq b mu I), zm_polarization_quark_t_thermal_part_zero_temp_landau_w_method J g p mq mu I);
    ((fun b => zm_polarization_quark_t_thermal_part_landau J g p mq b mu), zm_polarization_quark_t_thermal_part_zero_temp_landau J g p mq mu);
    ((fun b => charge_density_with_method J g mq b mu I), charge_density_zero_temp (g_nc g) mq mu);
    ((fun b => charge_density J g mq b mu), charge_density_zero_temp (g_nc g) mq mu) ].

(** Convergence of an (inverse dressing, dressing, propagator) triple: the
    inverse dressing always, the other two when its limit is not zero. *)
Definition tends3C (F : (R -> Prop) -> Prop) (f : R -> C * C * C) (l : C * C * C) : Prop :=
  tendsC F (fun b => fst (fst (f b))) (fst (fst l)) /\
  (fst (fst l) <> RtoC 0 -> tendsC F (fun b => snd (fst (f b))) (snd (fst l)) /\ tendsC F (fun b => snd (f b)) (snd l)).
Definition tends3R (F : (R -> Prop) -> Prop) (f : R -> R * R * R) (l : R * R * R) : Prop :=
  tends F (fun b => fst (fst (f b))) (fst (fst l)) /\
  (fst (fst l) <> 0 -> tends F (fun b => snd (fst (f b))) (snd (fst l)) /\ tends F (fun b => snd (f b)) (snd l)).

(** Vacuum values at squared momentum [s]: (inverse dressing, dressing, propagator). *)
Definition vac_ghost (s m g0 : R) : R * R * R :=
  (ym_ghost_dressing_inv_landau (s / (m * m)) g0, / ym_ghost_dressing_inv_landau (s / (m * m)) g0, / (s * ym_ghost_dressing_inv_landau (s / (m * m)) g0)).
Definition vac_gluon (s m f0 : R) : R * R * R :=
  (ym_gluon_dressing_inv_landau (s / (m * m)) f0, / ym_gluon_dressing_inv_landau (s / (m * m)) f0, / (s * ym_gluon_dressing_inv_landau (s / (m * m)) f0)).
Definition RtoC3 (x : R * R * R) : C * C * C := (RtoC (fst (fst x)), RtoC (snd (fst x)), RtoC (snd x)).

(** General kinematics. *)
Definition cold_gen (J : Integrator) (g : globals R) (om p m mq mu g0 f0 : R) (cfg : FieldConfig) : list ((R -> C * C * C) * (C * C * C)) :=
  [ ((fun b => (ym_ghost_dressing_inv J g om p m b g0, ym_ghost_dressing J g om p m b g0, ym_ghost_propagator J g om p m b g0)), RtoC3 (vac_ghost (om * om + p * p) m g0));
    ((fun b => (ym_gluon_dressing_l_inv J g om p m b f0, ym_gluon_dressing_l J g om p m b f0, ym_gluon_propagator_l J g om p m b f0)), RtoC3 (vac_gluon (om * om + p * p) m f0));
    ((fun b => (ym_gluon_dressing_t_inv J g om p m b f0, ym_gluon_dressing_t J g om p m b f0, ym_gluon_propagator_t J g om p m b f0)), RtoC3 (vac_gluon (om * om + p * p) m f0));
    ((fun b => (qcd_gluon_dressing_l_inv J g om p m mq b mu f0, qcd_gluon_dressing_l J g om p m mq b mu f0, qcd_gluon_propagator_l J g om p m mq b mu f0)),
     (qcd_gluon_dressing_l_inv_zero_temp J g om p m mq mu f0, qcd_gluon_dressing_l_zero_temp J g om p m mq mu f0, qcd_gluon_propagator_l_zero_temp J g om p m mq mu f0));
    ((fun b => (qcd_gluon_dressing_t_inv J g om p m mq b mu f0, qcd_gluon_dressing_t J g om p m mq b mu f0, qcd_gluon_propagator_t J g om p m mq b mu f0)),
     (qcd_gluon_dressing_t_inv_zero_temp J g om p m mq mu f0, qcd_gluon_dressing_t_zero_temp J g om p m mq mu f0, qcd_gluon_propagator_t_zero_temp J g om p m mq mu f0));
    ((fun b => (qcd_gluon_dressing_l_inv_w_field_config J g om p b mu f0 cfg, qcd_gluon_dressing_l_w_field_config J g om p b mu f0 cfg, qcd_gluon_propagator_l_w_field_config J g om p b mu f0 cfg)),
     (qcd_gluon_dressing_l_inv_zero_temp_w_field_config J g om p mu f0 cfg, qcd_gluon_dressing_l_zero_temp_w_field_config J g om p mu f0 cfg, qcd_gluon_propagator_l_zero_temp_w_field_config J g om p mu f0 cfg));
    ((fun b => (qcd_gluon_dressing_t_inv_w_field_config J g om p b mu f0 cfg, qcd_gluon_dressing_t_w_field_config J g om p b mu f0 cfg, qcd_gluon_propagator_t_w_field_config J g om p b mu f0 cfg)),
     (qcd_gluon_dressing_t_inv_zero_temp_w_field_config J g om p mu f0 cfg, qcd_gluon_dressing_t_zero_temp_w_field_config J g om p mu f0 cfg, qcd_gluon_propagator_t_zero_temp_w_field_config J g om p mu f0 cfg)) ].
(** Zero momentum. *)
Definition cold_zp (J : Integrator) (g : globals R) (om m mq mu g0 f0 : R) (cfg : FieldConfig) : list ((R -> C * C * C) * (C * C * C)) :=
  [ ((fun b => (zp_ym_ghost_dressing_inv J g om m b g0, zp_ym_ghost_dressing J g om m b g0, zp_ym_ghost_propagator J g om m b g0)), RtoC3 (vac_ghost (om * om) m g0));
    ((fun b => (zp_ym_gluon_dressing_l_inv J g om m b f0, zp_ym_gluon_dressing_l J g om m b f0, zp_ym_gluon_propagator_l J g om m b f0)), RtoC3 (vac_gluon (om * om) m f0));
    ((fun b => (zp_ym_gluon_dressing_t_inv J g om m b f0, zp_ym_gluon_dressing_t J g om m b f0, zp_ym_gluon_propagator_t J g om m b f0)), RtoC3 (vac_gluon (om * om) m f0));
    ((fun b => (zp_qcd_gluon_dressing_l_inv J g om m mq b mu f0, zp_qcd_gluon_dressing_l J g om m mq b mu f0, zp_qcd_gluon_propagator_l J g om m mq b mu f0)),
     (zp_qcd_gluon_dressing_l_inv_zero_temp J g om m mq mu f0, zp_qcd_gluon_dressing_l_zero_temp J g om m mq mu f0, zp_qcd_gluon_propagator_l_zero_temp J g om m mq mu f0));
    ((fun b => (zp_qcd_gluon_dressing_t_inv J g om m mq b mu f0, zp_qcd_gluon_dressing_t J g om m mq b mu f0, zp_qcd_gluon_propagator_t J g om m mq b mu f0)),
     (zp_qcd_gluon_dressing_t_inv_zero_temp J g om m mq mu f0, zp_qcd_gluon_dressing_t_zero_temp J g om m mq mu f0, zp_qcd_gluon_propagator_t_zero_temp J g om m mq mu f0));
    ((fun b => (zp_qcd_gluon_dressing_l_inv_w_field_config J g om b mu f0 cfg, zp_qcd_gluon_dressing_l_w_field_config J g om b mu f0 cfg, zp_qcd_gluon_propagator_l_w_field_config J g om b mu f0 cfg)),
     (zp_qcd_gluon_dressing_l_inv_zero_temp_w_field_config J g om mu f0 cfg, zp_qcd_gluon_dressing_l_zero_temp_w_field_config J g om mu f0 cfg, zp_qcd_gluon_propagator_l_zero_temp_w_field_config J g om mu f0 cfg));
    ((fun b => (zp_qcd_gluon_dressing_t_inv_w_field_config J g om b mu f0 cfg, zp_qcd_gluon_dressing_t_w_field_config J g om b mu f0 cfg, zp_qcd_gluon_propagator_t_w_field_config J g om b mu f0 cfg)),
     (zp_qcd_gluon_dressing_t_inv_zero_temp_w_field_config J g om mu f0 cfg, zp_qcd_gluon_dressing_t_zero_temp_w_field_config J g om mu f0 cfg, zp_qcd_gluon_propagator_t_zero_temp_w_field_config J g om mu f0 cfg)) ].
(** Zero Matsubara frequency (gluons). *)
Definition cold_zm (J : Integrator) (g : globals R) (p m mq mu f0 : R) (cfg : FieldConfig) : list ((R -> R * R * R) * (R * R * R)) :=
  [ ((fun b => (zm_ym_gluon_dressing_l_inv J g p m b f0, zm_ym_gluon_dressing_l J g p m b f0, zm_ym_gluon_propagator_l J g p m b f0)), vac_gluon (p * p) m f0);
    ((fun b => (zm_ym_gluon_dressing_t_inv J g p m b f0, zm_ym_gluon_dressing_t J g p m b f0, zm_ym_gluon_propagator_t J g p m b f0)), vac_gluon (p * p) m f0);
    ((fun b => (zm_qcd_gluon_dressing_l_inv J g p m mq b mu f0, zm_qcd_gluon_dressing_l J g p m mq b mu f0, zm_qcd_gluon_propagator_l J g p m mq b mu f0)),
     (zm_qcd_gluon_dressing_l_inv_zero_temp J g p m mq mu f0, zm_qcd_gluon_dressing_l_zero_temp J g p m mq mu f0, zm_qcd_gluon_propagator_l_zero_temp J g p m mq mu f0));
    ((fun b => (zm_qcd_gluon_dressing_t_inv J g p m mq b mu f0, zm_qcd_gluon_dressing_t J g p m mq b mu f0, zm_qcd_gluon_propagator_t J g p m mq b mu f0)),
     (zm_qcd_gluon_dressing_t_inv_zero_temp J g p m mq mu f0, zm_qcd_gluon_dressing_t_zero_temp J g p m mq mu f0, zm_qcd_gluon_propagator_t_zero_temp J g p m mq mu f0));
    ((fun b => (zm_qcd_gluon_dressing_l_inv_w_field_config J g p b mu f0 cfg, zm_qcd_gluon_dressing_l_w_field_config J g p b mu f0 cfg, zm_qcd_gluon_propagator_l_w_field_config J g p b mu f0 cfg)),
     (zm_qcd_gluon_dressing_l_inv_zero_temp_w_field_config J g p mu f0 cfg, zm_qcd_gluon_dressing_l_zero_temp_w_field_config J g p mu f0 cfg, zm_qcd_gluon_propagator_l_zero_temp_w_field_config J g p mu f0 cfg));
    ((fun b => (zm_qcd_gluon_dressing_t_inv_w_field_config J g p b mu f0 cfg, zm_qcd_gluon_dressing_t_w_field_config J g p b mu f0 cfg, zm_qcd_gluon_propagator_t_w_field_config J g p b mu f0 cfg)),
     (zm_qcd_gluon_dressing_t_inv_zero_temp_w_field_config J g p mu f0 cfg, zm_qcd_gluon_dressing_t_zero_temp_w_field_config J g p mu f0 cfg, zm_qcd_gluon_propagator_t_zero_temp_w_field_config J g p mu f0 cfg)) ].
