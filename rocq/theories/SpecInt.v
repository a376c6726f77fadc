(** * Vocabulary for the integrated thermal parts *)
From Coq Require Import Reals List.
From Coquelicot Require Import Coquelicot.
From Verif Require Import Num MConsts MVacuum MThermal MPolar MDress MQuark.
Import ListNotations.
Open Scope R_scope.

(** Change of variables q = (1 - t)/t from the half line to (0, 1]. *)
Definition compact_R (f : R -> R) (t : R) : R := f ((1 - t) / t) / t ^ 2.
Definition compact_C (f : R -> C) (t : R) : C := (f ((1 - t) / t)%R / RtoC (t ^ 2))%C.

(** An integration routine that returns the Riemann integral of every
    integrable function. *)
Definition exact_integrator (J : Integrator) : Prop :=
  (forall f a b I v, is_RInt f a b v -> integrateR J f a b I = v) /\
  (forall f a b I (v : C), is_RInt (V := C_R_NormedModule) f a b v -> integrateC J f a b I = v).

(** (integrated value, integrand in q, integration method): finite temperature. *)
Definition half_line_integrals_C {T : Type} {NT : Num T} (J : Integrator) (g : globals R) (om : T) (p m mq beta mu : R) (I : Integral R)
  : list (C * (R -> C) * Integral R) :=
  let d := G7K15 (g_tol_integral g) (g_max_iter_integral g) in
  let nc := g_nc g in
  [ (ghost_self_energy_w_method J om p m beta I, (fun q => ghost_self_energy_thermal_part_landau_i q om p m beta), I);
    (ghost_self_energy J g om p m beta, (fun q => ghost_self_energy_thermal_part_landau_i q om p m beta), d);
    (zp_ghost_self_energy_w_method J om m beta I, (fun q => zp_ghost_self_energy_thermal_part_landau_i q om m beta), I);
    (zp_ghost_self_energy J g om m beta, (fun q => zp_ghost_self_energy_thermal_part_landau_i q om m beta), d);
    (polarization_glue_l_thermal_part_landau_w_method J om p m beta I, (fun q => polarization_glue_l_thermal_part_landau_i q om p m beta), I);
    (polarization_glue_l_thermal_part_landau J g om p m beta, (fun q => polarization_glue_l_thermal_part_landau_i q om p m beta), d);
    (polarization_glue_t_thermal_part_landau_w_method J om p m beta I, (fun q => polarization_glue_t_thermal_part_landau_i q om p m beta), I);
    (polarization_glue_t_thermal_part_landau J g om p m beta, (fun q => polarization_glue_t_thermal_part_landau_i q om p m beta), d);
    (polarization_quark_l_thermal_part_landau_w_method J g om p mq beta mu I, (fun q => polarization_quark_l_thermal_part_landau_i nc q om p mq beta mu), I);
    (polarization_quark_l_thermal_part_landau J g om p mq beta mu, (fun q => polarization_quark_l_thermal_part_landau_i nc q om p mq beta mu), d);
    (polarization_quark_t_thermal_part_landau_w_method J g om p mq beta mu I, (fun q => polarization_quark_t_thermal_part_landau_i nc q om p mq beta mu), I);
    (polarization_quark_t_thermal_part_landau J g om p mq beta mu, (fun q => polarization_quark_t_thermal_part_landau_i nc q om p mq beta mu), d);
    (zp_polarization_glue_l_thermal_part_landau_w_method J om m beta I, (fun q => zp_polarization_glue_l_thermal_part_landau_i q om m beta), I);
    (zp_polarization_glue_l_thermal_part_landau J g om m beta, (fun q => zp_polarization_glue_l_thermal_part_landau_i q om m beta), d);
    (zp_polarization_glue_t_thermal_part_landau_w_method J om m beta I, (fun q => zp_polarization_glue_t_thermal_part_landau_i q om m beta), I);
    (zp_polarization_glue_t_thermal_part_landau J g om m beta, (fun q => zp_polarization_glue_t_thermal_part_landau_i q om m beta), d);
    (zp_polarization_quark_l_thermal_part_landau_w_method J g om mq beta mu I, (fun q => toC (zp_polarization_quark_l_thermal_part_landau_i nc q om mq beta mu)), I);
    (zp_polarization_quark_l_thermal_part_landau J g om mq beta mu, (fun q => toC (zp_polarization_quark_l_thermal_part_landau_i nc q om mq beta mu)), d);
    (zp_polarization_quark_t_thermal_part_landau_w_method J g om mq beta mu I, (fun q => toC (zp_polarization_quark_t_thermal_part_landau_i nc q om mq beta mu)), I);
    (zp_polarization_quark_t_thermal_part_landau J g om mq beta mu, (fun q => toC (zp_polarization_quark_t_thermal_part_landau_i nc q om mq beta mu)), d) ].

(** The same for the real-valued ones: zero Matsubara frequency and charge density.
    The gluon polarizations are evaluated at om = regulator. *)
Definition half_line_integrals_R (J : Integrator) (g : globals R) (p m mq beta mu : R) (I : Integral R)
  : list (R * (R -> R) * Integral R) :=
  let d := G7K15 (g_tol_integral g) (g_max_iter_integral g) in
  let z := G7K15 (/ 10 ^ 8) (g_max_iter_integral g) in
  let nc := g_nc g in
  let reg := g_matsubara_reg g in
  [ (zm_ghost_self_energy_w_method J p m beta I, (fun q => fst (zm_ghost_self_energy_thermal_part_landau_i q p m beta)), I);
    (zm_ghost_self_energy J g p m beta, (fun q => fst (zm_ghost_self_energy_thermal_part_landau_i q p m beta)), d);
    (zm_polarization_glue_l_thermal_part_landau_w_method J g p m beta I, (fun q => fst (polarization_glue_l_thermal_part_landau_i q reg p m beta)), I);
    (zm_polarization_glue_l_thermal_part_landau J g p m beta, (fun q => fst (polarization_glue_l_thermal_part_landau_i q reg p m beta)), z);
    (zm_polarization_glue_t_thermal_part_landau_w_method J g p m beta I, (fun q => fst (polarization_glue_t_thermal_part_landau_i q reg p m beta)), I);
    (zm_polarization_glue_t_thermal_part_landau J g p m beta, (fun q => fst (polarization_glue_t_thermal_part_landau_i q reg p m beta)), z);
    (zm_polarization_quark_l_thermal_part_landau_w_method J g p mq beta mu I, (fun q => fst (polarization_quark_l_thermal_part_landau_i nc q reg p mq beta mu)), I);
    (zm_polarization_quark_l_thermal_part_landau J g p mq beta mu, (fun q => fst (polarization_quark_l_thermal_part_landau_i nc q reg p mq beta mu)), z);
    (zm_polarization_quark_t_thermal_part_landau_w_method J g p mq beta mu I, (fun q => fst (polarization_quark_t_thermal_part_landau_i nc q reg p mq beta mu)), I);
    (zm_polarization_quark_t_thermal_part_landau J g p mq beta mu, (fun q => fst (polarization_quark_t_thermal_part_landau_i nc q reg p mq beta mu)), z);
    (charge_density_with_method J g m beta mu I, (fun q => charge_density_i nc q m beta mu), I);
    (charge_density J g m beta mu, (fun q => charge_density_i nc q m beta mu), d) ].

(** (integrated value, integrand, method): zero temperature. *)
Definition fermi_sea_integrals_C {T : Type} {NT : Num T} (J : Integrator) (g : globals R) (om : T) (p mq mu : R) (I : Integral R)
  : list (C * (R -> C) * Integral R) :=
  let d := G7K15 (g_tol_integral g) (g_max_iter_integral g) in
  let nc := g_nc g in
  [ (polarization_quark_l_thermal_part_zero_temp_landau_w_method J g om p mq mu I, (fun q => polarization_quark_l_thermal_part_zero_temp_landau_i nc q om p mq mu), I);
    (polarization_quark_l_thermal_part_zero_temp_landau J g om p mq mu, (fun q => polarization_quark_l_thermal_part_zero_temp_landau_i nc q om p mq mu), d);
    (polarization_quark_t_thermal_part_zero_temp_landau_w_method J g om p mq mu I, (fun q => polarization_quark_t_thermal_part_zero_temp_landau_i nc q om p mq mu), I);
    (polarization_quark_t_thermal_part_zero_temp_landau J g om p mq mu, (fun q => polarization_quark_t_thermal_part_zero_temp_landau_i nc q om p mq mu), d);
    (zp_polarization_quark_l_thermal_part_zero_temp_landau_w_method J g om mq mu I, (fun q => toC (zp_polarization_quark_l_thermal_part_zero_temp_landau_i nc q om mq mu)), I);
    (zp_polarization_quark_l_thermal_part_zero_temp_landau J g om mq mu, (fun q => toC (zp_polarization_quark_l_thermal_part_zero_temp_landau_i nc q om mq mu)), d);
    (zp_polarization_quark_t_thermal_part_zero_temp_landau_w_method J g om mq mu I, (fun q => toC (zp_polarization_quark_t_thermal_part_zero_temp_landau_i nc q om mq mu)), I);
    (zp_polarization_quark_t_thermal_part_zero_temp_landau J g om mq mu, (fun q => toC (zp_polarization_quark_t_thermal_part_zero_temp_landau_i nc q om mq mu)), d) ].
Definition fermi_sea_integrals_R (J : Integrator) (g : globals R) (p mq mu : R) (I : Integral R)
  : list (R * (R -> R) * Integral R) :=
  let z := G7K15 (/ 10 ^ 8) (g_max_iter_integral g) in
  let nc := g_nc g in
  let reg := g_matsubara_reg g in
  [ (zm_polarization_quark_l_thermal_part_zero_temp_landau_w_method J g p mq mu I, (fun q => fst (polarization_quark_l_thermal_part_zero_temp_landau_i nc q reg p mq mu)), I);
    (zm_polarization_quark_l_thermal_part_zero_temp_landau J g p mq mu, (fun q => fst (polarization_quark_l_thermal_part_zero_temp_landau_i nc q reg p mq mu)), z);
    (zm_polarization_quark_t_thermal_part_zero_temp_landau_w_method J g p mq mu I, (fun q => fst (polarization_quark_t_thermal_part_zero_temp_landau_i nc q reg p mq mu)), I);
    (zm_polarization_quark_t_thermal_part_zero_temp_landau J g p mq mu, (fun q => fst (polarization_quark_t_thermal_part_zero_temp_landau_i nc q reg p mq mu)), z) ].

(** The documented zero-temperature integrands of the zero-Matsubara module. *)
Definition zm_fermi_sea_integrands (nc : nat) (p mq mu : R) : list (R -> R) :=
  [ (fun q => zm_polarization_quark_l_thermal_part_zero_temp_landau_i nc q p mq mu);
    (fun q => zm_polarization_quark_t_thermal_part_zero_temp_landau_i nc q p mq mu) ].
