(** * Vocabulary for the limits that are uniform in the temperature and the chemical potential *)
From Coq Require Import Reals List.
From Coquelicot Require Import Coquelicot.
From Verif Require Import Num MConsts MVacuum MThermal MPolar MDress MQuark SpecLim SpecHtl SpecHot.
Import ListNotations.
Open Scope R_scope.

(** [f T mu] is a T^2 + c mu^2 up to an error that is small compared with T^2 + k mu^2,
    for all temperatures and chemical potentials at once. *)
Definition quadratic_R (f : R -> R -> R) (a c k : R) : Prop :=
  forall eps, 0 < eps -> exists K, forall T mu, 0 < T -> Rabs (f T mu - (a * (T * T) + c * (mu * mu))) <= eps * (T * T + k * (mu * mu)) + K.
Definition quadratic_C (f : R -> R -> C) (a c k : R) : Prop :=
  quadratic_R (fun T mu => fst (f T mu)) a c k /\ quadratic_R (fun T mu => snd (f T mu)) 0 0 k.

(** Integrated quark polarizations with minus the hard-thermal-loop function they are proportional to. *)
Definition scale_quark_C (J : Integrator) (g : globals R) (om p mq : R) (I : Integral R) : list ((R -> R -> C) * R) :=
  [ (fun T mu => polarization_quark_l_thermal_part_landau_w_method J g om p mq (/ T) mu I, htl_L om p);
    (fun T mu => polarization_quark_l_thermal_part_landau J g om p mq (/ T) mu, htl_L om p);
    (fun T mu => polarization_quark_t_thermal_part_landau_w_method J g om p mq (/ T) mu I, htl_T om p);
    (fun T mu => polarization_quark_t_thermal_part_landau J g om p mq (/ T) mu, htl_T om p);
    (fun T mu => zp_polarization_quark_l_thermal_part_landau_w_method J g om mq (/ T) mu I, / 9);
    (fun T mu => zp_polarization_quark_l_thermal_part_landau J g om mq (/ T) mu, / 9);
    (fun T mu => zp_polarization_quark_t_thermal_part_landau_w_method J g om mq (/ T) mu I, / 9);
    (fun T mu => zp_polarization_quark_t_thermal_part_landau J g om mq (/ T) mu, / 9) ].
Definition scale_quark_R (J : Integrator) (g : globals R) (p mq : R) (I : Integral R) : list ((R -> R -> R) * R) :=
  let om := g_matsubara_reg g in
  [ (fun T mu => zm_polarization_quark_l_thermal_part_landau_w_method J g p mq (/ T) mu I, htl_L om p);
    (fun T mu => zm_polarization_quark_l_thermal_part_landau J g p mq (/ T) mu, htl_L om p);
    (fun T mu => zm_polarization_quark_t_thermal_part_landau_w_method J g p mq (/ T) mu I, htl_T om p);
    (fun T mu => zm_polarization_quark_t_thermal_part_landau J g p mq (/ T) mu, htl_T om p) ].

(** The square of the thermal gluon mass in QCD with [nc] colours and [nf] flavours, up to g^2/3. *)
Definition gluon_scale (nc nf : nat) (T mu : R) : R := (INR nc + INR nf / 2) * (T * T) + 3 * INR nf * (mu * mu) / (2 * (PI * PI)).

(** A triple (inverse dressing, dressing, propagator) as a function of T and mu, at squared
    momentum s, along a curve on which D = [gluon_scale] grows: the inverse propagator grows like l D. *)
Definition scaled_C (F : (R -> Prop) -> Prop) (T mu : R -> R) (nc nf : nat) (s : R) (f : R -> R -> C * C * C) (l : R) : Prop :=
  let D := fun x => gluon_scale nc nf (T x) (mu x) in
  tendsC F (fun x => fst (fst (f (T x) (mu x))) / RtoC (D x))%C (RtoC (l / s)) /\
  tendsC F (fun x => RtoC (D x) * snd (fst (f (T x) (mu x))))%C (RtoC (s / l)) /\
  tendsC F (fun x => RtoC (D x) * snd (f (T x) (mu x)))%C (RtoC (/ l)).
Definition scaled_R (F : (R -> Prop) -> Prop) (T mu : R -> R) (nc nf : nat) (s : R) (f : R -> R -> R * R * R) (l : R) : Prop :=
  let D := fun x => gluon_scale nc nf (T x) (mu x) in
  tends F (fun x => fst (fst (f (T x) (mu x))) / D x) (l / s) /\
  tends F (fun x => D x * snd (fst (f (T x) (mu x)))) (s / l) /\
  tends F (fun x => D x * snd (f (T x) (mu x))) (/ l).

(** (triple, number of flavours, hard-thermal-loop function). *)
Definition scale_gen (J : Integrator) (g : globals R) (om p m mq f0 : R) (nc : nat) (quarks : list (nat * R)) : list ((R -> R -> C * C * C) * nat * R) :=
  let cfg := FieldConfig_new nc m quarks in
  [ ((fun T mu => (ym_gluon_dressing_l_inv J g om p m (/ T) f0, ym_gluon_dressing_l J g om p m (/ T) f0, ym_gluon_propagator_l J g om p m (/ T) f0)), 0%nat, htl_L om p);
    ((fun T mu => (ym_gluon_dressing_t_inv J g om p m (/ T) f0, ym_gluon_dressing_t J g om p m (/ T) f0, ym_gluon_propagator_t J g om p m (/ T) f0)), 0%nat, htl_T om p);
    ((fun T mu => (qcd_gluon_dressing_l_inv J g om p m mq (/ T) mu f0, qcd_gluon_dressing_l J g om p m mq (/ T) mu f0, qcd_gluon_propagator_l J g om p m mq (/ T) mu f0)), g_nf g, htl_L om p);
    ((fun T mu => (qcd_gluon_dressing_t_inv J g om p m mq (/ T) mu f0, qcd_gluon_dressing_t J g om p m mq (/ T) mu f0, qcd_gluon_propagator_t J g om p m mq (/ T) mu f0)), g_nf g, htl_T om p);
    ((fun T mu => (qcd_gluon_dressing_l_inv_w_field_config J g om p (/ T) mu f0 cfg, qcd_gluon_dressing_l_w_field_config J g om p (/ T) mu f0 cfg, qcd_gluon_propagator_l_w_field_config J g om p (/ T) mu f0 cfg)), quark_total quarks, htl_L om p);
    ((fun T mu => (qcd_gluon_dressing_t_inv_w_field_config J g om p (/ T) mu f0 cfg, qcd_gluon_dressing_t_w_field_config J g om p (/ T) mu f0 cfg, qcd_gluon_propagator_t_w_field_config J g om p (/ T) mu f0 cfg)), quark_total quarks, htl_T om p) ].
Definition scale_zp (J : Integrator) (g : globals R) (om m mq f0 : R) (nc : nat) (quarks : list (nat * R)) : list ((R -> R -> C * C * C) * nat * R) :=
  let cfg := FieldConfig_new nc m quarks in
  [ ((fun T mu => (zp_ym_gluon_dressing_l_inv J g om m (/ T) f0, zp_ym_gluon_dressing_l J g om m (/ T) f0, zp_ym_gluon_propagator_l J g om m (/ T) f0)), 0%nat, / 9);
    ((fun T mu => (zp_ym_gluon_dressing_t_inv J g om m (/ T) f0, zp_ym_gluon_dressing_t J g om m (/ T) f0, zp_ym_gluon_propagator_t J g om m (/ T) f0)), 0%nat, / 9);
    ((fun T mu => (zp_qcd_gluon_dressing_l_inv J g om m mq (/ T) mu f0, zp_qcd_gluon_dressing_l J g om m mq (/ T) mu f0, zp_qcd_gluon_propagator_l J g om m mq (/ T) mu f0)), g_nf g, / 9);
    ((fun T mu => (zp_qcd_gluon_dressing_t_inv J g om m mq (/ T) mu f0, zp_qcd_gluon_dressing_t J g om m mq (/ T) mu f0, zp_qcd_gluon_propagator_t J g om m mq (/ T) mu f0)), g_nf g, / 9);
    ((fun T mu => (zp_qcd_gluon_dressing_l_inv_w_field_config J g om (/ T) mu f0 cfg, zp_qcd_gluon_dressing_l_w_field_config J g om (/ T) mu f0 cfg, zp_qcd_gluon_propagator_l_w_field_config J g om (/ T) mu f0 cfg)), quark_total quarks, / 9);
    ((fun T mu => (zp_qcd_gluon_dressing_t_inv_w_field_config J g om (/ T) mu f0 cfg, zp_qcd_gluon_dressing_t_w_field_config J g om (/ T) mu f0 cfg, zp_qcd_gluon_propagator_t_w_field_config J g om (/ T) mu f0 cfg)), quark_total quarks, / 9) ].
Definition scale_zm (J : Integrator) (g : globals R) (p m mq f0 : R) (nc : nat) (quarks : list (nat * R)) : list ((R -> R -> R * R * R) * nat * R) :=
  let cfg := FieldConfig_new nc m quarks in
  [ ((fun T mu => (zm_ym_gluon_dressing_l_inv J g p m (/ T) f0, zm_ym_gluon_dressing_l J g p m (/ T) f0, zm_ym_gluon_propagator_l J g p m (/ T) f0)), 0%nat, htl_L (g_matsubara_reg g) p);
    ((fun T mu => (zm_ym_gluon_dressing_t_inv J g p m (/ T) f0, zm_ym_gluon_dressing_t J g p m (/ T) f0, zm_ym_gluon_propagator_t J g p m (/ T) f0)), 0%nat, htl_T (g_matsubara_reg g) p);
    ((fun T mu => (zm_qcd_gluon_dressing_l_inv J g p m mq (/ T) mu f0, zm_qcd_gluon_dressing_l J g p m mq (/ T) mu f0, zm_qcd_gluon_propagator_l J g p m mq (/ T) mu f0)), g_nf g, htl_L (g_matsubara_reg g) p);
    ((fun T mu => (zm_qcd_gluon_dressing_t_inv J g p m mq (/ T) mu f0, zm_qcd_gluon_dressing_t J g p m mq (/ T) mu f0, zm_qcd_gluon_propagator_t J g p m mq (/ T) mu f0)), g_nf g, htl_T (g_matsubara_reg g) p);
    ((fun T mu => (zm_qcd_gluon_dressing_l_inv_w_field_config J g p (/ T) mu f0 cfg, zm_qcd_gluon_dressing_l_w_field_config J g p (/ T) mu f0 cfg, zm_qcd_gluon_propagator_l_w_field_config J g p (/ T) mu f0 cfg)), quark_total quarks, htl_L (g_matsubara_reg g) p);
    ((fun T mu => (zm_qcd_gluon_dressing_t_inv_w_field_config J g p (/ T) mu f0 cfg, zm_qcd_gluon_dressing_t_w_field_config J g p (/ T) mu f0 cfg, zm_qcd_gluon_propagator_t_w_field_config J g p (/ T) mu f0 cfg)), quark_total quarks, htl_T (g_matsubara_reg g) p) ].
