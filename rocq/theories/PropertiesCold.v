(** * Properties C79-C82: convergence of the thermal integrals, their
    zero-temperature limit, and the finite-temperature charge density

    Everything here is about the half-line integrals as the code computes them:
    compactified to (0, 1) and handed to an integration routine [J] of which only
    [exact_integrator J] is assumed (it returns the Riemann integral of every
    integrable function; [RInt_J] is such a routine). *)
From Coq Require Import Reals Lra Lia List.
From Coquelicot Require Import Coquelicot.
From Verif Require Import Num MCommon MConsts MUtils MVacuum MThermal MPolar MDress MQuark SpecInt SpecLim SpecCold PCfg PExTherm PColdFin PColdLim PColdDr PDensity PExCold PNoInt.
Import List ListNotations.
Open Scope R_scope.

(** C79. *)
Theorem C79_convergence : forall J g p m mq beta mu I, (0 < g_nc g)%nat -> 0 < p -> m <> 0 -> 0 < beta ->
  (forall om : R, om <> 0 -> Forall (fun x : C * (R -> C) * Integral R => let '(_, f, _) := x in exists v, is_RInt (V := C_R_NormedModule) (compact_C f) 0 1 v)
    (half_line_integrals_C J g om p m mq beta mu I)) /\
  (g_matsubara_reg g <> 0 -> Forall (fun x : R * (R -> R) * Integral R => let '(_, f, _) := x in exists v, is_RInt (compact_R f) 0 1 v)
    (skipn 2 (half_line_integrals_R J g p m mq beta mu I))).
Proof. exact (fun J g p m mq beta mu I Hn Hp Hm Hb => conj (conv_C J g p m mq beta mu I Hn Hp Hm Hb) (conv_R J g p m mq beta mu I Hn Hp Hm Hb)). Qed.
Print Assumptions C79_convergence.

(** So with an exact routine every wrapper returns that integral. *)
Theorem C79_values : forall J g p m mq beta mu I, (0 < g_nc g)%nat -> 0 < p -> m <> 0 -> 0 < beta -> exact_integrator J ->
  (forall om : R, om <> 0 -> Forall (fun x : C * (R -> C) * Integral R => let '(v, f, _) := x in is_RInt (V := C_R_NormedModule) (compact_C f) 0 1 v)
    (half_line_integrals_C J g om p m mq beta mu I)) /\
  (g_matsubara_reg g <> 0 -> Forall (fun x : R * (R -> R) * Integral R => let '(v, f, _) := x in is_RInt (compact_R f) 0 1 v)
    (skipn 2 (half_line_integrals_R J g p m mq beta mu I))).
Proof. exact (fun J g p m mq beta mu I Hn Hp Hm Hb HJ => conj (values_C J g p m mq beta mu I Hn Hp Hm Hb HJ) (values_R J g p m mq beta mu I Hn Hp Hm Hb HJ)). Qed.
Print Assumptions C79_values.

(** The zero-temperature integrals over the Fermi sea. *)
Theorem C79_fermi_sea : forall J g p mq mu I, (0 < g_nc g)%nat -> 0 < p -> Rabs mq <= Rabs mu ->
  (forall om : R, om <> 0 -> Forall (fun x : C * (R -> C) * Integral R => let '(_, f, _) := x in exists v, is_RInt (V := C_R_NormedModule) f 0 (sqrt (mu * mu - mq * mq)) v)
    (fermi_sea_integrals_C J g om p mq mu I)) /\
  (g_matsubara_reg g <> 0 -> Forall (fun x : R * (R -> R) * Integral R => let '(_, f, _) := x in ex_RInt f 0 (sqrt (mu * mu - mq * mq)))
    (fermi_sea_integrals_R J g p mq mu I)).
Proof. exact (fun J g p mq mu I Hn Hp Hl => conj (fun om Ho => conv_sea_C J g p mq mu I Hn Hp om Ho Hl) (fun Hr => conv_sea_R J g p mq mu I Hn Hp Hr Hl)). Qed.
Print Assumptions C79_fermi_sea.

(** C80. The cold limit of every integrated thermal part: zero for the ghost and
    glue parts, the separately implemented zero-temperature function for the
    quark parts and for the charge density. *)
Theorem C80_thermal_parts : forall J g p m mq mu I, exact_integrator J -> (0 < g_nc g)%nat -> 0 < p -> m <> 0 ->
  (forall om, om <> 0 -> Forall (fun x : (R -> C) * C => tendsC (Rbar_locally p_infty) (fst x) (snd x)) (cold_C J g om p m mq mu I)) /\
  (g_matsubara_reg g <> 0 -> Forall (fun x : (R -> R) * R => tends (Rbar_locally p_infty) (fst x) (snd x)) (cold_R J g p m mq mu I)).
Proof. exact (fun J g p m mq mu I HJ Hn Hp Hm => conj (fun om Ho => cold_C_ok J g mq mu I HJ Hn om Ho p m Hp Hm) (cold_R_ok J g mq mu I HJ Hn p m Hp Hm)). Qed.
Print Assumptions C80_thermal_parts.

(** The cold limit of the dressing functions and propagators: the vacuum
    functions in Yang-Mills theory, the _zero_temp functions in QCD. *)
Theorem C80_propagators : forall J g om p m mq mu g0 f0 nc quarks, exact_integrator J -> (0 < g_nc g)%nat -> om <> 0 -> 0 < p -> m <> 0 ->
  Forall (fun x : (R -> C * C * C) * (C * C * C) => tends3C (Rbar_locally p_infty) (fst x) (snd x)) (cold_gen J g om p m mq mu g0 f0 (FieldConfig_new nc m quarks)) /\
  Forall (fun x : (R -> C * C * C) * (C * C * C) => tends3C (Rbar_locally p_infty) (fst x) (snd x)) (cold_zp J g om m mq mu g0 f0 (FieldConfig_new nc m quarks)) /\
  (g_matsubara_reg g <> 0 -> Forall (fun x : (R -> R * R * R) * (R * R * R) => tends3R (Rbar_locally p_infty) (fst x) (snd x)) (cold_zm J g p m mq mu f0 (FieldConfig_new nc m quarks))).
Proof.
  exact (fun J g om p m mq mu g0 f0 nc quarks HJ Hn Ho Hp Hm => conj (cold_gen_ok J g mu HJ Hn m g0 f0 nc quarks Hm om p mq Ho Hp)
    (conj (cold_zp_ok J g mu HJ Hn m g0 f0 nc quarks Hm om mq Ho) (fun Hr => cold_zm_ok J g mu HJ Hn m g0 f0 nc quarks Hm p mq Hr Hp))).
Qed.
Print Assumptions C80_propagators.

(** C81. The finite-temperature charge density. *)
Theorem C81_massless : forall J g beta mu I, exact_integrator J -> 0 < beta ->
  charge_density_with_method J g 0 beta mu I = INR (g_nc g) * (mu * mu * mu / (3 * (PI * PI)) + mu / (3 * (beta * beta))).
Proof. exact (fun J g beta mu I HJ Hb => cd_massless J g beta I HJ Hb mu). Qed.
Print Assumptions C81_massless.

Theorem C81_shape : forall J g m beta I, exact_integrator J -> 0 < beta -> (0 < g_nc g)%nat ->
  (forall mu, charge_density_with_method J g m beta (- mu) I = - charge_density_with_method J g m beta mu I) /\
  (forall mu1 mu2, mu1 < mu2 -> charge_density_with_method J g m beta mu1 I < charge_density_with_method J g m beta mu2 I) /\
  (forall mu, continuous (fun mu => charge_density_with_method J g m beta mu I) mu) /\
  (forall n, exists mu, charge_density_with_method J g m beta mu I = n /\ forall mu', charge_density_with_method J g m beta mu' I = n -> mu' = mu).
Proof.
  exact (fun J g m beta I HJ Hb Hn => conj (cd_odd J g beta I HJ Hb m) (conj (fun a b H => cd_increasing J g beta I HJ Hb m a b Hn H)
    (conj (cd_continuous J g beta I HJ Hb m) (fun n => cd_exists_unique J g beta I HJ Hb m n Hn)))).
Qed.
Print Assumptions C81_shape.

(** Mass dependence, and closed-form bounds for massive quarks. *)
Theorem C81_mass : forall J g beta mu I, exact_integrator J -> 0 < beta -> 0 <= mu ->
  (forall m1 m2, Rabs m1 <= Rabs m2 -> charge_density_with_method J g m2 beta mu I <= charge_density_with_method J g m1 beta mu I) /\
  (forall m, let x := mu - Rabs m in
     INR (g_nc g) * (x * x * x / (3 * (PI * PI)) + x / (3 * (beta * beta))) <= charge_density_with_method J g m beta mu I
       <= INR (g_nc g) * (mu * mu * mu / (3 * (PI * PI)) + mu / (3 * (beta * beta)))).
Proof. exact cd_mass. Qed.
Print Assumptions C81_mass.

(** Accuracy of the inverse: the chemical potential returned for massless quarks. *)
Theorem C81_chemical_potential_error : forall J g beta n mu mu0 I, exact_integrator J -> 0 < beta -> (0 < g_nc g)%nat -> 0 < get_tol I ->
  chemical_potential_with_method J g 0 beta n I = Ret mu -> charge_density_with_method J g 0 beta mu0 I = n ->
  Rabs (mu - mu0) < 3 * (beta * beta) * get_tol I / INR (g_nc g).
Proof. exact (fun J g beta n mu mu0 I HJ Hb Hn Ht H H0 => chempot_error J g beta I HJ Hb n mu mu0 Hn H Ht H0). Qed.
Print Assumptions C81_chemical_potential_error.

(** C82. Why C79 leaves out the ghost self-energy at zero Matsubara frequency:
    its integrand, which the code integrates without the regulator used for the
    gluon, has a simple pole at q2 = (p^2 + m^2)/(2 p), inside the integration
    range. The integral does not exist, and the value of the function (hence of
    the ghost dressing and propagator at zero Matsubara frequency) is whatever the
    integration routine makes of a divergent integral. *)
Theorem C82_pole : forall p m beta, 0 < p -> m <> 0 -> 0 < beta ->
  let q2 := (p * p + m * m) / (2 * p) in
  tends (locally' q2) (fun q => (q - q2) * fst (zm_ghost_self_energy_thermal_part_landau_i q p m beta)) (q2 * q2 / (16 * (PI * PI)) * / (exp (beta * q2) - 1)) /\
  0 < q2 * q2 / (16 * (PI * PI)) * / (exp (beta * q2) - 1).
Proof. exact (fun p m beta Hp Hm Hb => conj (residue p m beta Hp Hm Hb) (residue_pos p m beta Hp Hm Hb)). Qed.
Print Assumptions C82_pole.

Theorem C82_not_integrable : forall p m beta, 0 < p -> m <> 0 -> 0 < beta ->
  ~ exists v, is_RInt (compact_R (fun q => fst (zm_ghost_self_energy_thermal_part_landau_i q p m beta))) 0 1 v.
Proof. exact not_integrable. Qed.
Print Assumptions C82_not_integrable.

Theorem C82_value_undetermined : forall g p m beta g0 I v, 0 < p -> m <> 0 -> 0 < beta ->
  (exists J, exact_integrator J /\ zm_ghost_self_energy_w_method J p m beta I = v) /\
  (exists J, exact_integrator J /\ zm_ym_ghost_dressing_inv J g p m beta g0 = v).
Proof. exact (fun g p m beta g0 I v Hp Hm Hb => conj (undetermined p m beta I v Hp Hm Hb) (undetermined_dressing g p m beta g0 v Hp Hm Hb)). Qed.
Print Assumptions C82_value_undetermined.

(** Concrete cases (three colors, [RInt_J] as the integration routine). *)
Example C79_example : is_RInt (compact_R (fun q => charge_density_i 3 q 0 1 1)) 0 1 (1 + 1 / (PI * PI)).
Proof. exact ex_density_conv. Qed.
Example C80_example_density : forall I, tends (Rbar_locally p_infty) (fun b => charge_density_with_method RInt_J g0 0 b 2 I) (8 / (PI * PI)).
Proof. exact ex_density_cold. Qed.
Example C80_example_gluon : tendsC (Rbar_locally p_infty) (fun b => ym_gluon_dressing_l_inv RInt_J g0 1 1 1 b 0) (RtoC (ym_gluon_dressing_inv_landau 2 0)).
Proof. exact ex_gluon_cold. Qed.
Example C81_example : forall I, 1 / 2 < charge_density_with_method RInt_J g0 (/ 2) 1 1 I <= 1 + 1 / (PI * PI).
Proof. exact ex_density_massive. Qed.
Example C82_example : tends (locally' 1) (fun q => (q - 1) * fst (zm_ghost_self_energy_thermal_part_landau_i q 1 1 1)) (1 / (16 * (PI * PI) * (exp 1 - 1))).
Proof. exact ex_residue. Qed.
