(** * Properties C11-C17: distributions, Fermi momentum, quark density *)
From Coq Require Import Reals Psatz.
From Coquelicot Require Import Coquelicot.
From Verif Require Import Num CField MCommon MConsts MUtils MDress MQuark SpecConsts SpecDistr PDistr PDistr2.
Open Scope R_scope.

(** C11. *)
Theorem C11_fermi : forall en beta mu,
  0 < fermi_distribution (T := R) en beta mu < 1 /\
  (forall en', 0 < beta -> en < en' -> fermi_distribution (T := R) en' beta mu < fermi_distribution en beta mu) /\
  (forall x, fermi_distribution (T := R) (mu + x) beta mu + fermi_distribution (mu - x) beta mu = 1).
Proof.
  exact (fun en beta mu => conj (fermi_range en beta mu)
    (conj (fun en' Hb H => fermi_decreasing beta mu en en' Hb H) (fermi_particle_hole beta mu))).
Qed.
Print Assumptions C11_fermi.

Theorem C11_fermi_double : forall en beta mu,
  fermi_distribution_double (T := R) en beta mu = fermi_distribution en beta mu + fermi_distribution en beta (- mu) /\
  fermi_distribution_double (T := R) en beta (- mu) = fermi_distribution_double en beta mu /\
  0 < fermi_distribution_double (T := R) en beta mu < 2.
Proof. exact (fun en beta mu => conj (fermi2_R en beta mu) (conj (fermi2_even en beta mu) (fermi2_range en beta mu))). Qed.
Print Assumptions C11_fermi_double.

Theorem C11_bose : forall beta mu, 0 < beta ->
  (forall en, mu < en -> 0 < bose_distribution (T := R) en beta mu) /\
  (forall x, x <> 0 -> bose_distribution (T := R) (mu + x) beta mu + bose_distribution (mu - x) beta mu = -1).
Proof.
  exact (fun beta mu Hb => conj (fun en H => bose_pos en beta mu Hb H)
    (fun x Hx => bose_reflection beta mu x (Rgt_not_eq _ _ Hb) Hx)).
Qed.
Print Assumptions C11_bose.

Theorem C11_zero_chempot_real : forall en beta,
  fermi_distribution_zero_chempot (T := R) en beta = fermi_distribution en beta 0 /\
  bose_distribution_zero_chempot (T := R) en beta = bose_distribution en beta 0.
Proof. exact zero_chempot_R. Qed.
Print Assumptions C11_zero_chempot_real.

Theorem C11_zero_chempot_complex : forall (en : C) beta,
  fermi_distribution_zero_chempot en beta = fermi_distribution en beta (RtoC 0) /\
  bose_distribution_zero_chempot en beta = bose_distribution en beta (RtoC 0).
Proof. exact zero_chempot_C. Qed.
Print Assumptions C11_zero_chempot_complex.

(** The values themselves: what 1/(exp(beta(en-mu)) +- 1) means. *)
Theorem C11_values : forall en beta mu,
  fermi_distribution (T := R) en beta mu * (exp (beta * (en - mu)) + 1) = 1 /\
  (beta <> 0 -> en <> mu -> bose_distribution (T := R) en beta mu * (exp (beta * (en - mu)) - 1) = 1).
Proof. exact distr_values. Qed.
Print Assumptions C11_values.

Theorem C11_complex_extends_real : forall en beta mu,
  fermi_distribution (RtoC en) beta (RtoC mu) = RtoC (fermi_distribution en beta mu) /\
  (beta <> 0 -> en <> mu -> bose_distribution (RtoC en) beta (RtoC mu) = RtoC (bose_distribution en beta mu)).
Proof. exact distr_real_complex. Qed.
Print Assumptions C11_complex_extends_real.

Theorem C11_particle_hole_complex : forall (x mu : C) beta,
  (Cexp (x * RtoC beta) + RtoC 1)%C <> RtoC 0 ->
  (fermi_distribution (mu + x)%C beta mu + fermi_distribution (mu - x)%C beta mu)%C = RtoC 1.
Proof. exact fermi_particle_hole_C. Qed.
Print Assumptions C11_particle_hole_complex.

Example C11_example : fermi_distribution (T := R) (1 + ln 3) 1 1 = / 4.
Proof. exact ex_fermi. Qed.

(** C12. *)
Theorem C12_fermi_zero_temp_limit : forall en mu, en <> mu ->
  is_lim (fun beta => fermi_distribution (T := R) en beta mu) p_infty (fermi_distribution_zero_temp en mu).
Proof. exact fermi_lim. Qed.
Print Assumptions C12_fermi_zero_temp_limit.

Theorem C12_fermi_double_zero_temp_limit : forall en mu, en <> mu -> en <> - mu ->
  is_lim (fun beta => fermi_distribution_double (T := R) en beta mu) p_infty (fermi_distribution_double_zero_temp en mu).
Proof. exact fermi2_lim. Qed.
Print Assumptions C12_fermi_double_zero_temp_limit.

Theorem C12_on_the_fermi_surface : forall en beta,
  fermi_distribution (T := R) en beta en = / 2 /\ fermi_distribution_zero_temp (T := R) en en = 1.
Proof. exact fermi_surface. Qed.
Print Assumptions C12_on_the_fermi_surface.

Example C12_example : fermi_distribution_double_zero_temp (T := R) 2 (-3) = 1.
Proof. exact (occ_inside 2 (-3) ltac:(lra) ltac:(rewrite Rabs_left; lra)). Qed.

(** C13. *)
Theorem C13_energy_at_fermi_momentum : forall m mu, Rabs m <= Rabs mu ->
  energy (T := R) (fermi_momentum m mu) m = Rabs mu.
Proof. exact energy_at_kF. Qed.
Print Assumptions C13_energy_at_fermi_momentum.

Theorem C13_occupation_edge : forall m mu q, 0 <= q ->
  (Rabs m <= Rabs mu -> q < fermi_momentum m mu -> fermi_distribution_double_zero_temp (energy (T := R) q m) mu = 1) /\
  (Rabs m <= Rabs mu -> fermi_momentum m mu < q -> fermi_distribution_double_zero_temp (energy (T := R) q m) mu = 0) /\
  (Rabs mu < Rabs m -> fermi_distribution_double_zero_temp (energy (T := R) q m) mu = 0).
Proof. exact kF_occupation. Qed.
Print Assumptions C13_occupation_edge.

Example C13_example : fermi_momentum 3 (-5) = 4.
Proof. exact ex_kF. Qed.

(** C14. *)
Theorem C14_density_is_integral : forall nc m mu K, fermi_momentum m mu <= K ->
  is_RInt (charge_integrand_zt nc m mu) 0 K (charge_density_zero_temp nc m mu).
Proof. exact density_integral. Qed.
Print Assumptions C14_density_is_integral.

Theorem C14_symmetries : forall nc m mu,
  charge_density_zero_temp nc m (- mu) = - charge_density_zero_temp nc m mu /\
  charge_density_zero_temp nc (- m) mu = charge_density_zero_temp nc m mu.
Proof. exact (fun nc m mu => conj (density_odd nc m mu) (density_even_mass nc m mu)). Qed.
Print Assumptions C14_symmetries.

Theorem C14_monotone : forall nc m x y,
  (x <= y -> charge_density_zero_temp nc m x <= charge_density_zero_temp nc m y) /\
  ((0 < nc)%nat -> x < y -> Rabs m < Rabs x \/ Rabs m < Rabs y ->
    charge_density_zero_temp nc m x < charge_density_zero_temp nc m y).
Proof. exact (fun nc m x y => conj (density_mono nc m x y) (density_strict nc m x y)). Qed.
Print Assumptions C14_monotone.

Theorem C14_zero_iff_gap : forall nc m mu, (0 < nc)%nat ->
  (charge_density_zero_temp nc m mu = 0 <-> Rabs mu <= Rabs m).
Proof. exact density_zero_iff. Qed.
Print Assumptions C14_zero_iff_gap.

Theorem C14_continuous : forall nc m mu, continuous (charge_density_zero_temp nc m) mu.
Proof. exact density_continuous. Qed.
Print Assumptions C14_continuous.

Example C14_example : charge_density_zero_temp 3 3 (-5) = - (64 / PI ^ 2).
Proof. exact ex_density. Qed.

(** C15. *)
Theorem C15_density_of_chempot : forall nc m n, (0 < nc)%nat ->
  charge_density_zero_temp nc m (chemical_potential_zero_temp nc m n) = n.
Proof. exact density_of_chempot. Qed.
Print Assumptions C15_density_of_chempot.

Theorem C15_chempot_of_density : forall nc m mu, (0 < nc)%nat -> Rabs m < Rabs mu ->
  chemical_potential_zero_temp nc m (charge_density_zero_temp nc m mu) = mu.
Proof. exact chempot_of_density. Qed.
Print Assumptions C15_chempot_of_density.

Theorem C15_gap : forall nc m mu, Rabs mu <= Rabs m ->
  chemical_potential_zero_temp nc m (charge_density_zero_temp nc m mu) = 0.
Proof. exact chempot_in_gap. Qed.
Print Assumptions C15_gap.

Example C15_example : chemical_potential_zero_temp 3 3 (- (64 / PI ^ 2)) = -5.
Proof. exact ex_chempot. Qed.

(** C16. *)
Theorem C16_within_tolerance : forall J g m beta n I mu,
  chemical_potential_with_method J g m beta n I = Ret mu ->
  (n = 0 /\ mu = 0) \/ (n <> 0 /\ Rabs (n - charge_density_with_method J g m beta mu I) < get_tol I).
Proof. exact chempot_within_tol. Qed.
Print Assumptions C16_within_tolerance.

(** In particular, for a positive tolerance the assertion on distinct guesses is
    never what makes it panic. *)
Theorem C16_panics_iff : forall J g m beta n I,
  chemical_potential_with_method J g m beta n I = Panic <->
  n <> 0 /\ (~ 0 < get_tol I \/
    forall k, (1 <= k <= 1000)%nat ->
      get_tol I <= Rabs (n - charge_density_with_method J g m beta
         (secant RootOpsR (fun mu => n - charge_density_with_method J g m beta mu I) (n / 2) n k) I)).
Proof. exact chempot_panic. Qed.
Print Assumptions C16_panics_iff.

(** With an integration routine returning the constant density 6 the search succeeds. *)
Example C16_example : exists J, forall g m beta I, 0 < get_tol I -> get_tol I < 1 ->
  chemical_potential_with_method J g m beta 6 I <> Panic.
Proof. exact ex_chempot_found. Qed.

(** C17. *)
Theorem C17_odd : forall nc q m beta mu, charge_density_i nc q m beta (- mu) = - charge_density_i nc q m beta mu.
Proof. exact cdi_odd. Qed.
Print Assumptions C17_odd.

Theorem C17_increasing_and_sign : forall nc q m beta, (0 < nc)%nat -> q <> 0 -> 0 < beta ->
  (forall mu1 mu2, mu1 < mu2 -> charge_density_i nc q m beta mu1 < charge_density_i nc q m beta mu2) /\
  (forall mu, (0 < charge_density_i nc q m beta mu <-> 0 < mu) /\ (charge_density_i nc q m beta mu < 0 <-> mu < 0)).
Proof.
  exact (fun nc q m beta Hn Hq Hb => conj (fun a b H => cdi_increasing nc q m beta a b Hn Hq Hb H)
    (fun mu => cdi_sign nc q m beta mu Hn Hq Hb)).
Qed.
Print Assumptions C17_increasing_and_sign.

Theorem C17_zero_temp_limit : forall nc q m mu, energy (T := R) q m <> Rabs mu ->
  is_lim (fun beta => charge_density_i nc q m beta mu) p_infty (charge_integrand_zt nc m mu q).
Proof. exact cdi_lim. Qed.
Print Assumptions C17_zero_temp_limit.

Example C17_example : charge_integrand_zt 3 3 (-6) 4 = - (48 / PI ^ 2).
Proof. exact ex_cdi. Qed.
