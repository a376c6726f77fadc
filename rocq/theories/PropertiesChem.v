(** * C87: where the root search for the chemical potential fails and where it succeeds

    [exact_integrator J]: the integration routine returns the Riemann integral of every
    integrable function. Arithmetic is exact, so the failures below are failures of the
    algorithm (secant steps from n/2 and n, at most 1000), not of rounding. *)
From Coq Require Import Reals.
From Coquelicot Require Import Coquelicot.
From Verif Require Import Num MCommon MConsts MUtils MDress MQuark SpecInt SpecLim PDensity PChem PChem2 PChem3 PExTherm PCfg PExChem.
Open Scope R_scope.

(** Cold massive quarks: if the density, taken as the starting guess of the chemical
    potential, lies inside the mass gap, the call panics at every low enough
    temperature, whatever the (exact) integration routine. *)
Theorem C87_cold_search_panics : forall (g : globals R) (m n tol : R), (0 < g_nc g)%nat -> 0 < tol < Rabs n -> Rabs n < Rabs m ->
  exists b0, 0 < b0 /\ forall J I beta, exact_integrator J -> get_tol I = tol -> b0 <= beta -> chemical_potential_with_method J g m beta n I = Panic.
Proof. exact cold_panics. Qed.
Print Assumptions C87_cold_search_panics.

(** The same for the wrapper with the default method and the global tolerance. *)
Theorem C87_cold_default_panics : forall (g : globals R) (m n : R), (0 < g_nc g)%nat -> 0 < g_tol_integral g < Rabs n -> Rabs n < Rabs m ->
  exists b0, 0 < b0 /\ forall J beta, exact_integrator J -> b0 <= beta -> chemical_potential J g m beta n = Panic.
Proof. exact cold_panics_default. Qed.
Print Assumptions C87_cold_default_panics.

(** The quantity searched for exists at every temperature (C81) and has a limit, the one
    computed by [chemical_potential_zero_temp]. *)
Theorem C87_exact_solution_cold_limit : forall J g m n I (mu : R -> R), exact_integrator J -> (0 < g_nc g)%nat -> n <> 0 ->
  (forall beta, 0 < beta -> charge_density_with_method J g m beta (mu beta) I = n) ->
  tends (Rbar_locally p_infty) mu (chemical_potential_zero_temp (g_nc g) m n).
Proof. exact exact_cold_limit. Qed.
Print Assumptions C87_exact_solution_cold_limit.

(** Hot massless quarks, density A mu^3 + B mu: the search succeeds and is accurate. *)
Theorem C87_hot_search_succeeds : forall J g beta n I, exact_integrator J -> 0 < beta -> (0 < g_nc g)%nat -> n <> 0 -> 0 < get_tol I ->
  let A := INR (g_nc g) / (3 * (PI * PI)) in let B := INR (g_nc g) / (3 * (beta * beta)) in
  100 * (A * (n * n)) * ((1 + B) * (1 + B)) <= B * (B * B) -> 4 * ((1 + B) * Rabs n) < get_tol I * 2 ^ 999 ->
  exists mu, chemical_potential_with_method J g 0 beta n I = Ret mu /\
    forall mu0, charge_density_with_method J g 0 beta mu0 I = n -> Rabs (mu - mu0) < 3 * (beta * beta) * get_tol I / INR (g_nc g).
Proof. exact hot_total. Qed.
Print Assumptions C87_hot_search_succeeds.

(** A quark of mass 1 at temperature 1/80 and density 1/2 (the zero-temperature function
    answers with a number larger than 1), and massless quarks at temperature 4. *)
Example C87_example_cold : forall k, chemical_potential_with_method RInt_J g0 1 80 (1 / 2) (G7K15 (/ 1000) k) = Panic.
Proof. exact ex_cold. Qed.
Example C87_example_zero_temp : 1 < chemical_potential_zero_temp (g_nc g0) 1 (1 / 2).
Proof. exact ex_cold_zt. Qed.
Example C87_example_hot : forall k, exists mu, chemical_potential_with_method RInt_J g0 0 (/ 4) 1 (G7K15 (/ 1000) k) = Ret mu.
Proof. exact ex_hot. Qed.
