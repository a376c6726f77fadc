(** * Charge density of quarks at finite and at zero temperature (C90) *)
From Coq Require Import Reals List Lra Lia.
From Coquelicot Require Import Coquelicot.
From Verif Require Import Num MCommon MConsts MThermal MDress MQuark MPhase MProg SpecInt SpecLim SpecSmear SpecProg PSmear PSmear2 PSmear3 PSmear4 PSmear5 PCfg PExTherm.
Import List ListNotations.
Open Scope R_scope.

(** C90. The density at temperature 1/beta is the average of the zero-temperature density over the chemical
    potential, with weight 1/(4 cosh^2(y/2)) at mu + y/beta. *)
Theorem C90_smearing : forall J g m beta mu method, exact_integrator J -> 0 < beta ->
  is_RInt_gen (fun y => smear y * charge_density_zero_temp (g_nc g) m (mu + y / beta)) (Rbar_locally m_infty) (Rbar_locally p_infty)
    (charge_density_with_method J g m beta mu method).
Proof. exact (fun J g m beta mu I HJ Hb => smeared J g beta m mu I HJ Hb). Qed.
Print Assumptions C90_smearing.

(** At fixed positive chemical potential the density increases with temperature... *)
Theorem C90_increasing_in_temperature : forall J g m mu method T1 T2, exact_integrator J -> (0 < g_nc g)%nat -> 0 < mu -> 0 < T1 < T2 ->
  charge_density_with_method J g m (/ T1) mu method < charge_density_with_method J g m (/ T2) mu method.
Proof. exact (fun J g m mu I T1 T2 HJ Hn Hm HT => cd_T_strict J g m mu I HJ T1 T2 Hn HT Hm). Qed.
Print Assumptions C90_increasing_in_temperature.

(** ...and exceeds the one at zero temperature, which is its limit. *)
Theorem C90_above_zero_temperature : forall J g m mu method, exact_integrator J -> (0 < g_nc g)%nat -> 0 < mu ->
  (forall T, 0 < T -> charge_density_zero_temp (g_nc g) m mu < charge_density_with_method J g m (/ T) mu method) /\
  tends (at_right 0) (fun T => charge_density_with_method J g m (/ T) mu method) (charge_density_zero_temp (g_nc g) m mu).
Proof. exact (fun J g m mu I HJ Hn Hm => conj (fun T HT => heat_from_0 J g m I HJ Hn T mu HT Hm) (heat_lim J g m I HJ mu)). Qed.
Print Assumptions C90_above_zero_temperature.

(** At fixed density the chemical potential falls with temperature, from the value at zero temperature. *)
Theorem C90_chemical_potential : forall J g m method n T1 T2 mu1 mu2, exact_integrator J -> (0 < g_nc g)%nat -> 0 < n -> 0 < T1 < T2 ->
  charge_density_with_method J g m (/ T1) mu1 method = n -> charge_density_with_method J g m (/ T2) mu2 method = n ->
  0 < mu2 < mu1 /\ mu1 < chemical_potential_zero_temp (g_nc g) m n.
Proof. exact (fun J g m I n T1 T2 mu1 mu2 HJ Hn Pn HT E1 E2 => chempot_falls J g m I HJ Hn n T1 T2 mu1 mu2 Pn HT E1 E2). Qed.
Print Assumptions C90_chemical_potential.

(** Above the mass, the density at low temperature is the one at zero temperature and a term in T^2. *)
Theorem C90_sommerfeld : forall J g m mu method, exact_integrator J -> Rabs m < mu ->
  exists C, forall T, 0 < T -> Rabs (charge_density_with_method J g m (/ T) mu method
    - (charge_density_zero_temp (g_nc g) m mu + INR (g_nc g) * (2 * (mu * mu) - m * m) / (6 * sqrt (mu * mu - m * m)) * (T * T))) <= C * (T * T * T).
Proof. exact sommerfeld. Qed.
Print Assumptions C90_sommerfeld.

(** Below the mass, it is exponentially small. *)
Theorem C90_gap : forall J g m method b beta mu, exact_integrator J -> 0 < b <= beta ->
  Rabs (charge_density_with_method J g m beta mu method) <= 2 * INR (g_nc g) * exp (b * Rabs m) / (PI * PI * (b * b * b)) * exp (- (beta * (Rabs m - Rabs mu))).
Proof. exact (fun J g m I b beta mu HJ Hb => dilute J g m I HJ b beta mu Hb). Qed.
Print Assumptions C90_gap.

(** The curves of qcd_quark_charge_density.rs at positive chemical potential lie in the order of their legends. *)
Theorem C90_program_curves : forall J g mu i j s t, exact_integrator J -> (0 < g_nc g)%nat -> 0 < mu -> (i < j)%nat ->
  nth_error (0 :: plot_temperatures) i = Some s -> nth_error (0 :: plot_temperatures) j = Some t -> density_at J g s mu < density_at J g t mu.
Proof. exact curves_ordered. Qed.
Print Assumptions C90_program_curves.

(** Three colours, mass 3, chemical potential 5. *)
Theorem C90_example : exists C, forall T, 0 < T -> Rabs (charge_density RInt_J g0 3 (/ T) 5 - (64 / PI ^ 2 + 41 / 8 * (T * T))) <= C * (T * T * T).
Proof. exact ex_sommerfeld. Qed.
Print Assumptions C90_example.

(** Heating a quark of mass 3 at chemical potential 5 from T = 0 to 1 and 2. *)
Example C90_example_heating : 64 / PI ^ 2 < charge_density RInt_J g0 3 (/ 1) 5 < charge_density RInt_J g0 3 (/ 2) 5.
Proof. exact ex_heating. Qed.
Print Assumptions C90_example_heating.
