(** * Vocabulary for the plotting programs *)
From Coq Require Import Reals List.
From Coquelicot Require Import Coquelicot.
From Verif Require Import Num MConsts MCommon MPolar MDress MVacuum MQuark SpecLim.
Import ListNotations.
Open Scope R_scope.

Definition increasing_list (l : list R) : Prop :=
  forall i j x y, (i < j)%nat -> nth_error l i = Some x -> nth_error l j = Some y -> x < y.
Definition nondecreasing_list (l : list R) : Prop :=
  forall i j x y, (i < j)%nat -> nth_error l i = Some x -> nth_error l j = Some y -> x <= y.

(** Charge density of a quark of mass 1/2 at temperature [t] (zero included). *)
Definition density_at (J : Integrator) (g : globals R) (t mu : R) : R :=
  if Req_EM_T t 0 then charge_density_zero_temp (g_nc g) (1 / 2) mu else charge_density J g (1 / 2) (/ t) mu.

(** [y] is the part of [x] without its first and last 1250 entries. *)
Definition middle {A : Type} (x y : list A) : Prop :=
  exists a b, x = a ++ y ++ b /\ length a = 1250%nat /\ length b = 1250%nat.

(** The gluon loop plus the quark loops of [nf] flavours of mass [mq], the quark loops normalised so
    that they are asymptotically a pure logarithm; divided by [z]. *)
Definition dressing_model (nc nf : nat) (m mq f0 z p2 : R) : R :=
  (gl_f (p2 / m ^ 2) + f0 + INR nf / INR nc * (gl_f_q_crossed (p2 / mq ^ 2) + 2 / 27)) / z.

(** [v] is a chemical potential for the density [n] at temperature [t]: exact at zero temperature,
    within 1E-5 in the density otherwise; vanishing for a vanishing density. *)
Definition solves (J : Integrator) (g : globals R) (t n v : R) : Prop :=
  (n = 0 /\ v = 0) \/ (n <> 0 /\ (t = 0 -> density_at J g t v = n) /\ Rabs (n - density_at J g t v) < / 10 ^ 5).

(** One run of the comparison program. *)
Record Run := mkRun { r_m : R; r_mq : R; r_f0 : R; r_z : R; r_nf : nat }.
Definition run_curve (nc : nat) (r : Run) (momenta : list R) : list R :=
  map (dressing_model nc (r_nf r) (r_m r) (r_mq r) (r_f0 r) (r_z r)) momenta.
Definition compare_runs : list Run :=
  [ mkRun 0.8 0.65 (- 0.65) 0.4 2; mkRun 0.73 0.65 (- 0.65) 0.4 2; mkRun 0.73 0.65 (- 1.05) 1 0;
    mkRun 0.8 0.5 (- 0.6) 0.4 2; mkRun 0.73 0.5 (- 0.6) 0.4 2; mkRun 0.73 0.5 (- 1.05) 1 0 ].

(** One table of the pure Yang-Mills program: polarization (true: longitudinal), temperature in MeV,
    regulator, gluon mass, additive constant. *)
Record YmRun := mkYm { y_long : bool; y_T : nat; y_om : R; y_m : R; y_f0 : R }.
Definition ym_runs : list YmRun :=
  [ mkYm true 121 0.001 0.525 (- 0.926); mkYm true 194 0.001 0.175 (- 2.176); mkYm true 260 0.002 0.025 (- 5.276);
    mkYm true 290 0.001 0.1 (- 1.876); mkYm true 366 0.001 0.35 0.324; mkYm true 458 0.001 0.65 0.924;
    mkYm false 121 0.001 0.675 (- 0.826); mkYm false 194 0.001 0.725 (- 0.776); mkYm false 260 0.001 0.775 (- 0.576);
    mkYm false 290 0.001 0.725 (- 0.476); mkYm false 366 0.001 0.8 (- 0.376); mkYm false 458 0.001 0.9 (- 0.276) ].
Definition ym_run_prop (J : Integrator) (g : globals R) (y : YmRun) (p : R) : R :=
  Re ((if y_long y then ym_gluon_propagator_l J g else ym_gluon_propagator_t J g) (y_om y) p (y_m y) (/ (INR (y_T y) / 1000)) (y_f0 y)).
(** The values of a propagator normalised at 4 GeV: p^2 D(p) = 1 there. *)
Definition norm4 (D : R -> R) (momenta : list R) : list R := map (fun p => D p / (4 ^ 2 * D 4)) momenta.

Definition ym_vacuum_prop (p : R) : R := ym_gluon_propagator_landau (p ^ 2 / 0.656 ^ 2) (- 0.876).

(** The curves of the QCD propagator program. *)
Definition gp_temperatures : list R := [0.1; 0.075; 0.05; 0.025; 0.01; 0.005].
Definition gp_curve (J : Integrator) (g : globals R) (momenta : list R) (long : bool) (t : R) : list R :=
  map (fun p => Re ((if long then qcd_gluon_propagator_l J g else qcd_gluon_propagator_t J g) (g_matsubara_reg g) p 0.656 (g_m_quark g) (/ t) 1.2 (- 0.876))) momenta.

(** The same for the quark polarization and for its integrand at external momentum [p]. *)
Definition pol_curve (J : Integrator) (g : globals R) (momenta : list R) (long : bool) (t : R) : list R :=
  map (fun p => Re ((if long then polarization_quark_l_thermal_part_landau J g else polarization_quark_t_thermal_part_landau J g) (g_matsubara_reg g) p (g_m_quark g) (/ t) 1.2)) momenta.
Definition integrand_curve (nc : nat) (om mq mu : R) (qs : list R) (long : bool) (p t : R) : list R :=
  map (fun q => Re ((if long then polarization_quark_l_thermal_part_landau_i nc q om p else polarization_quark_t_thermal_part_landau_i nc q om p) mq (/ t) mu)) qs.
(** Pointwise convergence of curves: the [i]-th value for every [i]. *)
Definition curves_tend (F : (R -> Prop) -> Prop) (c : R -> list R) (l : list R) (n : nat) : Prop :=
  length l = n /\ forall i, (i < n)%nat -> tends F (fun t => nth i (c t) 0) (nth i l 0).
