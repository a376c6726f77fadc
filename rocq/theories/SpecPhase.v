(** * Vocabulary for the drivers of the phase-diagram programs *)
From Coq Require Import Reals List ZArith.
From Coquelicot Require Import Coquelicot.
From Verif Require Import Num MConsts MVacuum MUtils MDress MTc SpecTc.
Import List ListNotations.
Open Scope R_scope.

(** Propagator shown on a plot, in units of the gluon mass: [D] as a function of the
    momentum in GeV, rescaled so that it is free at the renormalisation point. *)
Definition normalised (m renpoint : R) (D : R -> R) (p : R) : R :=
  m ^ 2 / renpoint ^ 2 * (D (p * m) / D renpoint).

(** Real part of the propagator at entry [j] (temperature [t] in units of [m]) of the
    grid of temperatures: entry 0 stands for zero temperature. *)
Definition at_entry (P0 : R -> R -> R -> R -> FieldConfig -> C)
    (P : R -> R -> R -> R -> R -> FieldConfig -> C)
    (om m mu : R) (d : FieldConfig * R) (j : nat) (t : R) (p : R) : R :=
  match j with
  | O => Re (P0 om p mu (snd d) (fst d))
  | S _ => Re (P om p (/ (t * m)) mu (snd d) (fst d))
  end.
Definition entry_temp (j : nat) (t : R) : R := match j with O => 0 | S _ => t end.

(** A rounding to the nearest multiple of 10^-4, as done by the format [{:.4}]
    (any rule for ties). *)
Definition nearest (rd : R -> Z) : Prop := forall x, Rabs (IZR (rd x) - 10000 * x) <= / 2.

(** Concave sequence on a uniform grid. *)
Definition concave (l : list R) : Prop :=
  forall i a b c, nth_error l i = Some a -> nth_error l (i + 1) = Some b -> nth_error l (i + 2) = Some c ->
  a + c <= 2 * b.

(** [tc] is the temperature (in units of [m]) at which the propagator at momentum
    [pbase] (in units of [m]), normalised at [renpoint], is largest: [D0] at zero
    temperature, [D t] at temperature [t] for the temperatures [ts]. *)
Definition critical_at (m renpoint pbase : R) (ts : list R) (D0 : R -> R) (D : R -> R -> R) (tc : R) : Prop :=
  first_argmax (0 :: ts)
    (normalised m renpoint D0 pbase :: map (fun t => normalised m renpoint (D t) pbase) ts) tc.

(** The real longitudinal propagator of a field configuration, at zero temperature
    and at temperature [t] in units of the gluon mass [m]. *)
Definition prop_l_zero (J : Integrator) (g : globals R) (om mu f0 : R) (c : FieldConfig) (p : R) : R :=
  Re (qcd_gluon_propagator_l_zero_temp_w_field_config J g om p mu f0 c).
Definition prop_l_at (J : Integrator) (g : globals R) (om mu f0 : R) (c : FieldConfig) (t p : R) : R :=
  Re (qcd_gluon_propagator_l_w_field_config J g om p (/ (t * fc_gluon c)) mu f0 c).

(** All (flavours, masses, chemical potential) triples in the order in which they are written. *)
Definition table_keys (nf : nat) (masses : list (list R)) (mus : list R) : list (nat * list R * R) :=
  flat_map (fun m => map (fun mu => (nf, m, mu)) mus) masses.
