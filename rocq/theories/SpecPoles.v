(** * Vocabulary for the gluon-pole program *)
From Coq Require Import Reals List.
From Coquelicot Require Import Coquelicot.
From Verif Require Import Num MConsts MVacuum MDress.
Import ListNotations.
Open Scope R_scope.

(** Integrators that integrate real and imaginary parts separately, with the
    same nodes: conjugating the integrand conjugates the integral. *)
Definition commutes_with_conj (J : Integrator) : Prop :=
  forall f a b I, integrateC J (fun t => Cconj (f t)) a b I = Cconj (integrateC J f a b I).

(** A function of the frequency that depends on its square only, and is real
    on the real axis (reflection principle). *)
Definition four_fold (f : C -> C) : Prop :=
  (forall w, f (- w)%C = f w) /\ (forall w, fst w <> 0 -> f (Cconj w) = Cconj (f w)).

(** The lattice fits behind the figure: temperature, gluon mass, additive
    constant of the inverse dressing function, all in units of GeV. *)
Definition fits : list (R * R * R) :=
  [ (121/1000, 675/1000, -826/1000); (194/1000, 725/1000, -776/1000); (260/1000, 775/1000, -576/1000);
    (290/1000, 725/1000, -476/1000); (366/1000, 800/1000, -376/1000); (458/1000, 900/1000, -276/1000) ].
Definition f0_vacuum : R := -876/1000.
Definition m_vacuum : R := 656/1000.
Definition accuracy : R := 1 / 1000000000000.

(** Central difference quotient of the inverse function, inverted. *)
Definition inverse_slope (f : C -> C) (z : C) : C :=
  (RtoC (2 * accuracy) / (f (z + RtoC accuracy) - f (z - RtoC accuracy)))%C.
Definition im_over_re (r : C) : R := snd r / fst r.

(** A row of the output file is (temperature, (p, ratio)); p is the complex
    energy, so the Euclidean frequency is i p and the Euclidean s is - p^2. *)
Definition thermal_row (J : Integrator) (g : globals R) (x : R * R * R) (row : R * (C * R)) : Prop :=
  let '(t, m, f0) := x in let '(t', (p, z)) := row in
  let f := fun w => zp_ym_gluon_dressing_t_inv J g w m (/ t) f0 in
  let root := Cconj (Ci * p)%C in
  t' = t /\ Cmod (f (Ci * p)%C) < accuracy /\ Cmod (f (Ci * - p)%C) < accuracy /\ Cmod (f (Ci * Cconj p)%C) < accuracy /\
  z = im_over_re (Cconj (RtoC 2 * inverse_slope f root / root)%C).
Definition vacuum_row (row : R * (C * R)) : Prop :=
  let '(t', (p, z)) := row in
  let f := fun s => ym_gluon_dressing_inv_landau s f0_vacuum in
  let root := (- (p * p) / RtoC (m_vacuum * m_vacuum))%C in
  t' = 0 /\ 0 <= fst p /\ Cmod (f root) < accuracy /\ z = im_over_re (inverse_slope f root / root)%C.

(** The logarithm of a loop with energy [en] is off its cut. *)
Definition off_cut (om : C) (en : R) : Prop := fst om <> 0 /\ snd om <> en /\ snd om <> - en.

(** Conjugation of (inverse dressing, dressing, propagator). *)
Definition conj3 (x : C * C * C) : C * C * C := let '(i, d, p) := x in (Cconj i, Cconj d, Cconj p).
