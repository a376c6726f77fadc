(** * Vocabulary for the exponential of a libm *)
From Coq Require Import ZArith Reals.
From Flocq Require Import Core IEEE754.Binary IEEE754.Bits.
From Verif Require Import SpecGrid SpecFermi.
Open Scope R_scope.

(** A number that is not negative, or +infinity. *)
Definition nonneg (x : binary64) : Prop := x = B754_infinity 53 1024 false \/ fin x /\ 0 <= val x.
Definition isNaN (x : binary64) : Prop := is_nan 53 1024 x = true.

(** What is assumed of the exponential, in increasing strength: it never is negative or NaN;
    it is at least 1 for nonnegative arguments; its relative error is at most [d]; it is correctly rounded. *)
Definition exp_nonneg (E : binary64 -> binary64) : Prop := forall x, ~ isNaN x -> nonneg (E x).
Definition exp_least_one (E : binary64 -> binary64) : Prop :=
  forall x, nonneg x -> E x = B754_infinity 53 1024 false \/ fin (E x) /\ 1 <= val (E x).
Definition exp_within (d : R) (E : binary64 -> binary64) : Prop :=
  forall x, fin x -> Rabs (val x) <= 600 -> fin (E x) /\ Rabs (val (E x) - exp (val x)) <= d * exp (val x).
Definition exp_correct (E : binary64 -> binary64) : Prop :=
  forall x, fin x -> Rabs (val x) <= 600 -> fin (E x) /\ val (E x) = to_f64 (exp (val x)).

(** [y] is [x] up to a relative error of [d]. *)
Definition within (d x y : R) : Prop := Rabs (y - x) <= d * Rabs x.

(** Zero, or not so small that its square underflows. *)
Definition normal_or_zero (x : binary64) : Prop := val x = 0 \/ bpow radix2 (-500) <= Rabs (val x).
