(** * Vocabulary for the Fermi momentum in binary64 *)
From Coq Require Import ZArith Reals List.
From Flocq Require Import Core IEEE754.Binary IEEE754.Bits.
From Verif Require Import MFloat MFermi SpecGrid.
Import ListNotations.
Open Scope R_scope.

(** Rounding to binary64 in the absence of overflow. *)
Definition to_f64 (x : R) : R := round radix2 (FLT_exp (-1074) 53) ZnearestE x.
(** Squares that do not overflow. *)
Definition moderate (x : binary64) : Prop := Rabs (val x) <= bpow radix2 500.

(** The chemical potentials of [grid] at which a zero-temperature function of a quark of mass [mq] hands
    NaN to the integration routine as its upper limit are those with index in [ks]. *)
Definition nan_limits (grid : list F64) (mq : F64) (ks : list nat) : Prop :=
  forall k, (k < length grid)%nat ->
    (zero_temp_wrapper_f64 false f64_isnan mq (nth k grid f64_nan) = true <-> In k ks).

(** A routine that returns NaN (in the real part) if the upper limit of the integral is NaN. *)
Definition nan_to_nan (integ : F64 -> F64 -> F64 -> F64 -> C64) : Prop :=
  forall mu p mq b, f64_isnan b = true -> f64_isnan (fst (integ mu p mq b)) = true.
