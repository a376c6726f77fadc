(** * Vocabulary for root finding in binary64 *)
From Coq Require Import ZArith Reals.
From Flocq Require Import IEEE754.Binary IEEE754.Bits.
From Verif Require Import SpecGrid.

(** Infinities and NaNs stay infinities or NaNs, as in every non-constant polynomial. *)
Definition keeps_non_finite (f : binary64 -> binary64) : Prop := forall x, ~ fin x -> ~ fin (f x).
