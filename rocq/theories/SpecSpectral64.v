(** * Vocabulary for spectral functions in binary64 *)
From Coq Require Import ZArith Reals.
From Flocq Require Import Core IEEE754.Binary IEEE754.Bits.
From Verif Require Import SpecGrid.
Open Scope R_scope.

Definition moderate (x : binary64) : Prop := fin x /\ Rabs (val x) <= bpow radix2 1000.
(** Two complex numbers that are mirror images in the real axis. *)
Definition mirrored (z w : binary64 * binary64) : Prop :=
  (moderate (fst z) /\ moderate (snd z)) /\ (moderate (fst w) /\ moderate (snd w)) /\ val (fst w) = val (fst z) /\ val (snd w) = - val (snd z).
(** Real on the real axis: mirrored arguments have mirrored values. *)
Definition mirror_symmetric (f : binary64 * binary64 -> binary64 * binary64) : Prop := forall z w, mirrored z w -> mirrored (f z) (f w).
Definition zero_or_nan (x : binary64) : Prop := (fin x /\ val x = 0) \/ is_nan 53 1024 x = true.
