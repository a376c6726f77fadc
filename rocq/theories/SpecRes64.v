(** * Vocabulary for numerical residues in binary64 *)
From Coq Require Import ZArith Reals.
From Flocq Require Import Core IEEE754.BinarySingleNaN IEEE754.Binary IEEE754.Bits.
From Verif Require Import SpecGrid.
Open Scope R_scope.

(** A point of magnitude 32768 or more, not close to overflow. *)
Definition far (z : binary64) : Prop := fin z /\ bpow radix2 15 <= Rabs (val z) <= bpow radix2 1000.
(** A step below half of the spacing of binary64 numbers just below 32768. *)
Definition tiny_step (eps : binary64) : Prop := fin eps /\ Rabs (val eps) < bpow radix2 (-39).
Definition both_nan (z : binary64 * binary64) : Prop := is_nan 53 1024 (fst z) = true /\ is_nan 53 1024 (snd z) = true.
(** 1 / (x - z), evaluated in binary64; its residue at [z] is one. *)
Definition unit_pole (one z : binary64) : binary64 -> binary64 := fun x => b64_div mode_NE one (b64_minus mode_NE x z).
(** The same at complex points, with the quotient of num-complex. *)
Definition unit_complex_pole (one zero : binary64) (z : binary64 * binary64) : binary64 * binary64 -> binary64 * binary64 := fun w =>
  let a := b64_minus mode_NE (fst w) (fst z) in
  let b := b64_minus mode_NE (snd w) (snd z) in
  let n := b64_plus mode_NE (b64_mult mode_NE a a) (b64_mult mode_NE b b) in
  (b64_div mode_NE (b64_mult mode_NE one a) n, b64_minus mode_NE zero (b64_div mode_NE (b64_mult mode_NE one b) n)).
