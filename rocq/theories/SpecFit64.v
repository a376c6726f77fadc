(** * Vocabulary for polynomials with binary64 coefficients *)
From Coq Require Import ZArith Reals List.
From Flocq Require Import Core IEEE754.Binary IEEE754.Bits.
From Verif Require Import SpecGrid SpecTc.
Open Scope R_scope.

(** Finite coefficients of magnitude at most 2^100. *)
Definition coefficients (params : list binary64) : Prop := Forall (fun p => fin p /\ Rabs (val p) <= bpow radix2 100) params.
(** The exact value of the polynomial, and the sum of the magnitudes of its terms. *)
Definition exact_value (params : list binary64) (mu : binary64) : R := poly (map val params) (val mu).
Definition term_sum (params : list binary64) (mu : binary64) : R := poly (map (fun p => Rabs (val p)) params) (Rabs (val mu)).
(** The degree, as a real number. *)
Definition degree (params : list binary64) : R := INR (length params - 1).
