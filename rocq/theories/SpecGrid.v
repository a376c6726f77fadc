(** * Vocabulary for grids of binary64 numbers *)
From Coq Require Import ZArith Reals List.
From Flocq Require Import Core IEEE754.Binary IEEE754.Bits.
Open Scope R_scope.

(** The real number represented; 0 for infinities and NaN, hence always used with [fin]. *)
Definition val (x : binary64) : R := B2R 53 1024 x.
Definition fin (x : binary64) : Prop := is_finite 53 1024 x = true.

(** [l] has [n] points, all finite and strictly increasing, and point [i] is within 10^-13 of
    the real number [g i]. *)
Definition grid_near (l : list binary64) (n : nat) (g : nat -> R) : Prop :=
  length l = n /\ Forall fin l /\
  (forall i d, (S i < n)%nat -> val (nth i l d) < val (nth (S i) l d)) /\
  (forall i d, (i < n)%nat -> Rabs (val (nth i l d) - g i) <= / 10 ^ 13).

(** Parameters without overflow or underflow: finite, magnitudes below 2^899, a step of at
    least 2^-900, and between 1 and 2^50 steps. *)
Definition sane (vmin vmax dv : binary64) : Prop :=
  fin vmin /\ fin vmax /\ fin dv /\ Rabs (val vmin) <= bpow radix2 899 /\ Rabs (val vmax) <= bpow radix2 899 /\
  bpow radix2 (-900) <= val dv /\ 1 <= (val vmax - val vmin) / val dv <= bpow radix2 50.
(** Rounding allowance for the endpoint. *)
Definition slack (vmin vmax : binary64) : R := bpow radix2 (-48) * (Rabs (val vmin) + Rabs (val vmax)) + bpow radix2 (-1000).
