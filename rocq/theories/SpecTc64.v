(** * Vocabulary for phase boundaries of binary64 numbers *)
From Coq Require Import ZArith Reals List.
From Flocq Require Import Core IEEE754.Binary IEEE754.Bits.
From Verif Require Import SpecGrid.
Import ListNotations.
Open Scope R_scope.

(** The real table represented by a binary64 table. *)
Definition real_table (pb : list (binary64 * binary64)) : list (R * R) := map (fun x => (val (fst x), val (snd x))) pb.
(** All entries are numbers of magnitude at most 2^100... *)
Definition numbers (pb : list (binary64 * binary64)) : Prop :=
  Forall (fun x => fin (fst x) /\ fin (snd x) /\ Rabs (val (fst x)) <= bpow radix2 100 /\ Rabs (val (snd x)) <= bpow radix2 100) pb.
(** ...and neighbouring chemical potentials are at least 2^-100 apart, in increasing order. *)
Definition spaced (pb : list (binary64 * binary64)) : Prop :=
  forall l1 x y l2, pb = l1 ++ x :: y :: l2 -> val (fst x) + bpow radix2 (-100) <= val (fst y).
(** [t] is within [eps] times the temperatures of the segment (plus an underflow allowance) of the value at [mu]
    on a segment of the polygon through [pb]. *)
Definition within_rounding (pb : list (R * R)) (eps mu t : R) : Prop :=
  exists l1 m0 t0 m1 t1 l2 tc, pb = l1 ++ (m0, t0) :: (m1, t1) :: l2 /\ m0 < mu < m1 /\
    (tc - t0) * (m1 - m0) = (t1 - t0) * (mu - m0) /\
    Rabs (t - tc) <= eps * (Rabs t0 + Rabs t1) + bpow radix2 (-900).
