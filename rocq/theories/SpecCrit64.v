(** * The largest entry of a list of binary64 numbers that may contain infinities and NaNs *)
From Coq Require Import ZArith Reals List.
From Flocq Require Import Core IEEE754.BinarySingleNaN IEEE754.Binary IEEE754.Bits.
From Verif Require Import SpecGrid.
Open Scope R_scope.

(** Finite numbers have magnitude below 2^1024, so this orders the infinities correctly. *)
Definition position (x : binary64) : R :=
  match x with
  | B754_infinity _ _ s => if s then - bpow radix2 1024 else bpow radix2 1024
  | _ => val x
  end.
Definition not_a_number (x : binary64) : Prop := is_nan 53 1024 x = true.
(** [t] stands beside the first of the largest entries, disregarding NaNs. *)
Definition at_first_largest {T} (ts : list T) (ds : list binary64) (t : T) : Prop :=
  exists i d, nth_error ts i = Some t /\ nth_error ds i = Some d /\ ~ not_a_number d /\
    (forall j tj dj, nth_error ts j = Some tj -> nth_error ds j = Some dj -> not_a_number dj \/ position dj <= position d) /\
    (forall j tj dj, (j < i)%nat -> nth_error ts j = Some tj -> nth_error ds j = Some dj -> not_a_number dj \/ position dj < position d).
