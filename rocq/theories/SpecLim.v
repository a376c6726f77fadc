(** * Limits of real functions along a filter *)
From Coq Require Import Reals.
From Coquelicot Require Import Coquelicot.
Open Scope R_scope.

(** [f] tends to the real number [l] along [F]: [at_right 0] is x -> 0+,
    [Rbar_locally p_infty] is x -> +oo. *)
Definition tends (F : (R -> Prop) -> Prop) (f : R -> R) (l : R) : Prop := filterlim f F (locally l).
Notation INF := (Rbar_locally p_infty).

(** The same for complex-valued functions, componentwise. *)
Definition tendsC (F : (R -> Prop) -> Prop) (f : R -> C) (l : C) : Prop :=
  tends F (fun x => fst (f x)) (fst l) /\ tends F (fun x => snd (f x)) (snd l).
