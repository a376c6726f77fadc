(** * Vocabulary for the properties of consts.rs and utils.rs *)
From Coq Require Import Reals List.
From Coquelicot Require Import Coquelicot.
From Verif Require Import Num MConsts MUtils MDress.
Import ListNotations.
Open Scope R_scope.

(** [v] is the value carried by the last selected event of the history [h], or
    the default [d] when no event is selected. *)
Definition last_selected {A B : Type} (sel : A -> option B) (d : B) (h : list A) (v : B) : Prop :=
  (v = d /\ forall c, In c h -> sel c = None) \/
  (exists h1 c h2, h = h1 ++ c :: h2 /\ sel c = Some v /\ forall c', In c' h2 -> sel c' = None).

(** Selection of the accepted calls of one setter ([positive] is [x > 0.]). *)
Definition sel_nc {F} (c : call (F := F)) : option nat := match c with SetNC n => Some n | _ => None end.
Definition sel_nf {F} (c : call (F := F)) : option nat := match c with SetNF n => Some n | _ => None end.
Definition sel_mq {F} (c : call (F := F)) : option F := match c with SetMQ m => Some m | _ => None end.
Definition sel_mi {F} (c : call (F := F)) : option nat := match c with SetMaxIter n => Some n | _ => None end.
Definition sel_tol {F} (positive : F -> bool) (c : call (F := F)) : option F :=
  match c with SetTol t => if positive t then Some t else None | _ => None end.
Definition sel_reg {F} (positive : F -> bool) (c : call (F := F)) : option F :=
  match c with SetReg r => if positive r then Some r else None | _ => None end.

(** States a program can reach by calling the setters. *)
Definition reachable {F} (O : FloatOps F) (g : globals F) : Prop :=
  exists h, g = run_calls O (default_globals O) h.

(** Two integration routines give the same answer whenever they are asked to
    use method [m]. *)
Definition agree_on (m : Integral R) (J J' : Integrator) : Prop :=
  (forall f a b, integrateC J f a b m = integrateC J' f a b m) /\
  (forall f a b, integrateR J f a b m = integrateR J' f a b m).

(** The sequence of secant iterates, as a mathematical recursion. *)
Fixpoint secant {T Tol : Type} (Ops : RootOps T Tol) (f : T -> T) (a b : T) (n : nat) : T :=
  match n with
  | O => a
  | S k => secant Ops f b
             (ro_div Ops (ro_sub Ops (ro_mul Ops a (f b)) (ro_mul Ops b (f a))) (ro_sub Ops (f b) (f a))) k
  end.

(** Limit of a complex-valued function of a real variable at 0. *)
Definition Clim0 (F : R -> C) (l : C) : Prop :=
  forall e, 0 < e -> exists d, 0 < d /\ forall x, 0 < Rabs x < d -> Cmod (F x - l)%C < e.

(** [f] has a simple pole at [z0] with residue [c]. *)
Definition simple_pole (f : C -> C) (z0 c : C) : Prop :=
  forall e, 0 < e -> exists d, 0 < d /\
    forall w, 0 < Cmod (w - z0)%C < d -> Cmod ((w - z0) * f w - c)%C < e.
