(** * Vocabulary for the fit of the phase boundary *)
From Coq Require Import Reals List.
From Verif Require Import Num MUtils MTc MFit SpecTc.
Import ListNotations.
Open Scope R_scope.

Definition total {A : Type} (f : A -> R) (l : list A) : R := fold_right (fun x s => f x + s) 0 l.

(** Sum of the squared deviations of the polynomial with coefficients [p] from the points. *)
Definition chi2 (pts : list (R * R)) (p : list R) : R := total (fun x => (snd x - poly p (fst x)) ^ 2) pts.

(** [p] are the coefficients of a polynomial of degree at most [n] with the least deviation. *)
Definition best_fit (pts : list (R * R)) (n : nat) (p : list R) : Prop :=
  length p = S n /\ forall q, length q = S n -> chi2 pts p <= chi2 pts q.

(** At least [k] different chemical potentials occur. *)
Definition at_least (k : nat) (pts : list (R * R)) : Prop :=
  exists l, NoDup l /\ incl l (map fst pts) /\ length l = k.

(** The parameters [p], moving in direction [v]. *)
Definition moving (p v : list R) : list AD := map (fun x => AD1 (fst x) (snd x)) (combine p v).

(** The squared error of a model function at fixed parameters, as an optimizer sees it. *)
Definition model_error (data : list (R * R)) (model : list R -> list AD -> outcome (option (list AD))) (p : list R) (e : R) : Prop :=
  exists l, model (map fst data) (map AD0 p) = Ret (Some l) /\ length l = length data /\
    e = total (fun x => (snd (fst x) - ad_x (snd x)) ^ 2) (combine data l).

(** [p] minimises the squared error among the parameters of its length. *)
Definition optimum (data : list (R * R)) (model : list R -> list AD -> outcome (option (list AD))) (k : nat) (p : list R) : Prop :=
  length p = k /\ exists e, model_error data model p e /\
    forall q, length q = k -> exists e', model_error data model q e' /\ e <= e'.

(** On this input the routine returns an optimum if it returns. *)
Definition optimizes_on (optimize : FitRoutine) (data : list (R * R)) (model : list R -> list AD -> outcome (option (list AD))) : Prop :=
  forall init iter l0 l1 p, optimize data model init iter l0 l1 = Ret p -> optimum data model (length init) p.

(** The vector of length [k] with 1 at place [j] and 0 elsewhere. *)
Definition unit_vector (k j : nat) : list R := map (fun i => if Nat.eqb i j then 1 else 0) (seq 0 k).
