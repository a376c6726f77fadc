(** * Vocabulary for the phase-diagram program (tc_long_prop) *)
From Coq Require Import Reals List Sorted.
From Verif Require Import MVacuum MUtils MTc SpecConsts.
Import ListNotations.
Open Scope R_scope.

(** [t] sits at the smallest index at which the common part of [ds] is maximal. *)
Definition first_argmax (ts ds : list R) (t : R) : Prop :=
  exists i d, nth_error ts i = Some t /\ nth_error ds i = Some d /\
    (forall j tj dj, nth_error ts j = Some tj -> nth_error ds j = Some dj -> dj <= d) /\
    (forall j tj dj, (j < i)%nat -> nth_error ts j = Some tj -> nth_error ds j = Some dj -> dj < d).

(** [full] is the table [pb] followed by nothing or by data starting at a
    vanishing critical temperature; [pb] has no vanishing temperature. *)
Definition cut_at_zero (full pb : list (R * R)) : Prop :=
  exists rest, full = pb ++ rest /\ Forall (fun x => snd x <> 0) pb /\
    (rest = [] \/ exists mu rest', rest = (mu, 0) :: rest').

(** Strictly increasing chemical potential and strictly decreasing temperature. *)
Definition falling (pb : list (R * R)) : Prop :=
  StronglySorted (fun x y => fst x < fst y /\ snd y < snd x) pb.

(** Non-strict in the temperature. *)
Definition weakly_falling (pb : list (R * R)) : Prop :=
  StronglySorted (fun x y => fst x < fst y /\ snd y <= snd x) pb.

(** [(mu, tc)] lies on the polygon through the points of [pb]. *)
Definition on_polygon (pb : list (R * R)) (mu tc : R) : Prop :=
  In (mu, tc) pb \/
  exists l1 m0 t0 m1 t1 l2, pb = l1 ++ (m0, t0) :: (m1, t1) :: l2 /\ m0 < mu < m1 /\
    (tc - t0) * (m1 - m0) = (t1 - t0) * (mu - m0).

(** Value of the polynomial with coefficients [params] (constant term first). *)
Definition poly (params : list R) (mu : R) : R :=
  sum_f_R0 (fun i => nth i params 0 * mu ^ i) (length params - 1).

(** Calls of the public setters of the Config object. *)
Inductive cfg_call :=
| CSetTemps (v : R * R * R)
| CSetChempots (v : R * R * R)
| CSetCorrected (o : option FieldConfig)
| CSetBoundary (o : option (list (R * R))).

Definition cfg_do (c : Config) (k : cfg_call) : outcome Config :=
  match k with
  | CSetTemps v => Ret (set_temperatures v c)
  | CSetChempots v => Ret (set_chemicalpotentials v c)
  | CSetCorrected o => set_correctedfieldconfig o c
  | CSetBoundary o => Ret (set_phase_boundary o c)
  end.

Fixpoint cfg_run (c : Config) (h : list cfg_call) : outcome Config :=
  match h with
  | [] => Ret c
  | k :: h' => match cfg_do c k with Panic => Panic | Ret c' => cfg_run c' h' end
  end.

Definition sel_corr (k : cfg_call) : option (option FieldConfig) :=
  match k with CSetCorrected o => Some o | _ => None end.
Definition sel_pb (k : cfg_call) : option (option (list (R * R))) :=
  match k with CSetBoundary o => Some o | _ => None end.
