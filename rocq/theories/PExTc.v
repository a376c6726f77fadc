(** * Concrete cases for the phase boundary and the grids *)
From Coq Require Import Reals List ZArith Sorted Lra Lia.
From Verif Require Import Num MVacuum MUtils MTc SpecTc PTc PTc2 PPhase2.
Import ListNotations.
Open Scope R_scope.

Ltac decid := repeat match goal with
  | |- context [Req_EM_T ?a ?b] => destruct (Req_EM_T a b); try (exfalso; lra); try reflexivity
  | |- context [Rlt_dec ?a ?b] => destruct (Rlt_dec a b); try (exfalso; lra); try reflexivity end.

Lemma ex_deconf : falling [(0, 3); (1, 2); (4, 1)] /\ on_polygon [(0, 3); (1, 2); (4, 1)] (5/2) (3/2) /\
  is_deconfined_phase (5/2) (3/2) [(0, 3); (1, 2); (4, 1); (5, 0)] = Ret false /\ is_deconfined_phase (5/2) (8/5) [(0, 3); (1, 2); (4, 1); (5, 0)] = Ret true.
Proof.
  split; [apply ss2; simpl; lra|]. split; [right; exists [(0, 3)], 1, 2, 4, 1, []; repeat split; lra|].
  split; unfold is_deconfined_phase; cbn [reduce_phase_boundary]; decid; cbn [scan_boundary]; decid.
Qed.
Lemma ex_flat : is_deconfined_phase 1 2 [(0, 3); (1, 2); (4, 1)] = Ret false /\ is_deconfined_phase 1 3 [(0, 3); (1, 3); (4, 1)] = Ret true.
Proof. split; unfold is_deconfined_phase; cbn [reduce_phase_boundary]; decid; cbn [scan_boundary]; decid. Qed.

Ltac grid n := unfold compute_vec; cbv zeta;
  match goal with |- context [fround ?x] => replace (fround x) with (n%Z) end;
  [cbv [Z.to_nat Pos.to_nat Pos.iter_op Init.Nat.add seq map]; repeat (apply f_equal2; [cbn [INR]; lra|]); reflexivity
  |symmetry; unfold fround; destruct Rle_dec; [apply Int_part_eq; lra|exfalso; lra]].
Lemma ex_grids : compute_vec (2, 9, 3) = [2; 5; 8] /\ compute_vec (2, 10, 3) = [2; 5; 8; 11].
Proof. split; [grid 2%Z|grid 3%Z]. Qed.
