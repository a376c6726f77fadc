(** * Concrete instances for the properties of consts.rs and utils.rs *)
From Coq Require Import Reals List Bool Psatz Lia.
From Coquelicot Require Import Coquelicot.
From Flocq Require Import IEEE754.BinarySingleNaN IEEE754.Binary IEEE754.Bits.
From Verif Require Import Num CField MConsts MUtils MDress MFloat SpecConsts SpecWrappers PConsts PWrappers PUtils.
Import ListNotations.
Open Scope R_scope.

Lemma pos_R x : f_pos OpsR x = true <-> 0 < x.
Proof. simpl. destruct (Rlt_dec 0 x); split; intros; auto; discriminate. Qed.

Lemma lit_pos_R : f_pos OpsR (f_lit_1em10 OpsR) = true /\ f_pos OpsR (f_lit_1em5 OpsR) = true.
Proof. split; apply pos_R; simpl; lra. Qed.

Lemma lit_pos_F64 : f_pos OpsF64 (f_lit_1em10 OpsF64) = true /\ f_pos OpsF64 (f_lit_1em5 OpsF64) = true.
Proof. split; vm_compute; reflexivity. Qed.

Lemma nan_not_pos : f_pos OpsF64 f64_nan = false.
Proof. vm_compute. reflexivity. Qed.

Lemma f64_isnan_nan : f64_isnan f64_nan = true.
Proof. vm_compute. reflexivity. Qed.

(** An integration routine that returns 1 for tolerance 1E-8 and 0 otherwise. *)
Definition J_probe : Integrator := {|
  integrateC := fun _ _ _ m => if Req_EM_T (get_tol m) (/ 10 ^ 8) then RtoC 1 else RtoC 0;
  integrateR := fun _ _ _ m => if Req_EM_T (get_tol m) (/ 10 ^ 8) then 1 else 0 |}.
Definition J_zero : Integrator := {|
  integrateC := fun _ _ _ _ => RtoC 0;
  integrateR := fun _ _ _ _ => 0 |}.

Lemma probe_agree t n : t <> / 10 ^ 8 -> agree_on (G7K15 t n) J_probe J_zero.
Proof. intros H. split; intros; simpl; destruct (Req_EM_T t _); auto; contradiction. Qed.

Lemma c05_refuted : exists (h : list call) (t : R),
  let g := run_calls OpsR (default_globals OpsR) h in
  last_selected (sel_tol (f_pos OpsR)) (f_lit_1em10 OpsR) h t /\ In (SetTol t) h /\
  exists J J', agree_on (G7K15 t (get_default_max_iter_integral g)) J J' /\
    ~ same_results_zero_matsubara J J' g.
Proof.
  exists [SetTol (/ 1000)], (/ 1000).
  assert (P : f_pos OpsR (/ 1000) = true) by (apply pos_R; lra).
  split; [|split; [left; reflexivity|]].
  { right. exists [], (SetTol (/ 1000)), []. split; [reflexivity|]. split; [|simpl; tauto].
    unfold sel_tol. now rewrite P. }
  exists J_probe, J_zero. split.
  - apply probe_agree. lra.
  - intros (H & _). specialize (H 1 1 1).
    unfold zm_polarization_glue_l_thermal_part_landau, zm_polarization_glue_l_thermal_part_landau_w_method in H.
    rewrite zm_method_real in H. simpl in H.
    destruct (Req_EM_T _ _) as [_|N] in H; [lra|apply N; reflexivity].
Qed.

(** The example root problem z^2 - 2 from guesses 1, 2 (already within 3 at the
    second guess). *)
Lemma ex_root : find_root RootOpsR (fun z => z * z - 2) (1, 2) 3 1 = Ret (Some (2, 2)).
Proof.
  unfold find_root; simpl. destruct (Req_EM_T 1 2); [lra|]. destruct (Rlt_dec 0 3); [|lra]. simpl.
  destruct (Rlt_dec _ _) as [_|N].
  - do 2 f_equal. f_equal. ring.
  - exfalso. apply N. rewrite Rabs_pos_eq; lra.
Qed.
Lemma ex_root_none : find_root RootOpsR (fun z => z * z - 2) (1, 3) 3 1 = Ret None.
Proof.
  unfold find_root; simpl. destruct (Req_EM_T 1 3); [lra|]. destruct (Rlt_dec 0 3); [|lra]. simpl.
  destruct (Rlt_dec _ _) as [Y|_]; auto. exfalso. rewrite Rabs_pos_eq in Y; lra.
Qed.

Lemma ex_pole : simple_pole (fun z => (RtoC 3 / z + RtoC 1)%C) (RtoC 0) (RtoC 3).
Proof.
  intros e He. exists e. split; auto. intros w Hw.
  replace (w - 0)%C with w in * by ring.
  assert (w <> 0)%C by (apply Cneq_of_Cmod; lra).
  replace (w * (3 / w + 1) - 3)%C with w by (field; auto). lra.
Qed.

Lemma ex_reflection : forall w, (fun z : C => (z * z)%C) (Cconj w) = Cconj ((fun z : C => (z * z)%C) w).
Proof. intros w. apply Ceq; simpl; ring. Qed.
