(** * Concrete cases for the plotting programs *)
From Coq Require Import Reals List Lra Lia.
From Coquelicot Require Import Coquelicot.
From Verif Require Import Num MCommon MConsts MUtils MVacuum MDress MQuark MPhase MHtl MProg SpecLim SpecInt SpecProg PDistr PProg PProg2 PProg3 PCfg PExTherm PExCold PDistr2.
Import List ListNotations.
Open Scope R_scope.

Definition grid4000 : list R := map (fun i => INR i / 1000 - 2) (seq 0 4000).
Lemma grid4000_nth i : (i < 4000)%nat -> nth_error grid4000 i = Some (INR i / 1000 - 2).
Proof.
  intros H. unfold grid4000. rewrite nth_error_map. rewrite (nth_error_nth' _ 0%nat) by (rewrite seq_length; lia). rewrite seq_nth by lia. reflexivity.
Qed.
Lemma grid4000_inv i x : nth_error grid4000 i = Some x -> (i < 4000)%nat /\ x = INR i / 1000 - 2.
Proof.
  intros H. assert (L : (i < 4000)%nat).
  { assert (N : nth_error grid4000 i <> None) by congruence. apply nth_error_Some in N. unfold grid4000 in N. rewrite map_length, seq_length in N. exact N. }
  split; auto. rewrite grid4000_nth in H by auto. congruence.
Qed.
Lemma ex_density_plot : exists J g grid plot detail, exact_integrator J /\ length grid = 4000%nat /\ increasing_list grid /\ In 1.3 grid /\
  density_program J g grid = Ret (plot, detail) /\ (forall i, nth_error grid i = Some 1.3 -> nth_error (nth 0 (pl_images plot) []) i = Some (1.728 / PI ^ 2)).
Proof.
  assert (L : length grid4000 = 4000%nat) by (unfold grid4000; rewrite map_length; apply seq_length).
  destruct (density_plots RInt_J g0 grid4000) as [plot [detail [E [_ [_ [_ [Im _]]]]]]]; [rewrite L; apply Nat.leb_le; reflexivity|].
  exists RInt_J, g0, grid4000, plot, detail. split; [apply RInt_J_exact|split; [exact L|split; [|split; [|split; [exact E|]]]]].
  - intros i j x y Hij Hx Hy. apply grid4000_inv in Hx, Hy. destruct Hx as [_ ->], Hy as [_ ->]. apply lt_INR in Hij. lra.
  - apply nth_error_In with (Z.to_nat 3300). rewrite grid4000_nth by lia. f_equal. rewrite INR_IZR_INZ, Z2Nat.id by lia. lra.
  - intros i Hi. rewrite Im. cbn [map nth]. rewrite nth_error_map, Hi. simpl. f_equal. unfold density_at. destruct (Req_EM_T 0 0); [|lra].
    rewrite cd_zt_R.
    assert (K : fermi_momentum (1 / 2) 1.3 = 1.2).
    { rewrite kF_R. replace (1.3 * 1.3 - 1 / 2 * (1 / 2)) with (Rsqr 1.2) by (unfold Rsqr; lra). apply sqrt_Rsqr. lra. }
    rewrite K, (Rabs_pos_eq 1.3), (Rabs_pos_eq (1 / 2)) by lra. destruct (Rle_dec _ _); [lra|]. unfold sgn. destruct (Rlt_dec 0 1.3); [|lra].
    replace (INR (g_nc g0)) with 3 by (simpl; lra). replace 1.2 with (6 / 5) by lra. replace 1.728 with (216 / 125) by lra. pose proof PI_neq0. field. auto.
Qed.
Lemma ex_ym_table : forall J g, Re (ym_gluon_propagator_l J g 0.002 4 0.025 (1 / 0.26) (- 5.276)) <> 0 ->
  exists v, In (Long 260, [(3, v); (4, 1 / 16)]) (ym_files J g [3; 4]).
Proof.
  intros J g H. rewrite ym_files_eq. eexists. right. cbn [map ym_runs y_long y_T file_name]. right. right. left.
  cbn [norm4 map combine]. f_equal. f_equal. f_equal. f_equal. unfold ym_run_prop. cbn [y_long y_T y_om y_m y_f0].
  replace (1 / 0.26) with (/ (INR 260 / 1000)) in H by (rewrite INR_IZR_INZ; simpl; lra).
  field. exact H.
Qed.

Lemma ex_htl_ratio : tendsC (Rbar_locally p_infty) (fun t => (f_ours RInt_J g0 1 1 t / f_htl 1%R 1 t)%C) (RtoC 1) /\
  tendsC (Rbar_locally p_infty) (fun t => (g_ours RInt_J g0 1 1 t / g_htl 1%R 1 t)%C) (RtoC 1).
Proof.
  pose proof (htl_ratio RInt_J g0 1 1 RInt_J_exact g0_nc ltac:(lra) ltac:(lra)) as H.
  replace (3 / INR (g_nc g0)) with 1 in H; [exact H|]. change (g_nc g0) with 3%nat. simpl. lra.
Qed.
