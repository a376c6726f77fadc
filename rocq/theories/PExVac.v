(** * Concrete cases for the vacuum properties *)
From Coq Require Import Reals List Psatz Permutation Lia.
From Coquelicot Require Import Coquelicot.
From Verif Require Import Num CField MConsts MVacuum MTc SpecVac PCplx PVac PVac2 PVac3 PLim PVacLim PVac4.
Import List ListNotations.
Open Scope R_scope.

Lemma loop_weight_flavours nc m l : loop_weight (fc_quarks_internal (FieldConfig_new nc m l)) = INR (flavours l) / INR nc.
Proof.
  unfold FieldConfig_new, loop_weight, flavours; cbn [fc_quarks_internal]. induction l as [|[n q] l IH]; cbn [map fold_right list_sum fst snd].
  - simpl. unfold Rdiv. ring.
  - rewrite IH. unfold QuarkInternal_new. cbn [qi_nf_div_nc]. change (fold_right Nat.add 0%nat) with list_sum. rewrite plus_INR. unfold Rdiv. ring.
Qed.

Lemma Cln_Ci : Cln Ci = (0, PI / 2).
Proof.
  unfold Cln. apply Ceq; cbn [fst snd].
  - rewrite Cmod_Ci || (replace (Cmod Ci) with 1 by (unfold Cmod, Ci; simpl; rewrite <- sqrt_1 at 1; f_equal; ring)). apply ln_1.
  - unfold Carg, Ci; simpl. repeat (destruct (Rlt_dec _ _) || destruct (Rle_dec _ _) || destruct (Req_EM_T _ _)); try lra.
Qed.

Lemma g_xi_Ci : gh_g_xi Ci = (0, - PI / 24).
Proof. unfold gh_g_xi. numcbn. rewrite Cln_Ci. apply Ceq; simpl; field. Qed.
Lemma g_1 : gh_g 1 = (4 * ln 2 + 3) / 12.
Proof. unfold gh_g, gh_g_sep, gh_l_g, gh_r_g. numcbn. rewrite ln_1. replace (1 + 1) with 2 by ring. field. Qed.
Lemma g_1_inv : ym_ghost_dressing_inv_landau 1 0 = (4 * ln 2 + 3) / 12 /\ 0 < ym_ghost_dressing_inv_landau 1 0.
Proof.
  rewrite ym_ghost_inv_landau_eq, g_1. numcbn. rewrite Rplus_0_r. split; auto.
  assert (0 < ln 2) by (rewrite <- ln_1; apply ln_increasing; lra). lra.
Qed.
Lemma f_q_43_neg : gl_f_q (4 / 3) < 0.
Proof. rewrite f_q_43. pose proof ln_3_lt. lra. Qed.
Lemma f_q_crossed_43 : gl_f_q_crossed (4 / 3) = 4 / 9 * (17 / 6 - 23 / 8 * ln 3).
Proof.
  unfold gl_f_q_crossed. numcbn. replace (/ (4 / 3) * 4 + 1) with (2 * 2) by field. rewrite sqrt_square by lra.
  replace ((2 - 1) / (2 + 1)) with (/ 3) by field. rewrite ln_Rinv by lra. field.
Qed.

Lemma vacuum_reflection_off_cut : forall r g0 f0 xi mq nc m quarks, mq <> 0 -> m <> 0 -> Forall (fun q : nat * R => snd q <> 0) quarks ->
  Forall (fun F : C -> C => forall s, off_cut s -> F (Cconj s) = Cconj (F s))
    (vacuum_functions r g0 f0 xi mq (FieldConfig_new nc m quarks)).
Proof.
  intros r g0 f0 xi mq nc m quarks Hq Hm Hl. eapply Forall_impl; [|apply vacuum_reflection; [exact Hq|apply (internal_pos nc m quarks Hm Hl)]].
  cbv beta. intros F H s Hs. apply H. now apply off_cut_slit.
Qed.

Lemma inv_uv_flavours : forall r mq f0 g0 xi nc m quarks, mq <> 0 -> m <> 0 -> Forall (fun q : nat * R => snd q <> 0) quarks ->
  let cfg := FieldConfig_new nc m quarks in
  let w := INR (flavours quarks) / INR nc in
  Forall (fun x : (R -> R) * R => tends INF (fun s => fst x s / ln s) (snd x))
    [ (fun s => ym_ghost_dressing_inv_landau s g0, 1 / 4);
      (fun s => ym_ghost_dressing_inv s g0 xi, 1 / 4 - xi / 12);
      (fun s => ym_gluon_dressing_inv_landau s f0, 13 / 18);
      (fun s => ym_gluon_dressing_inv s f0 xi, 13 / 18 - xi / 6);
      (fun s => qcd_gluon_dressing_inv_landau r s mq f0, 13 / 18 - 2 / 9 * r);
      (fun s => qcd_gluon_dressing_inv r s mq f0 xi, 13 / 18 - xi / 6 - 2 / 9 * r);
      (fun s => qcd_gluon_dressing_crossed_inv_landau r s mq f0, 13 / 18 - 2 / 9 * r);
      (fun s => qcd_gluon_dressing_crossed_inv r s mq f0 xi, 13 / 18 - xi / 6 - 2 / 9 * r);
      (fun s => qcd_gluon_dressing_inv_landau_w_field_config s f0 cfg, 13 / 18 - 2 / 9 * w);
      (fun s => qcd_gluon_dressing_inv_w_field_config s f0 xi cfg, 13 / 18 - xi / 6 - 2 / 9 * w);
      (fun s => qcd_gluon_dressing_crossed_inv_landau_w_field_config s f0 cfg, 13 / 18 - 2 / 9 * w);
      (fun s => qcd_gluon_dressing_crossed_inv_w_field_config s f0 xi cfg, 13 / 18 - xi / 6 - 2 / 9 * w) ].
Proof.
  intros r mq f0 g0 xi nc m quarks Hq Hm Hl cfg w. unfold w. rewrite <- (loop_weight_flavours nc m quarks).
  apply inv_uv; auto. now apply internal_pos.
Qed.
