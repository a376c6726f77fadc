(** * Examples for the high-temperature limits *)
From Coq Require Import Reals Lra Lia List.
From Coquelicot Require Import Coquelicot.
From Verif Require Import Num MCommon MConsts MUtils MVacuum MThermal MPolar MDress MQuark SpecInt SpecLim SpecHtl SpecHot PDistr PLim PCfg PExTherm PExCold PHot2 PHot3 PHotB6 PHotB8.
Import List ListNotations.
Open Scope R_scope.

Lemma htl_L11 : htl_L 1 1 = 2 / 3 * (1 - PI / 4).
Proof. unfold htl_L, htl_phase. replace ((1 * 1 - 1 * 1) / (2 * 1 * 1)) with 0 by field. rewrite atan_0. destruct (Rlt_dec 0 1); [|lra]. field. Qed.
(** One quark of mass 1/2 at mu = T. *)
Lemma ex_quark_hot I : tendsC (Rbar_locally p_infty) (fun T => polarization_quark_l_thermal_part_landau_w_method RInt_J g0 1 1 (/ 2) (/ T) T I / RtoC (T * T))%C
  (RtoC (- ((1 + 3 / (PI * PI)) / 9 * (1 - PI / 4)))).
Proof.
  assert (N : tends (Rbar_locally p_infty) (fun T => T / T) 1).
  { apply (tends_ext (fun _ => 1)); [|apply tends_const]. exists 0. intros T HT. field. lra. }
  pose proof (hot_C_ok RInt_J g0 (/ 2) (fun T => T) 1 I RInt_J_exact g0_nc N 1 1 ltac:(lra) ltac:(lra)) as H. apply Forall_inv in H. cbn [fst snd] in H.
  rewrite htl_L11 in H. replace (- ((1 + 3 / (PI * PI)) / 9 * (1 - PI / 4))) with (- ((1 + 3 * (1 * 1) / (PI * PI)) / (2 * INR (g_nc g0)) * (2 / 3 * (1 - PI / 4)))); [exact H|].
  pose proof PI_neq0. cbn. field. auto.
Qed.
Lemma ex_quark_dense I : tendsC (Rbar_locally p_infty) (fun mu => zp_polarization_quark_t_thermal_part_zero_temp_landau_w_method RInt_J g0 1 (/ 2) mu I / RtoC (mu * mu))%C
  (RtoC (- / (18 * (PI * PI)))).
Proof.
  pose proof (dense_C_ok RInt_J g0 (/ 2) I RInt_J_exact g0_nc 1 1 ltac:(lra) ltac:(lra)) as H. do 6 apply Forall_inv_tail in H. apply Forall_inv in H. cbn [fst snd] in H.
  replace (- / (18 * (PI * PI))) with (- (3 / (PI * PI) / (2 * INR (g_nc g0)) * / 9)); [exact H|]. pose proof PI_neq0. cbn. field. auto.
Qed.
Lemma ex_glue_hot I : tendsC (Rbar_locally p_infty) (fun T => polarization_glue_l_thermal_part_landau_w_method RInt_J 1 1 (/ 2) (/ T) I / RtoC (T * T))%C
  (RtoC (- (2 / 3 * (1 - PI / 4)))).
Proof.
  pose proof (hot_glue_C_ok RInt_J g0 (/ 2) I RInt_J_exact ltac:(lra) 1 1 ltac:(lra) ltac:(lra)) as H. do 4 apply Forall_inv_tail in H. apply Forall_inv in H. cbn [fst snd] in H.
  rewrite htl_L11 in H. exact H.
Qed.
Lemma ex_prop_hot : tendsC (Rbar_locally p_infty) (fun T => RtoC (T * T) * zp_ym_gluon_propagator_t RInt_J g0 1 (/ 2) (/ T)%R (- 1))%C (RtoC (27 / (16 * (PI * PI)))).
Proof.
  assert (N : tends (Rbar_locally p_infty) (fun T => 0 / T) 0).
  { apply (tends_ext (fun _ => 0)); [|apply tends_const]. exists 0. intros T HT. field. lra. }
  pose proof (hot_zp_ok RInt_J g0 (/ 2) (- 1) 3 [] RInt_J_exact g0_nc 0 (fun _ => 0) 0 1 ltac:(lra) N ltac:(lra)) as H. apply Forall_inv_tail in H. apply Forall_inv in H. cbn [fst snd] in H.
  destruct H as (_ & _ & H). cbn [fst snd] in H. replace (27 / (16 * (PI * PI))) with (/ (hot_mass (g_nc g0) 0 0 * / 9)); [exact H|]. unfold hot_mass. pose proof PI_neq0. cbn. field. auto.
Qed.
(** Two flavours of quarks, different masses. *)
Lemma ex_prop_dense : tends (Rbar_locally p_infty) (fun mu => mu * mu * zm_qcd_gluon_propagator_l_zero_temp_w_field_config RInt_J (mkGlobals 3 2 (2 / 3) (/ 2) 1 1%nat 1) 1 mu (- 1) (FieldConfig_new 3 (/ 2) [(1%nat, / 3); (1%nat, / 5)])) (/ (32 / 9 * (1 - PI / 4))).
Proof.
  pose proof (dense_cfg_zm_ok RInt_J (mkGlobals 3 2 (2 / 3) (/ 2) 1 1%nat 1) (/ 2) (- 1) 3 [(1%nat, / 3); (1%nat, / 5)] RInt_J_exact ltac:(cbn; lia) 1 ltac:(cbn; lia) ltac:(lra) ltac:(cbn; lra)) as H.
  apply Forall_inv in H. cbn [fst snd] in H. destruct H as (_ & _ & H). cbn [fst snd] in H.
  change (g_matsubara_reg (mkGlobals 3 2 (2 / 3) (/ 2) 1 1%nat 1)) with 1 in H. rewrite htl_L11 in H. eapply tends_eq; [|exact H]. f_equal. unfold dense_mass. pose proof PI_neq0. cbn. field. auto.
Qed.
