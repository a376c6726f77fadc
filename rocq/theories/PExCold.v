(** * Examples for C79-C81 *)
From Coq Require Import Reals Lra Lia List.
From Coquelicot Require Import Coquelicot.
From Verif Require Import Num MCommon MConsts MUtils MVacuum MThermal MPolar MDress MQuark SpecInt SpecLim SpecCold PDistr PCfg PExTherm PColdLim PColdDr PDensity.
Import List ListNotations.
Open Scope R_scope.

Lemma g0_nc : (0 < g_nc g0)%nat. Proof. cbn. lia. Qed.
Lemma g0_reg : g_matsubara_reg g0 <> 0. Proof. cbn. lra. Qed.
Lemma ex_density I : charge_density_with_method RInt_J g0 0 1 1 I = 1 + 1 / (PI * PI).
Proof. rewrite cd_massless by (try apply RInt_J_exact; lra). pose proof PI_neq0. cbn. field. auto. Qed.
Lemma ex_density_conv : is_RInt (compact_R (fun q => charge_density_i 3 q 0 1 1)) 0 1 (1 + 1 / (PI * PI)).
Proof.
  pose proof (cdi_is RInt_J g0 1 (G7K15 1 1) RInt_J_exact ltac:(lra) 0 1) as H. now rewrite ex_density in H.
Qed.
Lemma ex_density_cold I : tends (Rbar_locally p_infty) (fun b => charge_density_with_method RInt_J g0 0 b 2 I) (8 / (PI * PI)).
Proof.
  pose proof (cold_R_ok RInt_J g0 0 2 I RInt_J_exact g0_nc 1 1 ltac:(lra) ltac:(lra) g0_reg) as H. unfold cold_R in H.
  do 8 (apply Forall_inv_tail in H). apply Forall_inv in H. cbn [fst snd] in H.
  replace (8 / (PI * PI)) with (charge_density_zero_temp (g_nc g0) 0 2); [exact H|].
  unfold charge_density_zero_temp, PI2q. rewrite Rabs_R0, (Rabs_pos_eq 2) by lra. destruct (Rle_dec 2 0); [lra|]. destruct (Rlt_dec 0 2); [|lra].
  rewrite kF_R. replace (2 * 2 - 0 * 0) with (2 * 2) by ring. rewrite sqrt_square by lra. pose proof PI_neq0. cbn. field. auto.
Qed.
Lemma ex_gluon_cold : tendsC (Rbar_locally p_infty) (fun b => ym_gluon_dressing_l_inv RInt_J g0 1 1 1 b 0) (RtoC (ym_gluon_dressing_inv_landau 2 0)).
Proof.
  pose proof (cold_gen_ok RInt_J g0 0 RInt_J_exact g0_nc 1 0 0 3 [] ltac:(lra) 1 1 1 ltac:(lra) ltac:(lra)) as H. unfold cold_gen in H.
  apply Forall_inv_tail in H. apply Forall_inv in H. destruct H as (H & _). cbn [fst snd vac_gluon RtoC3] in H.
  replace 2 with ((1 * 1 + 1 * 1) / (1 * 1)) by field. exact H.
Qed.
Lemma ex_density_massive I : 1 / 2 < charge_density_with_method RInt_J g0 (/ 2) 1 1 I <= 1 + 1 / (PI * PI).
Proof.
  destruct (cd_mass RInt_J g0 1 1 I RInt_J_exact ltac:(lra) ltac:(lra)) as (_ & H). specialize (H (/ 2)). cbv zeta in H. rewrite Rabs_pos_eq in H by lra.
  pose proof PI_RGT_0. assert (0 < / (PI * PI)) by (apply Rinv_0_lt_compat; nra).
  replace (INR (g_nc g0) * ((1 - / 2) * (1 - / 2) * (1 - / 2) / (3 * (PI * PI)) + (1 - / 2) / (3 * (1 * 1)))) with (1 / 2 + / 8 * / (PI * PI)) in H by (cbn; field; lra).
  replace (INR (g_nc g0) * (1 * 1 * 1 / (3 * (PI * PI)) + 1 / (3 * (1 * 1)))) with (1 + 1 / (PI * PI)) in H by (cbn; field; lra). lra.
Qed.
