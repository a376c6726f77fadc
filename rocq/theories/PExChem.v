(** * Concrete cases of the root search for the chemical potential *)
From Coq Require Import Reals Psatz Lia.
From Coquelicot Require Import Coquelicot.
From Verif Require Import Num MCommon MConsts MDress MQuark MUtils SpecInt SpecLim PDensity PDistr2 PChem PChem2 PChem3 PAsym PExTherm PCfg PExCold.
Open Scope R_scope.

Lemma exp_m20 : exp (Ropp 20) <= / 300000000.
Proof.
  rewrite exp_Ropp. apply Rinv_le_contravar; [lra|]. pose proof (exp_low (1 / 20) ltac:(lra)) as H.
  replace 20 with (INR 400 * (1 / 20)) by (rewrite INR_IZR_INZ; cbn; field). rewrite exp_pow.
  apply Rle_trans with ((841 / 800) ^ 400).
  - replace ((841 / 800) ^ 400) with (((841 / 800) ^ 20) ^ 20) by (rewrite <- pow_mult; reflexivity).
    apply Rle_trans with ((26 / 10 + 1 / 10) ^ 20); [|apply pow_incr; split; [lra|]].
    + lra.
    + lra.
  - apply pow_incr. split; lra.
Qed.
(** A gap of 1, a temperature of 1/80 and a density of 1/2 *)
Lemma ex_cold k : chemical_potential_with_method RInt_J g0 1 80 (1 / 2) (G7K15 (/ 1000) k) = Panic.
Proof.
  pose proof PI_bounds as [PA PB]. set (P2 := PI * PI). assert (HP2 : 9869 / 1000 < P2 < 9870 / 1000) by (unfold P2; split; nra).
  assert (M : mless g0 80 1 <= 11 / 100).
  { unfold mless. cbn [g_nc g0 default_globals]. fold P2. replace (INR 3 * (1 * 1 * 1 / (3 * P2) + 1 / (3 * (80 * 80)))) with (/ P2 + / 6400) by (simpl INR; field; lra).
    assert (/ P2 <= / (9869 / 1000)) by (apply Rinv_le_contravar; lra). lra. }
  assert (M0 : 0 < mless g0 80 1).
  { unfold mless. cbn [g_nc g0 default_globals]. fold P2. simpl INR. assert (0 < 1 * 1 * 1 / (3 * P2)) by (apply Rdiv_lt_0_compat; lra). lra. }
  pose proof exp_m20 as E. pose proof (exp_pos (Ropp 20)) as E0.
  refine (proj1 (fails_if RInt_J g0 80 1 (G7K15 (/ 1000) k) RInt_J_exact ltac:(lra) g0_nc (1 / 2) (3 / 4) 1000 _ _ _ _ _ _ _ _ _)); rewrite ?(Rabs_pos_eq 1) by lra; cbn [get_tol]; try lra.
  - pose proof (exp_ineq1_le (2 * 80 * 1)). lra.
  - replace (- (80 * (1 - 3 / 4))) with (Ropp 20) by field. nra.
  - fold P2. lra.
  - replace (- (80 * (1 - 3 / 4))) with (Ropp 20) by field. nra.
Qed.
(** Massless quarks at temperature 4 and density 1 *)
Lemma ex_hot k : exists mu, chemical_potential_with_method RInt_J g0 0 (/ 4) 1 (G7K15 (/ 1000) k) = Ret mu.
Proof.
  pose proof PI_bounds as [PA PB]. set (P2 := PI * PI). assert (HP2 : 9869 / 1000 < P2 < 9870 / 1000) by (unfold P2; split; nra).
  assert (EB : cB g0 (/ 4) = 16) by (unfold cB; cbn [g_nc g0 default_globals]; simpl INR; field).
  assert (EA : 0 < cA g0 <= 102 / 1000).
  { unfold cA. cbn [g_nc g0 default_globals]. fold P2. replace (INR 3 / (3 * P2)) with (/ P2) by (simpl INR; field; lra). split; [apply Rinv_0_lt_compat; lra|]. assert (/ P2 <= / (9869 / 1000)) by (apply Rinv_le_contravar; lra). lra. }
  apply (hot_succeeds RInt_J g0 (/ 4) (G7K15 (/ 1000) k) RInt_J_exact); try exact g0_nc; try lra; cbn [get_tol]; try lra; rewrite EB; [nra|].
  rewrite Rabs_R1. assert (1000000 <= 2 ^ 999); [|lra]. apply Rle_trans with (2 ^ 20); [lra|]. apply Rle_pow; [lra|lia].
Qed.
Lemma ex_cold_zt : 1 < chemical_potential_zero_temp (g_nc g0) 1 (1 / 2).
Proof.
  pose proof (chempot_zt_outside (g_nc g0) 1 (1 / 2) g0_nc ltac:(lra)) as H. rewrite Rabs_R1 in H. rewrite Rabs_pos_eq in H; auto.
  unfold chemical_potential_zero_temp. destruct (Req_EM_T (1 / 2) 0); [lra|]. cbv zeta. destruct (Rlt_dec 0 (1 / 2)); [|lra]. rewrite Rmult_1_l. apply sqrt_pos.
Qed.
