(** * Consequences: heating at fixed chemical potential and at fixed density, the curves of the density program *)
From Coq Require Import Reals List Psatz Lia.
From Coquelicot Require Import Coquelicot.
From Verif Require Import Num MCommon MConsts MThermal MDress MQuark MUtils MPhase MProg SpecInt SpecLim SpecSmear SpecProg PDistr PDistr2 PVac PLim PInt PDensity PColdLim PSmear PSmear2 PSmear3 PCfg PExTherm PExCold.
Import List ListNotations.
Open Scope R_scope.

Section H.
Variables (J : Integrator) (g : globals R) (m : R) (I : Integral R).
Hypothesis HJ : exact_integrator J.
Hypothesis Hn : (0 < g_nc g)%nat.
Notation cd T mu := (charge_density_with_method J g m (/ T) mu I).
Lemma heat_lim mu : tends (at_right 0) (fun T => cd T mu) (charge_density_zero_temp (g_nc g) m mu).
Proof.
  pose proof (charge_lim J g m mu HJ I) as H. intros P HP. destruct (H P HP) as [M HM]. pose proof (Rmax_l M 1). pose proof (Rmax_r M 1).
  assert (X : 0 < / Rmax M 1) by (apply Rinv_0_lt_compat; lra). exists (mkposreal _ X). intros T HT HT0. unfold ball in HT; simpl in HT; unfold AbsRing_ball, abs, minus, plus, opp in HT; simpl in HT. apply Rabs_def2 in HT.
  assert (B : Rmax M 1 < / T). { rewrite <- (Rinv_involutive (Rmax M 1)) by lra. apply Rinv_lt_contravar; [apply Rmult_lt_0_compat; auto|lra]. }
  assert (Hb : 0 < / T) by now apply Rinv_0_lt_compat.
  rewrite <- (proj1 HJ _ _ _ I _ (cdi_is J g (/ T) I HJ Hb m mu)). apply HM. lra.
Qed.
Lemma heat_from_0 T mu : 0 < T -> 0 < mu -> charge_density_zero_temp (g_nc g) m mu < cd T mu.
Proof.
  intros HT Hm. apply Rle_lt_trans with (cd (T / 2) mu); [|apply cd_T_strict; auto; lra].
  apply (filterlim_le (F := at_right 0) (fun t => cd t mu) (fun _ => cd (T / 2) mu) (charge_density_zero_temp (g_nc g) m mu) (cd (T / 2) mu)); [|apply heat_lim|apply tends_const].
  apply (ev_right _ 0 (T / 2)); [lra|]. intros t Ht. apply cd_T; auto; lra.
Qed.
Lemma chempot_pos T mu : 0 < T -> 0 < cd T mu -> 0 < mu.
Proof.
  intros HT H. assert (Hb : 0 < / T) by now apply Rinv_0_lt_compat. destruct (Rlt_dec 0 mu) as [L|L]; auto. exfalso. pose proof (cd_0 J g (/ T) I HJ Hb m) as Z.
  destruct (Rle_lt_or_eq_dec mu 0 ltac:(lra)) as [L'|L']; [pose proof (cd_increasing J g (/ T) I HJ Hb m mu 0 Hn L'); lra|subst; lra].
Qed.
Lemma chempot_falls n T1 T2 mu1 mu2 : 0 < n -> 0 < T1 < T2 -> cd T1 mu1 = n -> cd T2 mu2 = n -> 0 < mu2 < mu1 /\ mu1 < chemical_potential_zero_temp (g_nc g) m n.
Proof.
  intros Pn HT E1 E2. assert (Hb1 : 0 < / T1) by (apply Rinv_0_lt_compat; lra). assert (Hb2 : 0 < / T2) by (apply Rinv_0_lt_compat; lra).
  assert (P1 : 0 < mu1) by (apply (chempot_pos T1); lra). assert (P2 : 0 < mu2) by (apply (chempot_pos T2); lra).
  pose proof (density_of_chempot (g_nc g) m n Hn) as E0. set (mu0 := chemical_potential_zero_temp (g_nc g) m n) in *. split; [split; auto|].
  - destruct (Rlt_dec mu2 mu1) as [L|L]; auto. exfalso. pose proof (cd_T_strict J g m mu1 I HJ T1 T2 Hn HT P1).
    destruct (Rle_lt_or_eq_dec mu1 mu2 ltac:(lra)) as [L'|L']; [pose proof (cd_increasing J g (/ T2) I HJ Hb2 m mu1 mu2 Hn L'); lra|subst mu2; lra].
  - destruct (Rlt_dec mu1 mu0) as [L|L]; auto. exfalso. pose proof (heat_from_0 T1 mu1 ltac:(lra) P1). pose proof (density_mono (g_nc g) m mu0 mu1 ltac:(lra)). lra.
Qed.
End H.

Lemma curves_ordered J g mu i j s t : exact_integrator J -> (0 < g_nc g)%nat -> 0 < mu -> (i < j)%nat ->
  nth_error (0 :: plot_temperatures) i = Some s -> nth_error (0 :: plot_temperatures) j = Some t -> density_at J g s mu < density_at J g t mu.
Proof.
  intros HJ Hn Hm Hij Hs Ht. assert (A0 : forall t, 0 < t -> density_at J g 0 mu < density_at J g t mu).
  { clear t Ht. intros t Ht. unfold density_at. destruct (Req_EM_T 0 0); [|lra]. destruct (Req_EM_T t 0); [lra|].
    exact (heat_from_0 J g (1 / 2) (get_default_integration_method g) HJ Hn t mu Ht Hm). }
  assert (A1 : forall s t, 0 < s < t -> density_at J g s mu < density_at J g t mu).
  { clear s t Hs Ht. intros s t Hs. unfold density_at. destruct (Req_EM_T s 0); [lra|]. destruct (Req_EM_T t 0); [lra|].
    exact (cd_T_strict J g (1 / 2) mu (get_default_integration_method g) HJ s t Hn Hs Hm). }
  assert (O : 0 <= s < t).
  { unfold plot_temperatures in Hs, Ht.
    do 12 (try destruct i as [|i]); do 12 (try destruct j as [|j]); cbn [nth_error] in Hs, Ht; try lia; repeat match goal with H : Some _ = Some _ |- _ => injection H as H; subst | H : None = Some _ |- _ => discriminate end; try (exfalso; discriminate); lra. }
  destruct (Rle_lt_or_eq_dec 0 s (proj1 O)) as [L|L]; [apply A1; lra|]. subst s. apply A0; lra.
Qed.

Lemma ex_sommerfeld : exists C, forall T, 0 < T -> Rabs (charge_density RInt_J g0 3 (/ T) 5 - (64 / PI ^ 2 + 41 / 8 * (T * T))) <= C * (T * T * T).
Proof.
  destruct (sommerfeld RInt_J g0 3 5 (get_default_integration_method g0) RInt_J_exact) as [C HC]; [rewrite Rabs_pos_eq; lra|]. exists C. intros T HT. specialize (HC T HT).
  replace (5 * 5 - 3 * 3) with (4 * 4) in HC by ring. rewrite sqrt_square in HC by lra. change (g_nc g0) with 3%nat in HC.
  assert (E : charge_density_zero_temp 3 3 5 = 64 / PI ^ 2). { pose proof PDistr2.ex_density as D. replace (-5) with (- (5)) in D by ring. rewrite density_odd in D. lra. }
  rewrite E in HC. replace (INR 3 * (2 * (5 * 5) - 3 * 3) / (6 * 4)) with (41 / 8) in HC by (simpl; field). exact HC.
Qed.

Lemma ex_n0 : charge_density_zero_temp 3 3 5 = 64 / PI ^ 2.
Proof. pose proof PDistr2.ex_density as D. replace (-5) with (- (5)) in D by ring. rewrite density_odd in D. lra. Qed.
Lemma ex_heating : 64 / PI ^ 2 < charge_density RInt_J g0 3 (/ 1) 5 < charge_density RInt_J g0 3 (/ 2) 5.
Proof.
  assert (N : (0 < g_nc g0)%nat) by (change (g_nc g0) with 3%nat; lia). split.
  - rewrite <- ex_n0. apply (heat_from_0 RInt_J g0 3 (get_default_integration_method g0) RInt_J_exact N 1 5); lra.
  - apply (cd_T_strict RInt_J g0 3 5 (get_default_integration_method g0) RInt_J_exact 1 2 N); lra.
Qed.
