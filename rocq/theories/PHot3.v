(** * High-density limit of the quark polarizations, and the charge density at high temperature *)
From Coq Require Import Reals Lra Lia List Psatz.
From Coquelicot Require Import Coquelicot.
From Verif Require Import Num CField MCommon MConsts MVacuum MThermal MThermalZM MThermalZP MPolar MDress MQuark SpecInteg SpecInt SpecLim SpecDress SpecHtl SpecHot PCplx PDistr PVac PDress PDress2 PCoh PCoh2 PLogs PMass PMassZ PMass2 PReal PForms PForms2 PCombo PComboR PReg PLim PLimC PJoint PJoint2 PInt PCfg PCold PBound PColdG PColdI PFermi PZpForm PColdQ PColdFin PColdLim PBasel PWeights PWeights2 PHtl PHtl2 PDensity PHot PHot2.
Import List ListNotations.
Open Scope R_scope.

Section Dense.
Variables (m : R) (w : R -> R) (c : R).
Hypothesis Ow : Ob 1 w.
Hypothesis Cw : forall q, 0 < q -> continuous w q.
Hypothesis Lw : tends INF (fun q => w q / q) c.
Lemma w_int K : 0 < K -> ex_RInt w 0 K.
Proof.
  intros HK. pose proof (sea_is 0 K w Ow Cw) as H. unfold pF in H. rewrite Rabs_R0 in H. destruct (Rle_dec 0 K); [|lra]. rewrite kF_R in H.
  replace (K * K - 0 * 0) with (K * K) in H by ring. rewrite sqrt_square in H by lra. eexists. exact H.
Qed.
Lemma w_dev e : 0 < e -> exists B, 0 <= B /\ forall K, 0 < K -> Rabs (RInt w 0 K - c * (K * K / 2)) <= e * (K * K / 2) + B * K.
Proof.
  intros He. destruct (lin_dev w c e Ow Lw He) as (B & HB & D). exists B. split; auto. intros K HK.
  pose proof (RInt_correct (V := R_CompleteNormedModule) _ _ _ (w_int K HK)) as A.
  assert (X : forall a b, is_RInt (fun q => a * q + b) 0 K (a * (K * K / 2) + b * K)).
  { intros a b. replace (a * (K * K / 2) + b * K) with ((a * (K * K / 2) + b * K) - (a * (0 * 0 / 2) + b * 0)) by field.
    apply (ftc (fun q => a * (q * q / 2) + b * q)); [intros q; auto_derive; auto; field|intros q; apply (ex_derive_continuous (K := R_AbsRing) (V := R_NormedModule)); auto_derive; auto]. }
  assert (W : forall q, 0 < q -> Rabs (w q - c * q) <= e * q + B).
  { intros q Hq. apply Rle_trans with (1 := D q Hq). apply Rplus_le_compat_l. rewrite <- (Rmult_1_r B) at 2. apply Rmult_le_compat_l; auto.
    unfold w1. apply (Rmult_le_reg_r (1 + q)); [lra|]. unfold Rdiv. rewrite Rmult_assoc, Rinv_l by lra. lra. }
  apply Rabs_le. split.
  - assert (c * (K * K / 2) - (e * (K * K / 2) + B * K) <= RInt w 0 K); [|lra].
    replace (c * (K * K / 2) - (e * (K * K / 2) + B * K)) with ((c - e) * (K * K / 2) + (- B) * K) by ring.
    apply (is_RInt_le (fun q => (c - e) * q + - B) w 0 K _ _ ltac:(lra) (X _ _) A). intros q Hq. pose proof (W q ltac:(lra)) as Y. apply Rabs_le_between in Y. lra.
  - assert (RInt w 0 K <= c * (K * K / 2) + (e * (K * K / 2) + B * K)); [|lra].
    replace (c * (K * K / 2) + (e * (K * K / 2) + B * K)) with ((c + e) * (K * K / 2) + B * K) by ring.
    apply (is_RInt_le w (fun q => (c + e) * q + B) 0 K _ _ ltac:(lra) A (X _ _)). intros q Hq. pose proof (W q ltac:(lra)) as Y. apply Rabs_le_between in Y. lra.
Qed.
Lemma w_int_lim : tends INF (fun K => RInt w 0 K / (K * K)) (c / 2).
Proof.
  intros P [eps HP]. destruct (w_dev eps (cond_pos eps)) as (B & HB & D). pose proof (cond_pos eps) as E0.
  exists (2 * B / eps + 1). intros K HK. apply HP. change (Rabs (RInt w 0 K / (K * K) - c / 2) < eps).
  assert (0 <= 2 * B / eps) by (apply Rdiv_le_0_compat; lra). assert (K0 : 0 < K) by lra. specialize (D K K0).
  replace (RInt w 0 K / (K * K) - c / 2) with ((RInt w 0 K - c * (K * K / 2)) * / (K * K)) by (field; lra).
  assert (P2 : 0 < / (K * K)) by (apply Rinv_0_lt_compat; nra). rewrite Rabs_mult, (Rabs_pos_eq (/ (K * K))) by lra.
  apply Rle_lt_trans with ((eps * (K * K / 2) + B * K) * / (K * K)); [apply Rmult_le_compat_r; lra|].
  replace ((eps * (K * K / 2) + B * K) * / (K * K)) with (eps / 2 + B / K) by (field; lra).
  assert (B / K < eps / 2); [|lra]. apply (Rmult_lt_reg_r K); [lra|]. unfold Rdiv at 1. rewrite Rmult_assoc, Rinv_l, Rmult_1_r by lra.
  assert (2 * B / eps * (eps / 2) = B) by (field; lra). nra.
Qed.
Lemma dense : tends INF (fun mu => sea2 m mu w / (mu * mu)) (c / 2).
Proof.
  set (k := fun mu => sqrt (mu * mu - m * m)).
  assert (KI : forall M, exists N, forall mu, N < mu -> Rabs m <= mu /\ 0 < k mu /\ M < k mu).
  { intros M. exists (Rabs m + Rmax M 0 + 1). intros mu Hmu. pose proof (Rabs_pos m). pose proof (Rabs_sq m). pose proof (Rmax_l M 0). pose proof (Rmax_r M 0).
    assert (Rmax M 0 + 1 <= k mu); [|lra]. unfold k. rewrite <- (sqrt_square (Rmax M 0 + 1)) by lra. apply sqrt_le_1; nra. }
  apply (tends_ext (fun mu => RInt w 0 (k mu) / (k mu * k mu) * (1 - m * m * (/ mu * / mu)))).
  - destruct (KI 0) as [N HN]. exists (Rmax N 0). intros mu Hmu. pose proof (Rmax_l N 0). pose proof (Rmax_r N 0). destruct (HN mu ltac:(lra)) as (A1 & A2 & _).
    rewrite sea2_in by (rewrite (Rabs_pos_eq mu); lra). rewrite kF_R. fold (k mu).
    assert (KK : k mu * k mu = mu * mu - m * m) by (unfold k; apply sqrt_sqrt; pose proof (Rabs_sq m); pose proof (Rabs_pos m); nra).
    assert (0 < k mu * k mu) by nra. rewrite KK in H1 |- *. field. split; nra.
  - apply (tends_eq _ (c / 2 * (1 - m * m * (0 * 0)))); [ring|]. apply tends_mult.
    + intros P HP. destruct (w_int_lim P HP) as [M HM]. destruct (KI M) as [N HN]. exists N. intros mu Hmu. apply HM. apply HN. exact Hmu.
    + apply tends_minus; [apply tends_const|]. apply tends_mult; [apply tends_const|]. apply tends_mult; apply tends_inv_infty.
Qed.
End Dense.

Section DenseL.
Variables (J : Integrator) (g : globals R) (mq : R) (I : Integral R).
Hypothesis HJ : exact_integrator J.
Hypothesis Hnc : (0 < g_nc g)%nat.
Lemma val0 h : - (3 * h / (PI * PI * INR (g_nc g))) / 2 = - (3 / (PI * PI) / (2 * INR (g_nc g)) * h).
Proof. pose proof PI_neq0. assert (INR (g_nc g) <> 0) by (apply not_0_INR; lia). field. auto. Qed.
Lemma denseC w c h (f : R -> C) : Ob 1 w -> (forall q, 0 < q -> continuous w q) -> tends INF (fun q => w q / q) c -> (forall mu, f mu = RtoC (sea2 mq mu w)) -> c / 2 = h ->
  tendsC INF (fun mu => f mu / RtoC (mu * mu))%C (RtoC h).
Proof.
  intros O C L E <-. apply (tendsC_ext (fun mu => RtoC (sea2 mq mu w / (mu * mu)))).
  - generalize T_ev. apply filter_imp. intros mu Hmu. rewrite E, RtoC_div; auto. nra.
  - apply tendsC_RtoC. now apply dense.
Qed.
Lemma denseR w c h (f : R -> R) : Ob 1 w -> (forall q, 0 < q -> continuous w q) -> tends INF (fun q => w q / q) c -> (forall mu, f mu = sea2 mq mu w) -> c / 2 = h ->
  tends INF (fun mu => f mu / (mu * mu)) h.
Proof.
  intros O C L E <-. apply (tends_ext (fun mu => sea2 mq mu w / (mu * mu))); [apply filter_forall; intros; now rewrite E|]. now apply dense.
Qed.
Section Om.
Variables (om p : R).
Hypothesis Hom : om <> 0.
Hypothesis Hp : 0 < p.
Lemma dense_C_ok : Forall (fun x => tendsC INF (fun mu => fst x mu / RtoC (mu * mu))%C (RtoC (snd x))) (dense_quark_C J g om p mq I).
Proof.
  assert (Z1 := fun mu => fermi_sea_C J g om p mq mu I). assert (Z2 := fun mu => no_sea_C J g om p mq mu I).
  unfold dense_quark_C; cbv zeta. repeat (apply Forall_cons || apply Forall_nil); cbn [fst snd].
  Ltac dn W Ow Cw Lw E n := eapply (denseC W); [exact Ow|exact Cw|exact Lw|intros mu; eapply (sea_val J mq mu HJ W);
    [exact Ow|exact Cw|exact (E mu)|intros HH; match goal with Z : forall mu, Rabs mq <= Rabs mu -> _ |- _ => exact (nth_Forall _ _ n _ (Z mu HH) eq_refl) end|intros HH; match goal with Z : forall mu, Rabs mu < Rabs mq -> _ |- _ => exact (nth_Forall _ _ n _ (Z mu HH) eq_refl) end]|apply val0].
  - dn (wl (g_nc g) om p mq) (wl_Ob (g_nc g) om p mq Hnc Hom Hp) (fun q => wl_cont (g_nc g) om p mq Hnc Hom q Hp) (wl_asym (g_nc g) om p mq Hnc Hom Hp) (fun mu q Hq => ql0_eq (g_nc g) om mq Hnc Hom p Hp mu q Hq) 0%nat.
  - dn (wl (g_nc g) om p mq) (wl_Ob (g_nc g) om p mq Hnc Hom Hp) (fun q => wl_cont (g_nc g) om p mq Hnc Hom q Hp) (wl_asym (g_nc g) om p mq Hnc Hom Hp) (fun mu q Hq => ql0_eq (g_nc g) om mq Hnc Hom p Hp mu q Hq) 1%nat.
  - dn (wt (g_nc g) om p mq) (wt_Ob (g_nc g) om p mq Hnc Hom Hp) (fun q => wt_cont (g_nc g) om p mq Hnc Hom q Hp) (wt_asym (g_nc g) om p mq Hnc Hom Hp) (fun mu q Hq => qt0_eq (g_nc g) om mq Hnc Hom p Hp mu q Hq) 2%nat.
  - dn (wt (g_nc g) om p mq) (wt_Ob (g_nc g) om p mq Hnc Hom Hp) (fun q => wt_cont (g_nc g) om p mq Hnc Hom q Hp) (wt_asym (g_nc g) om p mq Hnc Hom Hp) (fun mu q Hq => qt0_eq (g_nc g) om mq Hnc Hom p Hp mu q Hq) 3%nat.
  - dn (wp (g_nc g) om mq) (wp_Ob (g_nc g) om mq Hnc Hom) (fun q => wp_cont (g_nc g) om mq Hnc Hom q) (wp_asym (g_nc g) om p mq Hnc) (fun mu q Hq => f_equal RtoC (zpl0_eq (g_nc g) om mq mu q Hq)) 4%nat.
  - dn (wp (g_nc g) om mq) (wp_Ob (g_nc g) om mq Hnc Hom) (fun q => wp_cont (g_nc g) om mq Hnc Hom q) (wp_asym (g_nc g) om p mq Hnc) (fun mu q Hq => f_equal RtoC (zpl0_eq (g_nc g) om mq mu q Hq)) 5%nat.
  - dn (wp (g_nc g) om mq) (wp_Ob (g_nc g) om mq Hnc Hom) (fun q => wp_cont (g_nc g) om mq Hnc Hom q) (wp_asym (g_nc g) om p mq Hnc) (fun mu q Hq => f_equal RtoC (zpl0_eq (g_nc g) om mq mu q Hq)) 6%nat.
  - dn (wp (g_nc g) om mq) (wp_Ob (g_nc g) om mq Hnc Hom) (fun q => wp_cont (g_nc g) om mq Hnc Hom q) (wp_asym (g_nc g) om p mq Hnc) (fun mu q Hq => f_equal RtoC (zpl0_eq (g_nc g) om mq mu q Hq)) 7%nat.
Qed.
End Om.
Lemma dense_R_ok p : 0 < p -> g_matsubara_reg g <> 0 -> Forall (fun x => tends INF (fun mu => fst x mu / (mu * mu)) (snd x)) (dense_quark_R J g p mq I).
Proof.
  intros Hp Hr. set (om := g_matsubara_reg g) in *.
  assert (Z1 := fun mu => fermi_sea_R J g p mq mu I). assert (Z2 := fun mu => no_sea_R J g p mq mu I).
  unfold dense_quark_R; cbv zeta. fold om. repeat (apply Forall_cons || apply Forall_nil); cbn [fst snd].
  Ltac dnR W Ow Cw Lw E n := eapply (denseR W); [exact Ow|exact Cw|exact Lw|intros mu; eapply (sea_valR J mq mu HJ W);
    [exact Ow|exact Cw|exact (E mu)|intros HH; match goal with Z : forall mu, Rabs mq <= Rabs mu -> _ |- _ => exact (nth_Forall _ _ n _ (Z mu HH) eq_refl) end|intros HH; match goal with Z : forall mu, Rabs mu < Rabs mq -> _ |- _ => exact (nth_Forall _ _ n _ (Z mu HH) eq_refl) end]|apply val0].
  - dnR (wl (g_nc g) om p mq) (wl_Ob (g_nc g) om p mq Hnc Hr Hp) (fun q => wl_cont (g_nc g) om p mq Hnc Hr q Hp) (wl_asym (g_nc g) om p mq Hnc Hr Hp) (fun mu q Hq => ql0_eq (g_nc g) om mq Hnc Hr p Hp mu q Hq) 0%nat.
  - dnR (wl (g_nc g) om p mq) (wl_Ob (g_nc g) om p mq Hnc Hr Hp) (fun q => wl_cont (g_nc g) om p mq Hnc Hr q Hp) (wl_asym (g_nc g) om p mq Hnc Hr Hp) (fun mu q Hq => ql0_eq (g_nc g) om mq Hnc Hr p Hp mu q Hq) 1%nat.
  - dnR (wt (g_nc g) om p mq) (wt_Ob (g_nc g) om p mq Hnc Hr Hp) (fun q => wt_cont (g_nc g) om p mq Hnc Hr q Hp) (wt_asym (g_nc g) om p mq Hnc Hr Hp) (fun mu q Hq => qt0_eq (g_nc g) om mq Hnc Hr p Hp mu q Hq) 2%nat.
  - dnR (wt (g_nc g) om p mq) (wt_Ob (g_nc g) om p mq Hnc Hr Hp) (fun q => wt_cont (g_nc g) om p mq Hnc Hr q Hp) (wt_asym (g_nc g) om p mq Hnc Hr Hp) (fun mu q Hq => qt0_eq (g_nc g) om mq Hnc Hr p Hp mu q Hq) 3%nat.
Qed.
End DenseL.

(** ** The charge density at high temperature *)
Section Charge.
Variables (J : Integrator) (g : globals R) (m : R) (mu : R -> R) (nu : R) (I : Integral R).
Hypothesis HJ : exact_integrator J.
Hypothesis Hmu : tends INF (fun T => mu T / T) nu.
Definition Fm (b x : R) : R := INR (g_nc g) * (x * x * x / (3 * (PI * PI)) + x / (3 * (b * b))).
Lemma cd_dev b x : 0 < b -> Rabs (charge_density_with_method J g m b x I - Fm b x) <= Fm b (Rabs x) - Fm b (Rabs x - Rabs m).
Proof.
  intros Hb. assert (P : forall y, 0 <= y -> Rabs (charge_density_with_method J g m b y I - Fm b y) <= Fm b y - Fm b (y - Rabs m)).
  { intros y Hy. destruct (cd_mass J g b y I HJ Hb Hy) as [_ H]. specialize (H m). cbv zeta in H. unfold Fm. rewrite Rabs_minus_sym, Rabs_pos_eq; lra. }
  destruct (Rle_dec 0 x) as [G|G].
  - rewrite (Rabs_pos_eq x) by auto. now apply P.
  - rewrite (Rabs_left x) by lra. specialize (P (- x) ltac:(lra)). rewrite (cd_odd J g b I HJ Hb m x) in P.
    replace (Fm b (- x)) with (- Fm b x) in P at 1 by (unfold Fm, Rdiv; ring). replace (- charge_density_with_method J g m b x I - - Fm b x) with (- (charge_density_with_method J g m b x I - Fm b x)) in P by ring.
    rewrite Rabs_Ropp in P. exact P.
Qed.
Lemma charge_hot : tends INF (fun T => charge_density_with_method J g m (/ T) (mu T) I / (T * T * T)) (INR (g_nc g) * (nu * nu * nu / (3 * (PI * PI)) + nu / 3)).
Proof.
  pose proof PI_neq0 as HP. pose proof tends_inv_infty as TI.
  assert (A : tends INF (fun T => Fm (/ T) (mu T) / (T * T * T)) (INR (g_nc g) * (nu * nu * nu / (3 * (PI * PI)) + nu / 3))).
  { apply (tends_ext (fun T => INR (g_nc g) * (mu T / T * (mu T / T) * (mu T / T) / (3 * (PI * PI)) + mu T / T / 3))).
    - generalize T_ev. apply filter_imp. intros T HT. unfold Fm. field. repeat split; auto; lra.
    - apply tends_mult; [apply tends_const|]. apply tends_plus; (apply tends_mult; [|apply tends_const]); auto. repeat apply tends_mult; auto. }
  assert (AB : tends INF (fun T => Rabs (mu T) / T) (Rabs nu)).
  { apply (tends_ext (fun T => Rabs (mu T / T))).
    - generalize T_ev. apply filter_imp. intros T HT. unfold Rdiv. rewrite Rabs_mult, (Rabs_pos_eq (/ T)); auto. left. now apply Rinv_0_lt_compat.
    - apply (tends_comp Rabs); auto. apply continuous_Rabs. }
  assert (B : tends INF (fun T => (charge_density_with_method J g m (/ T) (mu T) I - Fm (/ T) (mu T)) / (T * T * T)) 0).
  { apply (tends_squeeze0 _ (fun T => INR (g_nc g) * ((Rabs (mu T) / T * (Rabs (mu T) / T) * (Rabs (mu T) / T) - (Rabs (mu T) / T - Rabs m * / T) * (Rabs (mu T) / T - Rabs m * / T) * (Rabs (mu T) / T - Rabs m * / T)) / (3 * (PI * PI)) + Rabs m * / T / 3))).
    - generalize T_ev. apply filter_imp. intros T HT. assert (P3 : 0 < / (T * T * T)) by (apply Rinv_0_lt_compat; repeat apply Rmult_lt_0_compat; auto).
      unfold Rdiv at 1. rewrite Rabs_mult, (Rabs_pos_eq (/ _)) by lra.
      apply Rle_trans with ((Fm (/ T) (Rabs (mu T)) - Fm (/ T) (Rabs (mu T) - Rabs m)) * / (T * T * T)).
      + apply Rmult_le_compat_r; [lra|]. apply cd_dev. now apply Rinv_0_lt_compat.
      + right. unfold Fm. field. repeat split; auto; lra.
    - set (a := Rabs nu) in *. apply (tends_eq _ (INR (g_nc g) * ((a * a * a - (a - Rabs m * 0) * (a - Rabs m * 0) * (a - Rabs m * 0)) * / (3 * (PI * PI)) + Rabs m * 0 * / 3))); [field; auto|].
      assert (M : tends INF (fun T => Rabs m * / T) (Rabs m * 0)) by (apply tends_mult; [apply tends_const|exact TI]).
      assert (D : tends INF (fun T => Rabs (mu T) / T - Rabs m * / T) (a - Rabs m * 0)) by (apply tends_minus; auto).
      apply tends_mult; [apply tends_const|]. apply tends_plus; [|apply (tends_mult (fun T => Rabs m * / T) (fun _ => / 3)); [exact M|apply tends_const]].
      apply (tends_mult _ (fun _ => / (3 * (PI * PI)))); [|apply tends_const]. apply tends_minus; repeat apply tends_mult; auto. }
  eapply tends_eq; [|eapply tends_ext; [|apply tends_plus; [exact A|exact B]]]; [ring|].
  generalize T_ev. apply filter_imp. intros T HT. field. lra.
Qed.
End Charge.
