(** * High-temperature limit of integrals against the Fermi distribution *)
From Coq Require Import Reals Psatz Lia.
From Coquelicot Require Import Coquelicot.
From Verif Require Import Num MCommon MConsts MThermal MDress MQuark SpecInt SpecLim PDistr PDistr2 PVac PMass PForms PLim PInt PCold PBasel PWeights PWeights2 PBound PColdG PColdI PFermi PColdQ PDensity.
Open Scope R_scope.

(** ** Both distributions in units of the temperature *)
Definition SS (nu y : R) : R := / (exp (y - nu) + 1) + / (exp (y + nu) + 1).
Lemma fdd_R e b mu : fermi_distribution_double (T := R) e b mu = SS (b * mu) (b * e).
Proof.
  unfold fermi_distribution_double, statistic_distribution_exponential, SS. numcbn.
  replace ((e - mu) * b) with (b * e - b * mu) by ring. replace ((e - - mu) * b) with (b * e + b * mu) by ring. ring.
Qed.
Lemma SS_pos nu y : 0 < SS nu y.
Proof. unfold SS. pose proof (exp_pos (y - nu)). pose proof (exp_pos (y + nu)). assert (0 < / (exp (y - nu) + 1)) by (apply Rinv_0_lt_compat; lra). assert (0 < / (exp (y + nu) + 1)) by (apply Rinv_0_lt_compat; lra). lra. Qed.
Lemma inv_anti a y1 y2 : y1 <= y2 -> / (exp (y2 - a) + 1) <= / (exp (y1 - a) + 1).
Proof.
  intros H. pose proof (exp_pos (y1 - a)). apply Rinv_le_contravar; [lra|]. apply Rplus_le_compat_r. destruct H as [H| ->]; [left; apply exp_increasing; lra|lra].
Qed.
Lemma SS_anti nu y1 y2 : y1 <= y2 -> SS nu y2 <= SS nu y1.
Proof. intros H. unfold SS. pose proof (inv_anti nu y1 y2 H). pose proof (inv_anti (- nu) y1 y2 H) as B. replace (y2 - - nu) with (y2 + nu) in B by ring. replace (y1 - - nu) with (y1 + nu) in B by ring. lra. Qed.
Lemma inv_shift a y d : 0 <= d -> exp (- d) * / (exp (y - a) + 1) <= / (exp (y + d - a) + 1).
Proof.
  intros H. replace (y + d - a) with (d + (y - a)) by ring. rewrite exp_plus, exp_Ropp. pose proof (exp_pos (y - a)). assert (1 <= exp d) by (destruct H as [H|H]; [left; rewrite <- exp_0; apply exp_increasing; lra|rewrite <- H, exp_0; lra]).
  rewrite <- Rinv_mult. apply Rinv_le_contravar; nra.
Qed.
Lemma SS_shift nu y d : 0 <= d -> exp (- d) * SS nu y <= SS nu (y + d).
Proof.
  intros H. unfold SS. pose proof (inv_shift nu y d H). pose proof (inv_shift (- nu) y d H) as B. replace (y - - nu) with (y + nu) in B by ring. replace (y + d - - nu) with (y + d + nu) in B by ring. lra.
Qed.
Lemma energy_range m q : 0 < q -> q <= energy (T := R) q m <= q + Rabs m.
Proof.
  intros Hq. pose proof (Rabs_pos m). pose proof (Rabs_sq m). rewrite energy_R. split.
  - rewrite <- (sqrt_square q) at 1 by lra. apply sqrt_le_1; nra.
  - rewrite <- (sqrt_square (q + Rabs m)) by lra. apply sqrt_le_1; nra.
Qed.

Section Hot.
Variable m : R.
Definition RI (mu b : R) (w : R -> R) : R := RInt (compact_R (dT m mu w b)) 0 1.
Lemma RI_is mu b w : Ob 1 w -> (forall q, 0 < q -> continuous w q) -> 0 < b -> is_RInt (compact_R (dT m mu w b)) 0 1 (RI mu b w).
Proof. intros O C Hb. apply (RInt_correct (V := R_CompleteNormedModule)). eexists. now apply dT_is. Qed.
Lemma id_Ob : Ob 1 (fun q => q). Proof. apply Ob_id. Qed.
Lemma id_cont (q : R) : 0 < q -> continuous (fun q : R => q) q. Proof. intros _. apply continuous_id. Qed.
Definition w1 (q : R) : R := q / (1 + q).
Lemma w1_Ob : Ob 1 w1.
Proof.
  exists 1, 0%nat. split; [lra|]. intros q Hq. unfold w1. simpl. rewrite Rabs_pos_eq by (apply Rdiv_le_0_compat; lra).
  apply (Rmult_le_reg_r (1 + q)); [lra|]. unfold Rdiv. rewrite Rmult_assoc, Rinv_l by lra. nra.
Qed.
Lemma w1_cont (q : R) : 0 < q -> continuous w1 q.
Proof. intros H. apply (ex_derive_continuous (K := R_AbsRing) (V := R_NormedModule)). unfold w1. auto_derive. lra. Qed.
End Hot.

(** ** The massless integrals *)
Lemma SS_cont nu b x : continuous (fun q => SS nu (b * q)) x.
Proof. apply (ex_derive_continuous (K := R_AbsRing) (V := R_NormedModule)). unfold SS. pose proof (exp_pos (b * x + - nu)). pose proof (exp_pos (b * x + nu)). auto_derive. repeat split; auto; lra. Qed.
Lemma energy_0 q : 0 <= q -> energy (T := R) q 0 = q.
Proof. intros H. rewrite energy_R. replace (0 * 0 + q * q) with (q * q) by ring. now apply sqrt_square. Qed.
Lemma dT0 mu b w q : 0 < q -> dT 0 mu w b q = w q * SS (b * mu) (b * q).
Proof. intros H. unfold dT. rewrite fdd_R, energy_0 by lra. reflexivity. Qed.
Lemma RI0_id mu b : 0 < b -> b * b * RI 0 mu b (fun q => q) = PI * PI / 6 + b * mu * (b * mu) / 2.
Proof.
  intros Hb. set (h := fun q => q * SS (b * mu) (b * q)).
  assert (V : is_RInt (compact_R h) 0 1 (RI 0 mu b (fun q => q))).
  { apply (compact_ext _ (dT 0 mu (fun q => q) b)); [intros q Hq; symmetry; now apply dT0|]. now apply RI_is; [apply id_Ob|apply id_cont|]. }
  assert (C : forall q, continuous h q).
  { intros q. unfold h. apply (continuous_mult (K := R_AbsRing) (fun q : R => q)); [apply continuous_id|apply SS_cont]. }
  pose proof (half_of_compact h _ (fun x _ => C x) V) as L.
  set (K := fun q => / (b * b) * Phi (b * mu) (b * q)).
  assert (D : forall q, is_derive K q (h q)).
  { intros q. unfold K, h. pose proof (Phi_d (b * mu) (b * q)) as A. auto_derive; [eexists; exact A|].
    change (Derive (fun x => Phi (b * mu) x)) with (Derive (Phi (b * mu))). rewrite (is_derive_unique _ _ _ A). unfold PWeights2.sea, SS.
    pose proof (exp_pos (b * q - b * mu)). pose proof (exp_pos (b * q + b * mu)). field. repeat split; lra. }
  assert (L2 : tends INF (fun Q => RInt h 0 Q) (/ (b * b) * (PI * PI / 6) - K 0)).
  { apply (tends_ext (fun Q => K Q - K 0)).
    - apply filter_forall. intros Q. symmetry. apply is_RInt_unique. now apply ftc.
    - apply tends_minus; [|apply tends_const]. unfold K. apply tends_mult; [apply tends_const|]. intros P HP. destruct (Phi_inf (b * mu) P HP) as [M HM]. exists (M / b). intros x Hx. apply HM.
      apply (Rmult_lt_compat_l b) in Hx; auto. replace (b * (M / b)) with M in Hx by (field; lra). lra. }
  rewrite (INF_uniq _ _ _ L L2). unfold K. rewrite Rmult_0_r, Phi_0. field. lra.
Qed.
Lemma RI0_1 mu b : 0 < b -> b * RI 0 mu b w1 <= ln (1 + exp (b * mu)) + ln (1 + exp (- (b * mu))).
Proof.
  intros Hb. set (h := fun q => q / (1 + q) * SS (b * mu) (b * q)).
  set (h' := fun q => w1 (Rabs q) * SS (b * mu) (b * q)).
  assert (V : is_RInt (compact_R h') 0 1 (RI 0 mu b w1)).
  { apply (compact_ext _ (dT 0 mu w1 b)); [intros q Hq; rewrite dT0 by auto; unfold h'; now rewrite Rabs_pos_eq by lra|]. now apply RI_is; [apply w1_Ob|apply w1_cont|]. }
  assert (C : forall q, continuous h' q).
  { intros q. unfold h'. apply (continuous_mult (K := R_AbsRing) (fun q : R => w1 (Rabs q))); [|apply SS_cont].
    apply (continuous_comp Rabs w1); [apply continuous_Rabs|]. apply (ex_derive_continuous (K := R_AbsRing) (V := R_NormedModule)). unfold w1. pose proof (Rabs_pos q). auto_derive. lra. }
  pose proof (half_of_compact h' _ (fun x _ => C x) V) as L.
  set (K := fun q => / b * (I0 (b * q - b * mu) - ln 2 + (I0 (b * q + b * mu) - ln 2))).
  assert (D : forall q, is_derive K q (SS (b * mu) (b * q))).
  { intros q. unfold K, SS. pose proof (I0_d (b * q - b * mu)) as A1. pose proof (I0_d (b * q + b * mu)) as A2. auto_derive; [repeat split; eexists; eassumption|].
    change (Derive (fun x => I0 x)) with (Derive I0). rewrite (is_derive_unique I0 (b * q + - (b * mu)) (/ (exp (b * q - b * mu) + 1))), (is_derive_unique _ _ _ A2) by auto. pose proof (exp_pos (b * q - b * mu)). pose proof (exp_pos (b * q + b * mu)). field. repeat split; lra. }
  assert (B : forall Q, 0 < Q -> RInt h' 0 Q <= - K 0).
  { intros Q HQ. assert (NK : K Q <= 0).
    { unfold K, I0. assert (P : forall x, 0 < ln (1 + exp (- x))) by (intros x; rewrite <- ln_1; apply ln_increasing; [lra|pose proof (exp_pos (- x)); lra]).
      assert (X : forall r u v, 0 < r -> 0 < u -> 0 < v -> r * (ln 2 - u - ln 2 + (ln 2 - v - ln 2)) <= 0) by (intros r u v; replace (ln 2 - u - ln 2 + (ln 2 - v - ln 2)) with (- u - v) by ring; nra).
      apply X; auto using Rinv_0_lt_compat. }
    apply Rle_trans with (K Q - K 0); [|lra].
    apply (is_RInt_le h' (fun q => SS (b * mu) (b * q)) 0 Q _ _); [lra| | |].
    - apply (RInt_correct (V := R_CompleteNormedModule)), (ex_RInt_continuous (V := R_CompleteNormedModule)). intros; apply C.
    - apply ftc; [exact D|intros; apply SS_cont].
    - intros q Hq. unfold h', w1. rewrite Rabs_pos_eq by lra. pose proof (SS_pos (b * mu) (b * q)). rewrite <- (Rmult_1_l (SS (b * mu) (b * q))) at 2. apply Rmult_le_compat_r; [lra|].
      apply (Rmult_le_reg_r (1 + q)); [lra|]. unfold Rdiv. rewrite Rmult_assoc, Rinv_l by lra. lra. }
  assert (LE : RI 0 mu b w1 <= - K 0).
  { apply Rnot_lt_le. intros N. destruct (L (fun y => Rabs (y - RI 0 mu b w1) < RI 0 mu b w1 - - K 0)) as [M HM].
    { exists (mkposreal _ (proj1 (Rminus_lt_0 _ _) N)). intros y Hy. exact Hy. }
    specialize (HM (Rmax M 0 + 1)). pose proof (Rmax_l M 0). pose proof (Rmax_r M 0). specialize (HM ltac:(lra)). specialize (B (Rmax M 0 + 1) ltac:(lra)). apply Rabs_def2 in HM. lra. }
  apply (Rmult_le_compat_l b) in LE; [|lra]. apply Rle_trans with (1 := LE). unfold K, I0. rewrite Rmult_0_r. replace (0 - b * mu) with (- (b * mu)) by ring. rewrite Ropp_involutive, Rplus_0_l. right. field. lra.
Qed.

(** ** Comparison with the massive integrals *)
Section Hot2.
Variable m : R.
Notation RI := (RI m).
Lemma RI_le0 mu b w : Ob 1 w -> (forall q, 0 < q -> continuous w q) -> 0 < b -> (forall q, 0 < q -> 0 <= w q) -> RI mu b w <= PHot.RI 0 mu b w.
Proof.
  intros O C Hb P. apply (compact_le _ _ _ _ (RI_is m mu b w O C Hb) (RI_is 0 mu b w O C Hb)). intros q Hq. rewrite dT0 by auto. unfold dT. rewrite fdd_R.
  apply Rmult_le_compat_l; [auto|]. apply SS_anti, Rmult_le_compat_l; [lra|]. now apply energy_range.
Qed.
Lemma RI_ge0 mu b w : Ob 1 w -> (forall q, 0 < q -> continuous w q) -> 0 < b -> (forall q, 0 < q -> 0 <= w q) -> exp (- (b * Rabs m)) * PHot.RI 0 mu b w <= RI mu b w.
Proof.
  intros O C Hb P.
  assert (V : is_RInt (compact_R (fun q => exp (- (b * Rabs m)) * dT 0 mu w b q)) 0 1 (exp (- (b * Rabs m)) * PHot.RI 0 mu b w)).
  { eapply (is_RInt_ext (V := R_NormedModule)); [|exact (is_RInt_scal (V := R_NormedModule) _ 0 1 (exp (- (b * Rabs m))) _ (RI_is 0 mu b w O C Hb))].
    intros t _. unfold compact_R, scal; simpl. unfold mult; simpl. unfold Rdiv. ring. }
  apply (compact_le _ _ _ _ V (RI_is m mu b w O C Hb)). intros q Hq. rewrite dT0 by auto. unfold dT. rewrite fdd_R.
  rewrite (Rmult_comm (w q)), <- Rmult_assoc, (Rmult_comm (w q)). apply Rmult_le_compat_r; [auto|].
  apply Rle_trans with (SS (b * mu) (b * q + b * Rabs m)).
  - apply SS_shift. pose proof (Rabs_pos m). nra.
  - apply SS_anti. rewrite <- Rmult_plus_distr_l. apply Rmult_le_compat_l; [lra|]. now apply energy_range.
Qed.
Lemma RI_dev mu b w c e K : Ob 1 w -> (forall q, 0 < q -> continuous w q) -> 0 < b ->
  (forall q, 0 < q -> Rabs (w q - c * q) <= e * q + K * w1 q) -> Rabs (RI mu b w - c * RI mu b (fun q => q)) <= e * RI mu b (fun q => q) + K * RI mu b w1.
Proof.
  intros O C Hb H. pose proof (RI_is m mu b w O C Hb) as A. pose proof (RI_is m mu b _ id_Ob id_cont Hb) as B. pose proof (RI_is m mu b _ w1_Ob w1_cont Hb) as D.
  assert (V1 : is_RInt (compact_R (fun q => dT m mu w b q - c * dT m mu (fun q => q) b q)) 0 1 (RI mu b w - c * RI mu b (fun q => q))).
  { eapply (is_RInt_ext (V := R_NormedModule)); [|exact (is_RInt_minus (V := R_NormedModule) _ _ _ _ _ _ A (is_RInt_scal (V := R_NormedModule) _ 0 1 c _ B))].
    intros t _. unfold compact_R, scal, minus, plus, opp; simpl. unfold mult; simpl. unfold Rdiv. ring. }
  assert (V2 : is_RInt (compact_R (fun q => e * dT m mu (fun q => q) b q + K * dT m mu w1 b q)) 0 1 (e * RI mu b (fun q => q) + K * RI mu b w1)).
  { eapply (is_RInt_ext (V := R_NormedModule)); [|exact (is_RInt_plus (V := R_NormedModule) _ _ _ _ _ _ (is_RInt_scal (V := R_NormedModule) _ 0 1 e _ B) (is_RInt_scal (V := R_NormedModule) _ 0 1 K _ D))].
    intros t _. unfold compact_R, scal, minus, plus, opp; simpl. unfold mult; simpl. unfold Rdiv. ring. }
  assert (V3 : is_RInt (compact_R (fun q => - (e * dT m mu (fun q => q) b q + K * dT m mu w1 b q))) 0 1 (- (e * RI mu b (fun q => q) + K * RI mu b w1))).
  { eapply (is_RInt_ext (V := R_NormedModule)); [|exact (is_RInt_opp (V := R_NormedModule) _ _ _ _ V2)].
    intros t _. unfold compact_R, opp; simpl. unfold Rdiv. ring. }
  assert (X : forall q, 0 < q -> Rabs (dT m mu w b q - c * dT m mu (fun q => q) b q) <= e * dT m mu (fun q => q) b q + K * dT m mu w1 b q).
  { intros q Hq. unfold dT. rewrite fdd_R. pose proof (SS_pos (b * mu) (b * energy q m)) as P.
    replace (w q * SS (b * mu) (b * energy q m) - c * (q * SS (b * mu) (b * energy q m))) with ((w q - c * q) * SS (b * mu) (b * energy q m)) by ring.
    rewrite Rabs_mult, (Rabs_pos_eq (SS _ _)) by lra. pose proof (H q Hq). nra. }
  apply Rabs_le. split.
  - apply (compact_le _ _ _ _ V3 V1). intros q Hq. pose proof (X q Hq) as Y. apply Rabs_le_between in Y. lra.
  - apply (compact_le _ _ _ _ V1 V2). intros q Hq. pose proof (X q Hq) as Y. apply Rabs_le_between in Y. lra.
Qed.
(** Deviation from linear growth. *)
Lemma lin_dev w c e : Ob 1 w -> tends INF (fun q => w q / q) c -> 0 < e -> exists K, 0 <= K /\ forall q, 0 < q -> Rabs (w q - c * q) <= e * q + K * w1 q.
Proof.
  intros (K1 & k & HK & B) L He. destruct (L (fun y => Rabs (y - c) < e)) as [M HM]; [exists (mkposreal e He); intros y Hy; exact Hy|].
  set (Q := Rmax M 0 + 1). assert (HQ : 0 < Q) by (unfold Q; pose proof (Rmax_r M 0); lra).
  assert (P0 : 0 <= K1 * (1 + Q) ^ k + Rabs c) by (pose proof (Rabs_pos c); pose proof (pow_lt (1 + Q) k ltac:(lra)); nra).
  exists ((K1 * (1 + Q) ^ k + Rabs c) * (1 + Q)). split; [nra|]. intros q Hq.
  assert (W : 0 <= w1 q) by (unfold w1; apply Rdiv_le_0_compat; lra).
  destruct (Rlt_dec M q) as [G|G].
  - specialize (HM q G). replace (w q - c * q) with ((w q / q - c) * q) by (field; lra). rewrite Rabs_mult, (Rabs_pos_eq q) by lra.
    assert (Rabs (w q / q - c) * q <= e * q) by (apply Rmult_le_compat_r; lra).
    assert (0 <= (K1 * (1 + Q) ^ k + Rabs c) * (1 + Q) * w1 q) by (apply Rmult_le_pos; nra). lra.
  - assert (qQ : q <= Q) by (unfold Q; pose proof (Rmax_l M 0); lra).
    assert (Rabs (w q - c * q) <= (K1 * (1 + Q) ^ k + Rabs c) * q).
    { apply Rle_trans with (Rabs (w q) + Rabs (c * q)); [unfold Rminus; rewrite <- (Rabs_Ropp (c * q)); apply Rabs_triang|]. rewrite Rabs_mult, (Rabs_pos_eq q) by lra.
      apply Rle_trans with (K1 * q ^ 1 * (1 + q) ^ k + Rabs c * q); [apply Rplus_le_compat_r, B; auto|].
      assert ((1 + q) ^ k <= (1 + Q) ^ k) by (apply pow_incr; lra). simpl. rewrite Rmult_1_r. assert (0 <= K1 * q) by nra. nra. }
    assert (q <= (1 + Q) * w1 q).
    { unfold w1. apply (Rmult_le_reg_r (1 + q)); [lra|]. replace ((1 + Q) * (q / (1 + q)) * (1 + q)) with ((1 + Q) * q) by (field; lra). nra. }
    assert (0 <= e * q) by nra. apply Rle_trans with ((K1 * (1 + Q) ^ k + Rabs c) * q); auto. rewrite Rmult_assoc. assert ((K1 * (1 + Q) ^ k + Rabs c) * q <= (K1 * (1 + Q) ^ k + Rabs c) * ((1 + Q) * w1 q)) by (apply Rmult_le_compat_l; auto). lra.
Qed.
(** The limit, along any b, mu with b -> 0+ and b mu -> nu. *)
Lemma hot (mu : R -> R) nu w c : Ob 1 w -> (forall q, 0 < q -> continuous w q) -> tends INF (fun q => w q / q) c -> tends R0 (fun b => b * mu b) nu ->
  tends R0 (fun b => b * b * RI (mu b) b w) (c * (PI * PI / 6 + nu * nu / 2)).
Proof.
  intros O C L N.
  assert (A0 : tends R0 (fun b => PI * PI / 6 + b * mu b * (b * mu b) / 2) (PI * PI / 6 + nu * nu / 2)).
  { apply tends_plus; [apply tends_const|]. apply (tends_mult (fun b => b * mu b * (b * mu b)) (fun _ => / 2)); [now apply tends_mult|apply tends_const]. }
  assert (E0 : tends R0 (fun b => exp (- (b * Rabs m))) 1).
  { apply (tends_eq _ (exp (- (0 * Rabs m)))); [rewrite Rmult_0_l, Ropp_0; apply exp_0|]. apply (tends_comp exp); [apply continuous_exp|]. pose proof (tends_id_right 0). tendf. }
  assert (I1 : tends R0 (fun b => b * b * RI (mu b) b (fun q => q)) (PI * PI / 6 + nu * nu / 2)).
  { intros P HP. apply (filterlim_le_le (F := R0) (fun b => exp (- (b * Rabs m)) * (PI * PI / 6 + b * mu b * (b * mu b) / 2)) _ (fun b => PI * PI / 6 + b * mu b * (b * mu b) / 2) (Finite (PI * PI / 6 + nu * nu / 2))); auto.
    - apply (ev_right _ 0 1); [lra|]. intros b Hb. pose proof (RI0_id (mu b) b (proj1 Hb)) as E.
      pose proof (RI_le0 (mu b) b _ id_Ob id_cont (proj1 Hb) ltac:(intros; lra)). pose proof (RI_ge0 (mu b) b _ id_Ob id_cont (proj1 Hb) ltac:(intros; lra)).
      rewrite <- E. assert (0 <= b * b) by nra. split; [|apply Rmult_le_compat_l; auto].
      replace (exp (- (b * Rabs m)) * (b * b * PHot.RI 0 (mu b) b (fun q => q))) with (b * b * (exp (- (b * Rabs m)) * PHot.RI 0 (mu b) b (fun q => q))) by ring. apply Rmult_le_compat_l; auto.
    - eapply tends_eq; [|apply tends_mult; [exact E0|exact A0]]. ring. }
  assert (I2 : tends R0 (fun b => b * b * RI (mu b) b w1) 0).
  { apply (tends_squeeze0 _ (fun b => b * (ln (1 + exp (b * mu b)) + ln (1 + exp (- (b * mu b)))))).
    - apply (ev_right _ 0 1); [lra|]. intros b Hb. assert (W : forall q, 0 < q -> 0 <= w1 q) by (intros; unfold w1; apply Rdiv_le_0_compat; lra).
      pose proof (RI0_1 (mu b) b (proj1 Hb)). pose proof (RI_le0 (mu b) b _ w1_Ob w1_cont (proj1 Hb) W). pose proof (RI_ge0 (mu b) b _ w1_Ob w1_cont (proj1 Hb) W).
      assert (Z : 0 <= RI (mu b) b w1).
      { apply (compact_le (fun _ => 0) _ 0 _ ltac:(assert (T := is_RInt_const (V := R_NormedModule) 0 1 0); unfold scal in T; simpl in T; unfold mult in T; simpl in T; rewrite Rmult_0_r in T; eapply (is_RInt_ext (V := R_NormedModule)); [|exact T]; intros; symmetry; unfold compact_R, Rdiv; apply Rmult_0_l) (RI_is m (mu b) b _ w1_Ob w1_cont (proj1 Hb))).
        intros q Hq. unfold dT. rewrite fdd_R. apply Rmult_le_pos; [auto|]. left. apply SS_pos. }
      rewrite Rabs_pos_eq by (repeat apply Rmult_le_pos; lra). rewrite Rmult_assoc. apply Rmult_le_compat_l; [lra|]. apply Rle_trans with (b * PHot.RI 0 (mu b) b w1); [|lra]. apply Rmult_le_compat_l; lra.
    - apply (tends_eq _ (0 * (ln (1 + exp nu) + ln (1 + exp (- nu))))); [ring|]. apply tends_mult; [apply tends_id_right|].
      pose proof (exp_pos nu). pose proof (exp_pos (- nu)).
      apply tends_plus; (apply (tends_comp ln); [apply continuous_ln; lra|]; apply tends_plus; [apply tends_const|]; apply (tends_comp exp); [apply continuous_exp|]; auto). now apply tends_opp. }
  set (A := PI * PI / 6 + nu * nu / 2) in *.
  assert (PA : 0 < A) by (unfold A; pose proof PI_RGT_0; nra).
  intros P [eps HP]. destruct (lin_dev w c (eps / (4 * A)) O L ltac:(apply Rdiv_lt_0_compat; [apply cond_pos|lra])) as (K & HK & D).
  assert (F1 : R0 (fun b => Rabs (b * b * RI (mu b) b (fun q => q) - A) < A /\ Rabs c * Rabs (b * b * RI (mu b) b (fun q => q) - A) < eps / 4)).
  { apply filter_and; [apply (I1 (fun y => Rabs (y - A) < A)); exists (mkposreal A PA); intros y Hy; exact Hy|].
    assert (Hd : 0 < eps / (4 * (Rabs c + 1))) by (pose proof (Rabs_pos c); apply Rdiv_lt_0_compat; [apply cond_pos|lra]).
    apply (I1 (fun y => Rabs c * Rabs (y - A) < eps / 4)). exists (mkposreal _ Hd). intros y Hy. change (Rabs (y - A) < eps / (4 * (Rabs c + 1))) in Hy.
    pose proof (Rabs_pos c) as Pc. apply Rle_lt_trans with ((Rabs c) * (eps / (4 * (Rabs c + 1)))); [apply Rmult_le_compat_l; lra|].
    pose proof (cond_pos eps). apply (Rmult_lt_reg_r (4 * (Rabs c + 1))); [lra|]. replace (Rabs c * (eps / (4 * (Rabs c + 1))) * (4 * (Rabs c + 1))) with (Rabs c * eps) by (field; lra). nra. }
  assert (F2 : R0 (fun b => K * Rabs (b * b * RI (mu b) b w1) < eps / 4)).
  { apply (I2 (fun y => K * Rabs y < eps / 4)). assert (Hd : 0 < eps / (4 * (K + 1))) by (apply Rdiv_lt_0_compat; [apply cond_pos|lra]).
    exists (mkposreal _ Hd). intros y Hy. change (Rabs (y - 0) < eps / (4 * (K + 1))) in Hy. rewrite Rminus_0_r in Hy. pose proof (cond_pos eps).
    apply Rle_lt_trans with (K * (eps / (4 * (K + 1)))); [apply Rmult_le_compat_l; lra|].
    apply (Rmult_lt_reg_r (4 * (K + 1))); [lra|]. replace (K * (eps / (4 * (K + 1))) * (4 * (K + 1))) with (K * eps) by (field; lra). nra. }
  assert (F3 : R0 (fun b => 0 < b < 1)) by (apply (ev_right _ 0 1); [lra|]; auto).
  unfold filtermap. generalize (filter_and _ _ F3 (filter_and _ _ F1 F2)). apply filter_imp. intros b [Hb [[B1 B2] B3]]. apply HP.
  change (Rabs (b * b * RI (mu b) b w - c * A) < eps).
  pose proof (RI_dev (mu b) b w c _ K O C (proj1 Hb) D) as X.
  set (x := RI (mu b) b w) in *. set (y := RI (mu b) b (fun q => q)) in *. set (z := RI (mu b) b w1) in *.
  replace (b * b * x - c * A) with (b * b * (x - c * y) + c * (b * b * y - A)) by ring.
  apply Rle_lt_trans with (1 := Rabs_triang _ _). rewrite !Rabs_mult, (Rabs_pos_eq b) by lra.
  assert (b * b * Rabs (x - c * y) <= b * b * (eps / (4 * A) * y + K * z)) by (apply Rmult_le_compat_l; nra).
  assert (b * b * y < 2 * A) by (apply Rabs_def2 in B1; lra).
  assert (b * b * (eps / (4 * A) * y) < eps / 2).
  { replace (b * b * (eps / (4 * A) * y)) with (eps / (4 * A) * (b * b * y)) by ring. replace (eps / 2) with (eps / (4 * A) * (2 * A)) by (field; lra). apply Rmult_lt_compat_l; [apply Rdiv_lt_0_compat; [apply cond_pos|lra]|auto]. }
  assert (b * b * (K * z) < eps / 4).
  { apply Rle_lt_trans with (2 := B3). replace (b * b * (K * z)) with (K * (b * b * z)) by ring. apply Rmult_le_compat_l; [auto|apply Rle_abs]. }
  replace (b * b * (eps / (4 * A) * y + K * z)) with (b * b * (eps / (4 * A) * y) + b * b * (K * z)) in H by ring. lra.
Qed.
End Hot2.
