(** * Growth and decay of the factors of the thermal integrands *)
From Coq Require Import Reals Lra Lia List Psatz.
From Coquelicot Require Import Coquelicot.
From Verif Require Import Num MCommon PCplx PDistr PVac PCold PReal PForms PForms2.
Open Scope R_scope.

(** [Ob j w]: w is O(q^j) at zero and grows at most like a power at infinity. *)
Definition Ob (j : nat) (w : R -> R) : Prop := exists K k, 0 <= K /\ forall q, 0 < q -> Rabs (w q) <= K * q ^ j * (1 + q) ^ k.

Lemma pow_mono q k l : 0 < q -> (k <= l)%nat -> (1 + q) ^ k <= (1 + q) ^ l.
Proof. intros H L. apply Rle_pow; [lra|auto]. Qed.
Lemma pow1q q k : 0 < q -> 1 <= (1 + q) ^ k.
Proof. intros H. apply (pow_mono q 0 k); auto. lia. Qed.

Lemma Ob_ext j f g : (forall q, 0 < q -> f q = g q) -> Ob j f -> Ob j g.
Proof. intros E (K & k & H0 & H). exists K, k. split; auto. intros q Hq. rewrite <- E by auto. auto. Qed.
Lemma Ob_le j f g : (forall q, 0 < q -> Rabs (g q) <= Rabs (f q)) -> Ob j f -> Ob j g.
Proof. intros E (K & k & H0 & H). exists K, k. split; auto. intros q Hq. eapply Rle_trans; [apply E; auto|auto]. Qed.
Lemma Ob_const c : Ob 0 (fun _ => c).
Proof. exists (Rabs c), 0%nat. split; [apply Rabs_pos|]. intros q Hq. cbn. lra. Qed.
Lemma Ob_id : Ob 1 (fun q => q).
Proof. exists 1, 0%nat. split; [lra|]. intros q Hq. rewrite Rabs_right by lra. cbn. lra. Qed.
Lemma Ob_opp j f : Ob j f -> Ob j (fun q => - f q).
Proof. apply Ob_le. intros. rewrite Rabs_Ropp. lra. Qed.
Lemma Ob_plus j f g : Ob j f -> Ob j g -> Ob j (fun q => f q + g q).
Proof.
  intros (K & k & H0 & H) (L & l & G0 & G). exists (K + L), (k + l)%nat. split; [lra|]. intros q Hq.
  eapply Rle_trans; [apply Rabs_triang|].
  assert (P : 0 <= q ^ j) by (apply pow_le; lra).
  assert (A : K * q ^ j * (1 + q) ^ k <= K * q ^ j * (1 + q) ^ (k + l)) by (apply Rmult_le_compat_l; [nra|apply pow_mono; auto; lia]).
  assert (B : L * q ^ j * (1 + q) ^ l <= L * q ^ j * (1 + q) ^ (k + l)) by (apply Rmult_le_compat_l; [nra|apply pow_mono; auto; lia]).
  specialize (H q Hq). specialize (G q Hq). lra.
Qed.
Lemma Ob_minus j f g : Ob j f -> Ob j g -> Ob j (fun q => f q - g q).
Proof. intros H G. apply (Ob_plus j f (fun q => - g q)); auto. now apply Ob_opp. Qed.
Lemma Ob_mult i j f g : Ob i f -> Ob j g -> Ob (i + j) (fun q => f q * g q).
Proof.
  intros (K & k & H0 & H) (L & l & G0 & G). exists (K * L), (k + l)%nat. split; [now apply Rmult_le_pos|]. intros q Hq.
  rewrite Rabs_mult. specialize (H q Hq). specialize (G q Hq).
  replace (K * L * q ^ (i + j) * (1 + q) ^ (k + l)) with ((K * q ^ i * (1 + q) ^ k) * (L * q ^ j * (1 + q) ^ l)) by (rewrite !pow_add; ring).
  apply Rmult_le_compat; auto using Rabs_pos.
Qed.
Lemma Ob_weak j f : Ob (S j) f -> Ob j f.
Proof.
  intros (K & k & H0 & H). exists K, (S k). split; auto. intros q Hq. eapply Rle_trans; [apply H; auto|].
  cbn [pow]. replace (K * (q * q ^ j) * (1 + q) ^ k) with (K * q ^ j * (1 + q) ^ k * q) by ring.
  replace (K * q ^ j * ((1 + q) * (1 + q) ^ k)) with (K * q ^ j * (1 + q) ^ k * (1 + q)) by ring.
  apply Rmult_le_compat_l; [|lra]. pose proof (pow1q q k Hq). assert (0 <= q ^ j) by (apply pow_le; lra).
  apply Rmult_le_pos; [now apply Rmult_le_pos|lra].
Qed.
Lemma Ob_to0 j f : Ob j f -> Ob 0 f.
Proof. induction j; auto. intros H. apply IHj. now apply Ob_weak. Qed.
Lemma Ob_mult0 f g : Ob 0 f -> Ob 0 g -> Ob 0 (fun q => f q * g q).
Proof. intros H G. exact (Ob_mult 0 0 f g H G). Qed.
Lemma Ob_ml1 f g : Ob 1 f -> Ob 0 g -> Ob 1 (fun q => f q * g q).
Proof. intros H G. exact (Ob_mult 1 0 f g H G). Qed.
Lemma Ob_mr1 f g : Ob 0 f -> Ob 1 g -> Ob 1 (fun q => f q * g q).
Proof. intros H G. exact (Ob_mult 0 1 f g H G). Qed.
Lemma Ob_div j f c : Ob j f -> Ob j (fun q => f q / c).
Proof.
  intros H. apply (Ob_ext j (fun q => / c * f q)). { intros; unfold Rdiv; ring. }
  replace j with (0 + j)%nat by auto. apply Ob_mult; auto. apply Ob_const.
Qed.
Lemma Ob_bounded f M : (forall q, 0 < q -> Rabs (f q) <= M) -> Ob 0 f.
Proof.
  intros H. exists M, 0%nat. assert (0 <= M) by (eapply Rle_trans; [apply Rabs_pos|apply (H 1); lra]).
  split; auto. intros q Hq. cbn. specialize (H q Hq). lra.
Qed.
Lemma Ob_inv_bounded f c : 0 < c -> (forall q, 0 < q -> c <= f q) -> Ob 0 (fun q => / f q).
Proof.
  intros Hc H. apply (Ob_bounded _ (/ c)). intros q Hq. specialize (H q Hq).
  rewrite Rabs_right. - apply Rinv_le_contravar; lra. - left. apply Rinv_0_lt_compat. lra.
Qed.

(** ** Decay, uniformly for beta >= b0 *)
Section Decay.
Variable b0 : R.
Hypothesis Hb0 : 0 < b0.
Definition Rd (f : R -> R -> R) : Prop := forall k, exists K, forall b q, b0 <= b -> 0 < q -> Rabs (f b q) * (1 + q) ^ k <= K / b.

Lemma Rd_ext f g : (forall b q, b0 <= b -> 0 < q -> f b q = g b q) -> Rd f -> Rd g.
Proof. intros E H k. destruct (H k) as [K HK]. exists K. intros b q Hb Hq. rewrite <- E by auto. auto. Qed.
Lemma Rd_le f g : (forall b q, b0 <= b -> 0 < q -> Rabs (g b q) <= Rabs (f b q)) -> Rd f -> Rd g.
Proof.
  intros E H k. destruct (H k) as [K HK]. exists K. intros b q Hb Hq. eapply Rle_trans; [|apply (HK b q); auto].
  apply Rmult_le_compat_r; [apply pow_le; lra|auto].
Qed.
Lemma Rd_plus f g : Rd f -> Rd g -> Rd (fun b q => f b q + g b q).
Proof.
  intros H G k. destruct (H k) as [K HK]. destruct (G k) as [L HL]. exists (K + L). intros b q Hb Hq.
  specialize (HK b q Hb Hq). specialize (HL b q Hb Hq).
  assert (P : 0 <= (1 + q) ^ k) by (apply pow_le; lra). pose proof (Rabs_triang (f b q) (g b q)).
  replace ((K + L) / b) with (K / b + L / b) by (field; lra). nra.
Qed.
Lemma Rd_opp f : Rd f -> Rd (fun b q => - f b q).
Proof. apply Rd_le. intros. rewrite Rabs_Ropp. lra. Qed.
Lemma Rd_minus f g : Rd f -> Rd g -> Rd (fun b q => f b q - g b q).
Proof. intros H G. apply (Rd_plus f (fun b q => - g b q)); auto. now apply Rd_opp. Qed.
Lemma Rd_mult f w : Rd f -> Ob 0 w -> Rd (fun b q => f b q * w q).
Proof.
  intros H (L & l & L0 & HL) k. destruct (H (k + l)%nat) as [K HK]. exists (K * L). intros b q Hb Hq.
  specialize (HK b q Hb Hq). specialize (HL q Hq). rewrite Rabs_mult. cbn [pow] in HL.
  replace (K * L / b) with (K / b * L) by (field; lra).
  eapply Rle_trans; [|apply (Rmult_le_compat_r L); [auto|exact HK]]. rewrite pow_add.
  replace (Rabs (f b q) * ((1 + q) ^ k * (1 + q) ^ l) * L) with ((Rabs (f b q) * (1 + q) ^ k) * (L * 1 * (1 + q) ^ l)) by ring.
  replace (Rabs (f b q) * Rabs (w q) * (1 + q) ^ k) with ((Rabs (f b q) * (1 + q) ^ k) * Rabs (w q)) by ring.
  apply Rmult_le_compat_l; auto. apply Rmult_le_pos; [apply Rabs_pos|apply pow_le; lra].
Qed.
Lemma Rd_multb f g M : Rd f -> (forall b q, b0 <= b -> 0 < q -> Rabs (g b q) <= M) -> Rd (fun b q => f b q * g b q).
Proof.
  intros H HM k. destruct (H k) as [K HK]. exists (K * M). intros b q Hb Hq. specialize (HK b q Hb Hq). specialize (HM b q Hb Hq).
  rewrite Rabs_mult. replace (K * M / b) with (K / b * M) by (field; lra).
  replace (Rabs (f b q) * Rabs (g b q) * (1 + q) ^ k) with ((Rabs (f b q) * (1 + q) ^ k) * Rabs (g b q)) by ring.
  apply Rmult_le_compat; auto using Rabs_pos. apply Rmult_le_pos; [apply Rabs_pos|apply pow_le; lra].
Qed.
Lemma Rd_scal c f : Rd f -> Rd (fun b q => c * f b q).
Proof. intros H. apply (Rd_ext (fun b q => f b q * c)); [intros; ring|]. apply (Rd_mult f (fun _ => c)); auto. apply Ob_const. Qed.
Lemma Rd_divb f : Rd (fun b q => b * f b q) -> Rd f.
Proof.
  intros H. apply (Rd_ext (fun b q => (b * f b q) * / b)). { intros b q Hb _. field. lra. }
  apply (Rd_multb _ _ (/ b0)); auto. intros b q Hb _. rewrite Rabs_right; [apply Rinv_le_contravar; auto|]. left. apply Rinv_0_lt_compat. lra.
Qed.

(** ** Exponentials beat powers *)
Lemma exp_poly k : forall a, 0 < a -> exists K, 0 < K /\ forall q, 0 <= q -> (1 + q) ^ k <= K * exp (a * q).
Proof.
  induction k; intros a Ha.
  - exists 1. split; [lra|]. intros q Hq. cbn. pose proof (exp_ineq1_le (a * q)). nra.
  - destruct (IHk (a / 2)) as (K & K0 & HK); [lra|]. exists (K * (1 + 2 / a)).
    assert (A2 : 0 < 2 / a) by (apply Rdiv_lt_0_compat; lra).
    split; [apply Rmult_lt_0_compat; lra|]. intros q Hq. specialize (HK q Hq).
    assert (E1 : 1 + q <= (1 + 2 / a) * exp (a / 2 * q)).
    { pose proof (exp_ineq1_le (a / 2 * q)) as E. apply Rle_trans with ((1 + 2 / a) * (1 + a / 2 * q)); [|apply Rmult_le_compat_l; lra].
      replace ((1 + 2 / a) * (1 + a / 2 * q)) with (1 + q + 2 / a + a / 2 * q) by (field; lra). nra. }
    replace (exp (a * q)) with (exp (a / 2 * q) * exp (a / 2 * q)) by (rewrite <- exp_plus; f_equal; field).
    cbn [pow]. replace (K * (1 + 2 / a) * (exp (a / 2 * q) * exp (a / 2 * q))) with (((1 + 2 / a) * exp (a / 2 * q)) * (K * exp (a / 2 * q))) by ring.
    apply Rmult_le_compat; try lra. apply pow_le. lra.
Qed.

(** If |f| <= C exp(- a q) / b then f decays. *)
Lemma Rd_exp f a C : 0 < a -> 0 <= C -> (forall b q, b0 <= b -> 0 < q -> Rabs (f b q) <= C * exp (- (a * q)) / b) -> Rd f.
Proof.
  intros Ha HC H k. destruct (exp_poly k a Ha) as (K & K0 & HK). exists (C * K). intros b q Hb Hq.
  specialize (H b q Hb Hq). specialize (HK q (Rlt_le _ _ Hq)).
  assert (P : 0 <= (1 + q) ^ k) by (apply pow_le; lra).
  eapply Rle_trans; [apply Rmult_le_compat_r; [exact P|exact H]|].
  assert (Ex : exp (- (a * q)) * exp (a * q) = 1) by (rewrite <- exp_plus; replace (- (a * q) + a * q) with 0 by ring; apply exp_0).
  pose proof (exp_pos (- (a * q))) as E0.
  assert (I : 0 < / b) by (apply Rinv_0_lt_compat; lra). unfold Rdiv.
  apply Rle_trans with (C * exp (- (a * q)) * / b * (K * exp (a * q))).
  - apply Rmult_le_compat_l; auto. apply Rmult_le_pos; [apply Rmult_le_pos|]; lra.
  - right. replace (C * exp (- (a * q)) * / b * (K * exp (a * q))) with (C * / b * K * (exp (- (a * q)) * exp (a * q))) by ring. rewrite Ex. ring.
Qed.

(** ** The Bose distribution *)
Section Massive.
Variable m : R.
Hypothesis Hm : m <> 0.
Lemma energy_ge_m q : Rabs m <= energy q m.
Proof. rewrite energy_R, <- sqrt_Rsqr_abs. apply sqrt_le_1_alt. unfold Rsqr. nra. Qed.
Lemma energy_ge_q q : 0 < q -> q <= energy q m.
Proof. intros H. rewrite energy_R. rewrite <- (sqrt_square q) at 1 by lra. apply sqrt_le_1_alt. nra. Qed.
Lemma energy_le q : 0 < q -> energy q m <= Rabs m + q.
Proof.
  intros H. rewrite energy_R. pose proof (Rabs_pos m). rewrite <- (sqrt_square (Rabs m + q)) by lra. apply sqrt_le_1_alt.
  assert (Rabs m * Rabs m = m * m) by (rewrite <- Rabs_mult; apply Rabs_right; nra). nra.
Qed.
Lemma Ob_energy : Ob 0 (fun q => energy q m).
Proof.
  pose proof (Rabs_pos m).
  exists (Rabs m + 1), 1%nat. split; [lra|]. intros q Hq. pose proof (energy_ge_q q Hq). pose proof (energy_le q Hq).
  rewrite Rabs_right by lra. cbn [pow]. rewrite !Rmult_1_r. eapply Rle_trans; [eassumption|]. nra.
Qed.
Lemma Ob_inv_energy : Ob 0 (fun q => / energy q m).
Proof. apply (Ob_inv_bounded _ (Rabs m)); [now apply Rabs_pos_lt|]. intros; apply energy_ge_m. Qed.

Lemma bose_bd b q : b0 <= b -> 0 < q ->
  0 < bose_distribution_zero_chempot (energy q m) b <= / (1 - exp (- (b0 * Rabs m))) * exp (- (b * energy q m)).
Proof.
  intros Hb Hq. unfold bose_distribution_zero_chempot, statistic_distribution_exponential_zero_chempot. numcbn.
  pose proof (energy_ge_m q) as E1. pose proof (Rabs_pos_lt m Hm) as M0. set (e := energy q m) in *.
  assert (X : b0 * Rabs m <= b * e) by (apply Rmult_le_compat; lra).
  assert (X0 : 0 < b0 * Rabs m) by (apply Rmult_lt_0_compat; lra).
  assert (A : exp (- (b0 * Rabs m)) < 1) by (rewrite <- exp_0; apply exp_increasing; lra).
  assert (B : exp (- (b * e)) <= exp (- (b0 * Rabs m))) by (destruct X as [X|X]; [left; apply exp_increasing; lra|right; f_equal; lra]).
  replace (e * b) with (b * e) by ring. pose proof (exp_pos (b * e)) as P. pose proof (exp_pos (- (b * e))) as P'.
  assert (PP : exp (b * e) * exp (- (b * e)) = 1) by (rewrite <- exp_plus; replace (b * e + - (b * e)) with 0 by ring; apply exp_0).
  assert (D : exp (b * e) * (1 - exp (- (b0 * Rabs m))) <= exp (b * e) - 1) by nra.
  assert (D0 : 0 < exp (b * e) * (1 - exp (- (b0 * Rabs m)))) by (apply Rmult_lt_0_compat; lra).
  split; [apply Rinv_0_lt_compat; lra|].
  apply Rle_trans with (/ (exp (b * e) * (1 - exp (- (b0 * Rabs m))))); [apply Rinv_le_contravar; auto|].
  right. rewrite Rinv_mult. rewrite (exp_Ropp (b * e)). ring.
Qed.
Lemma Rd_b_bose : Rd (fun b q => b * bose_distribution_zero_chempot (energy q m) b).
Proof.
  pose proof (Rabs_pos_lt m Hm) as M0. set (M := Rabs m) in *.
  assert (A0 : 0 < b0 * M) by (apply Rmult_lt_0_compat; auto).
  assert (A1 : exp (- (b0 * M)) < 1) by (rewrite <- exp_0; apply exp_increasing; lra).
  set (D := / (1 - exp (- (b0 * M)))). assert (HD : 0 < D) by (apply Rinv_0_lt_compat; lra).
  apply (Rd_exp _ (b0 / 2) (D * (16 / (M * M)))); [lra| |].
  { apply Rmult_le_pos; [lra|]. apply Rdiv_le_0_compat; nra. }
  intros b q Hb Hq. destruct (bose_bd b q Hb Hq) as [B0 B1]. fold M in B1. fold D in B1.
  pose proof (energy_ge_m q) as E1. fold M in E1. pose proof (energy_ge_q q Hq) as E2. set (e := energy q m) in *.
  rewrite Rabs_right by (apply Rle_ge, Rmult_le_pos; lra).
  assert (S1 : exp (- (b * e / 2)) <= 16 / (b * b * (M * M))).
  { set (x := b * M / 2). assert (x0 : 0 < x) by (unfold x; nra).
    assert (Hx : exp (- (b * e / 2)) <= exp (- x)).
    { assert (b * M <= b * e) by (apply Rmult_le_compat_l; lra). destruct (Req_dec (b * e / 2) x) as [->|N]; [lra|]. left. apply exp_increasing. unfold x in *. lra. }
    eapply Rle_trans; [exact Hx|]. rewrite exp_Ropp. pose proof (exp_ge_sq x (Rlt_le _ _ x0)) as G.
    replace (16 / (b * b * (M * M))) with (/ (x * x / 4)) by (unfold x; field; lra).
    apply Rinv_le_contravar; nra. }
  assert (S2 : exp (- (b * e / 2)) <= exp (- (b0 / 2 * q))).
  { assert (b0 * q <= b * e) by (apply Rmult_le_compat; lra). destruct (Req_dec (b * e / 2) (b0 / 2 * q)) as [->|N]; [lra|]. left. apply exp_increasing. lra. }
  replace (exp (- (b * e))) with (exp (- (b * e / 2)) * exp (- (b * e / 2))) in B1 by (rewrite <- exp_plus; f_equal; field).
  pose proof (exp_pos (- (b * e / 2))) as P0. pose proof (exp_pos (- (b0 / 2 * q))) as P1.
  replace (D * (16 / (M * M)) * exp (- (b0 / 2 * q)) / b) with (b * (D * (16 / (b * b * (M * M)) * exp (- (b0 / 2 * q))))) by (field; lra).
  apply Rmult_le_compat_l; [lra|]. eapply Rle_trans; [exact B1|]. apply Rmult_le_compat_l; [lra|]. apply Rmult_le_compat; lra.
Qed.
Lemma Rd_bose : Rd (fun b q => bose_distribution_zero_chempot (energy q m) b).
Proof. apply Rd_divb, Rd_b_bose. Qed.
Lemma Rd_nE : Rd (fun b q => nE q m b).
Proof. unfold nE. apply (Rd_mult _ (fun q => / energy q m)); [apply Rd_bose|apply Ob_inv_energy]. Qed.
Lemma bose_neg_bd : exists M, forall b q, b0 <= b -> 0 < q -> Rabs (bose_distribution_zero_chempot (- energy q m) b) <= M.
Proof.
  exists (1 + / (1 - exp (- (b0 * Rabs m)))). intros b q Hb Hq. pose proof (Rabs_pos_lt m Hm) as M0. pose proof (energy_ge_m q) as E1.
  assert (E : bose_distribution_zero_chempot (- energy q m) b = - 1 - bose_distribution_zero_chempot (energy q m) b).
  { unfold bose_distribution_zero_chempot, statistic_distribution_exponential_zero_chempot. numcbn. set (e := energy q m) in *.
    replace (- e * b) with (- (e * b)) by ring. rewrite exp_Ropp.
    assert (1 < exp (e * b)) by (rewrite <- exp_0; apply exp_increasing; nra). field. lra. }
  rewrite E. destruct (bose_bd b q Hb Hq) as [B0 B1].
  assert (A0 : 0 < b0 * Rabs m) by (apply Rmult_lt_0_compat; auto).
  assert (A1 : exp (- (b0 * Rabs m)) < 1) by (rewrite <- exp_0; apply exp_increasing; lra).
  assert (HD : 0 < / (1 - exp (- (b0 * Rabs m)))) by (apply Rinv_0_lt_compat; lra).
  assert (exp (- (b * energy q m)) <= 1).
  { rewrite <- exp_0. left. apply exp_increasing. nra. }
  assert (bose_distribution_zero_chempot (energy q m) b <= / (1 - exp (- (b0 * Rabs m)))) by (eapply Rle_trans; [exact B1|]; nra).
  rewrite Rabs_left1 by lra. lra.
Qed.
End Massive.

Lemma Rd_q_bose : Rd (fun b q => q * bose_distribution_zero_chempot q b).
Proof.
  apply (Rd_exp _ (b0 / 2) 2); [lra|lra|]. intros b q Hb Hq.
  unfold bose_distribution_zero_chempot, statistic_distribution_exponential_zero_chempot. numcbn.
  set (x := q * b). assert (x0 : 0 < x) by (unfold x; nra).
  assert (E : x / 2 * exp (x / 2) <= exp x - 1).
  { replace (exp x) with (exp (x / 2) * exp (x / 2)) by (rewrite <- exp_plus; f_equal; field).
    pose proof (exp_ge_lin (x / 2)). assert (1 < exp (x / 2)) by (rewrite <- exp_0; apply exp_increasing; lra). nra. }
  assert (P : 0 < exp (x / 2)) by apply exp_pos.
  assert (P2 : 0 < x / 2 * exp (x / 2)) by (apply Rmult_lt_0_compat; lra).
  assert (Q0 : 0 < / (exp x - 1)) by (apply Rinv_0_lt_compat; lra).
  rewrite (Rabs_right (q * / (exp x - 1))) by (apply Rle_ge, Rmult_le_pos; lra).
  apply Rle_trans with (q * / (x / 2 * exp (x / 2))).
  { apply Rmult_le_compat_l; [lra|]. apply Rinv_le_contravar; lra. }
  assert (S2 : exp (- (x / 2)) <= exp (- (b0 / 2 * q))).
  { assert (b0 * q <= x) by (unfold x; nra). destruct (Req_dec (x / 2) (b0 / 2 * q)) as [->|N]; [lra|]. left. apply exp_increasing. lra. }
  replace (q * / (x / 2 * exp (x / 2))) with (2 * exp (- (x / 2)) / b) by (rewrite exp_Ropp; unfold x in *; field; repeat split; lra).
  assert (I : 0 < / b) by (apply Rinv_0_lt_compat; lra). unfold Rdiv. apply Rmult_le_compat_r; lra.
Qed.
(** The massless factor n(q)/q times anything of second order. *)
Lemma Rd_n0 w : Ob 2 w -> Rd (fun b q => n0 q b * w q).
Proof.
  intros (K & k & K0 & H).
  apply (Rd_ext (fun b q => (q * bose_distribution_zero_chempot q b) * (w q * / (q * q)))).
  { intros b q Hb Hq. unfold n0. field. lra. }
  apply Rd_mult; [apply Rd_q_bose|]. exists K, k. split; auto. intros q Hq. specialize (H q Hq).
  rewrite Rabs_mult, Rabs_inv, (Rabs_right (q * q)) by nra.
  apply Rmult_le_reg_r with (q * q); [nra|]. replace (Rabs (w q) * / (q * q) * (q * q)) with (Rabs (w q)) by (field; lra). cbn [pow] in *. nra.
Qed.
Lemma Rd_bose0 w : Ob 1 w -> Rd (fun b q => bose_distribution_zero_chempot q b * w q).
Proof.
  intros (K & k & K0 & H).
  apply (Rd_ext (fun b q => (q * bose_distribution_zero_chempot q b) * (w q * / q))).
  { intros b q Hb Hq. field. lra. }
  apply Rd_mult; [apply Rd_q_bose|]. exists K, k. split; auto. intros q Hq. specialize (H q Hq).
  rewrite Rabs_mult, Rabs_inv, (Rabs_right q) by lra.
  apply Rmult_le_reg_r with q; [lra|]. replace (Rabs (w q) * / q * q) with (Rabs (w q)) by (field; lra). cbn [pow] in *. nra.
Qed.
End Decay.
