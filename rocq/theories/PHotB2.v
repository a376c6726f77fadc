(** * Bose integrals at high temperature: integration *)
From Coq Require Import Reals Psatz Lia.
From Coquelicot Require Import Coquelicot.
From Verif Require Import Num MCommon MThermal SpecInt SpecLim SpecHtl PDistr PVac PForms PForms2 PLim PInt PCold PBasel PWeights PBound PCompact PColdG PColdI PColdQ PDeriv PDeriv2 PHtl2 PHtl4 PDensity PHot PHotB.
Open Scope R_scope.

(** ** Compactified integrals are improper integrals *)
Lemma compact_ab (f : R -> R) a Q : 0 < a < Q -> (forall x, 0 < x -> continuous f x) -> is_RInt (compact_R f) (/ (1 + Q)) (/ (1 + a)) (RInt f a Q).
Proof.
  intros HQ Hf.
  assert (I1 : / (1 + Q) < / (1 + a)) by (apply Rinv_lt_contravar; nra). assert (I2 : / (1 + a) < 1) by (rewrite <- Rinv_1; apply Rinv_lt_contravar; lra). assert (I0 : 0 < / (1 + Q)) by (apply Rinv_0_lt_compat; lra).
  assert (S := is_RInt_comp f (fun t => (1 - t) / t) (fun t => - / (t * t)) (/ (1 + Q)) (/ (1 + a))).
  rewrite Rmin_left, Rmax_right in S by lra.
  assert (E1 : (1 - / (1 + Q)) / / (1 + Q) = Q) by (field; lra).
  assert (E2 : (1 - / (1 + a)) / / (1 + a) = a) by (field; lra). rewrite E1, E2 in S.
  assert (S' : is_RInt (fun y => scal (- / (y * y)) (f ((1 - y) / y))) (/ (1 + Q)) (/ (1 + a)) (RInt f Q a)).
  { apply S.
    - intros x Hx. apply Hf. apply Rdiv_lt_0_compat; lra.
    - intros x Hx. split.
      + auto_derive; [lra|]. field; lra.
      + apply (ex_derive_continuous (V := R_NormedModule)). auto_derive. nra. }
  apply (is_RInt_scal _ _ _ (-1)) in S'.
  replace (RInt f a Q) with (scal (-1) (RInt f Q a)).
  - apply is_RInt_ext with (2 := S'). intros x Hx. rewrite Rmin_left, Rmax_right in Hx by lra.
    unfold compact_R, scal; simpl; unfold mult; simpl. eqR. field. lra.
  - rewrite <- (opp_RInt_swap (V := R_CompleteNormedModule) f a Q).
    + unfold scal, opp; simpl; unfold mult; simpl. eqR. ring.
    + apply (ex_RInt_continuous (V := R_CompleteNormedModule)). intros x Hx. rewrite Rmin_left, Rmax_right in Hx by lra. apply Hf. lra.
Qed.
Lemma gen_of_compact (f : R -> R) (v : R) : (forall x, 0 < x -> continuous f x) -> is_RInt (compact_R f) 0 1 v -> is_RInt_gen f R0 INF v.
Proof.
  intros Hf Hv. destruct (ex_RInt_ub (compact_R f) 0 1) as [M0 HM0]; [eexists; exact Hv|]. rewrite Rmin_left, Rmax_right in HM0 by lra.
  set (M := Rmax M0 1). assert (HM : forall t, 0 <= t <= 1 -> Rabs (compact_R f t) <= M) by (intros t Ht; apply Rle_trans with M0; [apply HM0; exact Ht|apply Rmax_l]). assert (M1 : 1 <= M) by apply Rmax_r.
  apply gen_intro. intros eps He. set (d := eps / (4 * M)). assert (Hd : 0 < d) by (apply Rdiv_lt_0_compat; lra).
  exists (Rmin d (1 / 2)), (/ d + 1). split; [apply Rmin_glb_lt; lra|]. intros a Q Ha HQ.
  assert (A1 : a < d) by (eapply Rlt_le_trans; [apply Ha|apply Rmin_l]). assert (A2 : a < 1 / 2) by (eapply Rlt_le_trans; [apply Ha|apply Rmin_r]). pose proof (Rinv_0_lt_compat _ Hd) as ID.
  exists (RInt f a Q). split.
  - apply (RInt_correct (V := R_CompleteNormedModule)), (ex_RInt_continuous (V := R_CompleteNormedModule)). intros z Hz. rewrite Rmin_left, Rmax_right in Hz by lra. apply Hf. lra.
  - pose proof (compact_ab f a Q ltac:(lra) Hf) as V2.
    assert (I1 : / (1 + Q) < / (1 + a)) by (apply Rinv_lt_contravar; nra). assert (I2 : / (1 + a) < 1) by (rewrite <- Rinv_1; apply Rinv_lt_contravar; lra). assert (I0 : 0 < / (1 + Q)) by (apply Rinv_0_lt_compat; lra).
    assert (X1 : ex_RInt (compact_R f) 0 (/ (1 + Q))) by (apply (ex_RInt_Chasles_1 (V := R_CompleteNormedModule) _ 0 _ 1); [lra|eexists; exact Hv]).
    assert (X2 : ex_RInt (compact_R f) (/ (1 + a)) 1) by (apply (ex_RInt_Chasles_2 (V := R_CompleteNormedModule) _ 0 _ 1); [lra|eexists; exact Hv]).
    pose proof (RInt_correct (V := R_CompleteNormedModule) _ _ _ X1) as V1. pose proof (RInt_correct (V := R_CompleteNormedModule) _ _ _ X2) as V3.
    pose proof (is_RInt_Chasles (V := R_NormedModule) _ _ _ _ _ _ (is_RInt_Chasles (V := R_NormedModule) _ _ _ _ _ _ V1 V2) V3) as V. unfold plus in V; simpl in V. pose proof (uniq _ _ _ _ _ Hv V) as E.
    assert (B1 : Rabs (RInt (compact_R f) 0 (/ (1 + Q))) <= (/ (1 + Q) - 0) * M).
    { apply (norm_RInt_le_const (V := R_NormedModule) (compact_R f) 0 (/ (1 + Q)) _ M ltac:(lra)); [|exact V1]. intros x Hx. apply HM. lra. }
    assert (B3 : Rabs (RInt (compact_R f) (/ (1 + a)) 1) <= (1 - / (1 + a)) * M).
    { apply (norm_RInt_le_const (V := R_NormedModule) (compact_R f) (/ (1 + a)) 1 _ M ltac:(lra)); [|exact V3]. intros x Hx. apply HM. lra. }
    assert (D1 : / (1 + Q) < d). { rewrite <- (Rinv_inv d). apply Rinv_lt_contravar; [apply Rmult_lt_0_compat|]; lra. }
    assert (D3 : 1 - / (1 + a) < d). { replace (1 - / (1 + a)) with (a * / (1 + a)) by (field; lra). assert (0 < / (1 + a)) by lra. nra. }
    assert (DM : d * M = eps / 4) by (unfold d; field; lra).
    assert (F1 : (/ (1 + Q) - 0) * M <= eps / 4) by nra. assert (F3 : (1 - / (1 + a)) * M <= eps / 4) by nra.
    rewrite E. set (u := RInt (compact_R f) 0 (/ (1 + Q))) in *. set (w := RInt (compact_R f) (/ (1 + a)) 1) in *. set (y := RInt f a Q) in *. replace (y - (u + y + w)) with (- (u + w)) by ring. rewrite Rabs_Ropp.
    eapply Rle_lt_trans; [apply Rabs_triang|]. lra.
Qed.
Lemma gen_le (f h : R -> R) (u v : R) : is_RInt_gen f R0 INF u -> is_RInt_gen h R0 INF v -> (forall x, 0 < x -> f x <= h x) -> u <= v.
Proof.
  intros Hu Hv L. apply Rnot_lt_le. intros N. set (e := (u - v) / 2). assert (He : 0 < e) by (unfold e; lra).
  destruct (gen_elim f u Hu e He) as (d1 & M1 & D1 & K1). destruct (gen_elim h v Hv e He) as (d2 & M2 & D2 & K2).
  set (a := Rmin d1 d2 / 2). pose proof (Rmin_glb_lt _ _ _ D1 D2). pose proof (Rmin_l d1 d2). pose proof (Rmin_r d1 d2).
  set (Q := Rmax (Rmax M1 M2) a + 1). pose proof (Rmax_l (Rmax M1 M2) a). pose proof (Rmax_r (Rmax M1 M2) a). pose proof (Rmax_l M1 M2). pose proof (Rmax_r M1 M2).
  assert (Ha : 0 < a) by (unfold a; lra). assert (HQ : a < Q) by (unfold Q; lra).
  destruct (K1 a Q) as (y & Y1 & Y2); [unfold a; lra|unfold Q; lra|]. destruct (K2 a Q) as (z & Z1 & Z2); [unfold a; lra|unfold Q; lra|].
  assert (y <= z) by (apply (is_RInt_le f h a Q); auto; [lra|]; intros x Hx; apply L; lra). apply Rabs_def2 in Y2. apply Rabs_def2 in Z2. unfold e in *. lra.
Qed.
Lemma gen_uniq (f : R -> R) (u v : R) : is_RInt_gen f R0 INF u -> is_RInt_gen f R0 INF v -> u = v.
Proof. intros A B. apply Rle_antisym; eapply gen_le; eauto; intros; lra. Qed.

(** ** The Bose integral *)
Lemma gk_bose b q : 0 < q -> gk b q = q * bose_distribution_zero_chempot q b.
Proof. intros H. unfold gk. rewrite <- n0_gf by auto. unfold n0. field. lra. Qed.
Lemma gf_cont a b q : 0 < b -> 0 < a + q * q -> continuous (fun z : R => gf b (a + z * z)) q.
Proof.
  intros Hb H. apply (ex_derive_continuous (K := R_AbsRing) (V := R_NormedModule)). eexists. apply (gf_comp b (fun z => a + z * z) q (2 * q)); auto. auto_derive; auto. eqR; ring.
Qed.
Lemma mulc (f g : R -> R) q : continuous f q -> continuous g q -> continuous (fun z => f z * g z) q.
Proof. intros. now apply (continuous_mult (K := R_AbsRing) f g). Qed.
Lemma sq_c (q : R) : continuous (fun z : R => z * z) q.
Proof. apply (ex_derive_continuous (K := R_AbsRing) (V := R_NormedModule)). auto_derive. auto. Qed.
Lemma gk_c b q : 0 < b -> 0 < q -> continuous (gk b) q.
Proof.
  intros Hb Hq. unfold gk. apply (mulc (fun z => z * z) (fun z => gf b (z * z))); [apply sq_c|].
  apply (continuous_ext (fun z : R => gf b (0 + z * z))); [intros; f_equal; ring|]. apply gf_cont; nra.
Qed.
Lemma gk_dec b : 0 < b -> exists K, forall q, 0 < q -> gk b q * (1 + q) ^ 2 <= K.
Proof.
  intros Hb. destruct (Rd_q_bose b Hb 2%nat) as [K HK]. exists (K / b). intros q Hq. specialize (HK b q (Rle_refl b) Hq). rewrite <- gk_bose in HK by auto. rewrite Rabs_pos_eq in HK; auto. left. now apply gk_pos.
Qed.
Lemma gk_is b : 0 < b -> is_RInt (compact_R (gk b)) 0 1 (PI * PI / 6 / (b * b)).
Proof.
  intros Hb. destruct (gk_dec b Hb) as [K HK]. destruct (bounded_int (gk b) K) as (v & Hv & _).
  - intros q Hq. now apply gk_c.
  - intros q Hq. rewrite Rabs_pos_eq by (left; now apply gk_pos). auto.
  - pose proof (gen_of_compact (gk b) v (fun x H => gk_c b x Hb H) Hv) as G.
    assert (G2 : is_RInt_gen (gk b) R0 INF (/ (b * b) * (PI * PI / 6) + 0 * 0)).
    { apply (gen_ext (fun x => / (b * b) * (b * bose1 (b * x)) + 0 * 0)).
      - intros x Hx. rewrite gk_bose by auto. unfold bose1, bose_distribution_zero_chempot, statistic_distribution_exponential_zero_chempot. numcbn. assert (0 < b * x) by nra. pose proof (bose1_den (b * x) ltac:(auto)). replace (x * b) with (b * x) by ring. field. split; lra.
      - assert (Z : is_RInt_gen (fun _ : R => 0) R0 INF 0).
        { apply gen_intro. intros eps He. exists 1, 1. split; [lra|]. intros a c _ _. exists ((c - a) * 0). split; [apply (is_RInt_const (V := R_NormedModule))|]. rewrite Rmult_0_r, Rminus_0_r, Rabs_R0. auto. }
        apply gen_lin; [|exact Z]. apply (gen_scale bose1); auto. apply bose1_int. }
    rewrite (gen_uniq _ _ _ G G2) in Hv. replace (PI * PI / 6 / (b * b)) with (/ (b * b) * (PI * PI / 6) + 0 * 0) by (field; lra). exact Hv.
Qed.
Lemma clin (f g : R -> R) (c d u v : R) : is_RInt (compact_R f) 0 1 u -> is_RInt (compact_R g) 0 1 v -> is_RInt (compact_R (fun q => c * f q + d * g q)) 0 1 (c * u + d * v).
Proof.
  intros A B. eapply (is_RInt_ext (V := R_NormedModule)); [|exact (lin2 _ _ _ _ c d _ _ A B)]. intros t _. unfold compact_R, Rdiv. eqR. ring.
Qed.
Lemma iq_is : is_RInt (compact_R (fun q => / ((1 + q) * (1 + q)))) 0 1 1.
Proof.
  pose proof (is_RInt_const (V := R_NormedModule) 0 1 1) as C. unfold scal in C; simpl in C. unfold mult in C; simpl in C. replace ((1 - 0) * 1) with 1 in C by ring.
  eapply (is_RInt_ext (V := R_NormedModule)); [|exact C]. rewrite Rmin_left, Rmax_right by lra. intros t Ht. unfold compact_R. assert (E' : 1 + (1 - t) / t = / t) by (field; lra). rewrite E'. eqR. field. lra.
Qed.
Lemma HB_int (f h : R -> R -> R) (V U : R -> R) c u : (forall b, 0 < b < 1 -> is_RInt (compact_R (f b)) 0 1 (V b)) -> (forall b, 0 < b < 1 -> is_RInt (compact_R (h b)) 0 1 (U b)) ->
  HB (fun b q => f b q - h b q) c -> tends R0 (fun b => b * b * U b) u -> tends R0 (fun b => b * b * V b) (c * (PI * PI / 6) + u).
Proof.
  intros HV HU H L. pose proof PI_RGT_0 as P. set (A := PI * PI / 6). assert (A0 : 0 < A) by (unfold A; nra).
  enough (Z : tends R0 (fun b => b * b * V b - b * b * U b - c * A) 0).
  { apply (tends_ext (fun b => (b * b * V b - b * b * U b - c * A) + c * A + b * b * U b)); [apply filter_forall; intros; ring|]. eapply tends_eq; [|apply tends_plus; [apply tends_plus; [exact Z|apply tends_const]|exact L]]. ring. }
  apply filterlim_locally. intros [e He]. destruct (H (e / (4 * A))) as [K HK]; [apply Rdiv_lt_0_compat; lra|].
  set (d := Rmin 1 (e / (4 * (Rabs K + 1)))). pose proof (Rabs_pos K) as AK. assert (Hd : 0 < d) by (apply Rmin_glb_lt; [lra|apply Rdiv_lt_0_compat; lra]).
  apply (ev_right _ 0 d); auto. intros b [Hb0 Hb1]. assert (Hb : 0 < b < 1) by (split; auto; eapply Rlt_le_trans; [apply Hb1|apply Rmin_l]).
  assert (Hb2 : b * (Rabs K + 1) < e / 4). { assert (X : b < e / (4 * (Rabs K + 1))) by (eapply Rlt_le_trans; [apply Hb1|apply Rmin_r]). apply (Rmult_lt_compat_r (Rabs K + 1)) in X; [|lra]. replace (e / (4 * (Rabs K + 1)) * (Rabs K + 1)) with (e / 4) in X by (field; lra). exact X. }
  change (Rabs (b * b * V b - b * b * U b - c * A - 0) < e). rewrite Rminus_0_r.
  pose proof (gk_is b Hb0) as G. fold A in G. pose proof (clin _ _ 1 (-1) _ _ (HV b Hb) (HU b Hb)) as D1. pose proof (clin _ _ 1 (- c) _ _ D1 G) as D2. pose proof (clin _ _ (e / (4 * A)) (K * / b) _ _ G iq_is) as D3. pose proof (clin _ _ (- (e / (4 * A))) (- (K * / b)) _ _ G iq_is) as D4.
  assert (B : forall q, 0 < q -> Rabs (1 * (1 * f b q + -1 * h b q) + - c * gk b q) <= e / (4 * A) * gk b q + K * / b * / ((1 + q) * (1 + q))).
  { intros q Hq. specialize (HK b q Hb Hq). replace (1 * (1 * f b q + -1 * h b q) + - c * gk b q) with (f b q - h b q - c * gk b q) by ring. eapply Rle_trans; [exact HK|]. lra. }
  assert (B1 := compact_le _ _ _ _ D2 D3 (fun q Hq => Rle_trans _ _ _ (Rle_abs _) (B q Hq))).
  assert (B2 := compact_le _ _ _ _ D4 D2 (fun q Hq => ltac:(pose proof (B q Hq) as X; pose proof (Rabs_maj2 (1 * (1 * f b q + -1 * h b q) + - c * gk b q)); lra))).
  assert (b2 : 0 < b * b) by nra.
  assert (E1 : e / (4 * A) * (A / (b * b)) * (b * b) = e / 4) by (field; split; lra). assert (E2 : K * / b * 1 * (b * b) = K * b) by (field; lra). assert (E3 : A / (b * b) * (b * b) = A) by (field; lra).
  apply (Rmult_le_compat_r (b * b)) in B1; [|lra]. apply (Rmult_le_compat_r (b * b)) in B2; [|lra].
  assert (KB : Rabs (K * b) <= e / 4) by (rewrite Rabs_mult, (Rabs_pos_eq b) by lra; nra). apply Rabs_le_between in KB.
  set (v := V b) in *. set (w := U b) in *. rewrite !Rmult_plus_distr_r in B1, B2. rewrite ?E1, ?E2 in B1.
  replace (- (e / (4 * A)) * (A / (b * b)) * (b * b)) with (- (e / 4)) in B2 by (field; split; lra). replace (- (K * / b) * 1 * (b * b)) with (- (K * b)) in B2 by (field; lra).
  replace (- c * (A / (b * b)) * (b * b)) with (- (c * A)) in B1, B2 by (field; lra).
  apply Rabs_def1; lra.
Qed.

(** ** The difference of the massive and massless tadpoles *)
Section Tad.
Variable m : R.
Hypothesis Hm : m <> 0.
Let M2 : 0 < m * m. Proof. nra. Qed.
Definition Q4 (b q : R) : R := q * q * (q * q) * ((nE q m b - n0 q b) / (m * m)).
Definition q2nE (b q : R) : R := q * q * nE q m b.
Lemma nE_c b q : 0 < b -> 0 < q -> continuous (fun z => nE z m b) q.
Proof. intros Hb Hq. apply (continuous_ext (fun z : R => gf b (m * m + z * z))); [intros; symmetry; apply nE_gf|]. apply gf_cont; nra. Qed.
Lemma q2nE_c b q : 0 < b -> 0 < q -> continuous (q2nE b) q.
Proof. intros Hb Hq. unfold q2nE. apply (mulc (fun z => z * z) (fun z => nE z m b)); [apply sq_c|now apply nE_c]. Qed.
Lemma Q4_eq b q : 0 < q -> Q4 b q = / (m * m) * (q * q * q2nE b q + -1 * (q * q * gk b q)).
Proof. intros Hq. unfold Q4, q2nE, gk. rewrite n0_gf by auto. field. auto. Qed.
Lemma Q4_c b q : 0 < b -> 0 < q -> continuous (Q4 b) q.
Proof.
  intros Hb Hq. apply (continuous_ext_loc _ (fun q => / (m * m) * (q * q * q2nE b q + -1 * (q * q * gk b q)))).
  - exists (mkposreal q Hq). intros y Hy. apply Rabs_def2 in Hy. cbn in Hy. unfold minus, plus, opp in Hy; cbn in Hy. symmetry. apply Q4_eq. lra.
  - apply (mulc (fun _ => / (m * m))); [apply continuous_const|]. apply (continuous_plus (V := R_NormedModule) (fun q => q * q * q2nE b q) (fun q => -1 * (q * q * gk b q))).
    + apply (mulc (fun z => z * z)); [apply sq_c|now apply q2nE_c].
    + apply (mulc (fun _ => -1)); [apply continuous_const|]. apply (mulc (fun z => z * z)); [apply sq_c|now apply gk_c].
Qed.
Lemma gk_dec4 b : 0 < b -> exists K, forall q, 0 < q -> gk b q * (1 + q) ^ 4 <= K.
Proof.
  intros Hb. destruct (Rd_q_bose b Hb 4%nat) as [K HK]. exists (K / b). intros q Hq. specialize (HK b q (Rle_refl b) Hq). rewrite <- gk_bose in HK by auto. rewrite Rabs_pos_eq in HK; auto. left. now apply gk_pos.
Qed.
Lemma q2nE_is b : 0 < b -> exists v, is_RInt (compact_R (q2nE b)) 0 1 v.
Proof.
  intros Hb. destruct (gk_dec b Hb) as [K HK]. destruct (bounded_int (q2nE b) K) as (v & Hv & _); [intros; now apply q2nE_c| |now exists v].
  intros q Hq. pose proof (nE_le m Hm b q Hb Hq) as [N _]. pose proof (nE_gk m Hm b q Hb Hq) as L. unfold q2nE. assert (0 < q * q) by nra. rewrite Rabs_pos_eq by nra. eapply Rle_trans; [|apply HK; exact Hq]. apply Rmult_le_compat_r; auto. apply pow_le. lra.
Qed.
Lemma Q4_is b : 0 < b -> exists v, is_RInt (compact_R (Q4 b)) 0 1 v.
Proof.
  intros Hb. destruct (gk_dec4 b Hb) as [K HK]. destruct (bounded_int (Q4 b) (/ (m * m) * K)) as (v & Hv & _); [intros; now apply Q4_c| |now exists v].
  intros q Hq. pose proof (nE_le m Hm b q Hb Hq) as [N _]. pose proof (nE_gk m Hm b q Hb Hq) as L. pose proof (gk_pos b q Hb Hq) as G. rewrite Q4_eq by auto. assert (0 < q * q) by nra. unfold q2nE. set (x := q * q * nE q m b) in *. assert (0 < x) by (unfold x; nra). pose proof (Rinv_0_lt_compat _ M2) as I.
  replace (q * q * x + -1 * (q * q * gk b q)) with (- (q * q * (gk b q - x))) by ring. rewrite Rabs_mult, Rabs_Ropp, (Rabs_pos_eq (/ (m * m))), (Rabs_pos_eq (q * q * (gk b q - x))) by nra. rewrite Rmult_assoc. apply Rmult_le_compat_l; [lra|].
  eapply Rle_trans; [|apply HK; exact Hq]. replace (gk b q * (1 + q) ^ 4) with ((1 + q) * (1 + q) * gk b q * (1 + q) ^ 2) by ring. apply Rmult_le_compat_r; [apply pow_le; lra|]. apply Rmult_le_compat; nra.
Qed.

(** integration by parts *)
Lemma parts_int a b v : 0 <= a -> 0 < b -> is_RInt_gen (fun q => q * q * gf b (a + q * q)) R0 INF v -> is_RInt_gen (fun q => q * q * (q * q) * mg b (a + q * q)) R0 INF (3 / 2 * v).
Proof.
  intros Ha Hb Hv. set (F := fun q => - (q * q * q * gf b (a + q * q) / 2)). set (f := fun q => q * q * (q * q) * mg b (a + q * q) - 3 / 2 * (q * q * gf b (a + q * q))).
  assert (P : forall q, 0 < q -> 0 < a + q * q) by (intros; nra).
  assert (G : is_RInt_gen f R0 INF (0 - 0)).
  { apply (gen_ftc_pos F f).
    - intros q Hq. specialize (P q Hq). pose proof (gf_d b Hb _ P) as D.
      unfold F. auto_derive; [repeat split; eexists; exact D|]. change (Derive (fun x => gf b x)) with (Derive (gf b)). rewrite (is_derive_unique _ _ _ D). rewrite mg_gf' by auto. unfold f. eqR. field.
    - intros q Hq. specialize (P q Hq). unfold f. apply (continuous_minus (V := R_NormedModule) (fun q => q * q * (q * q) * mg b (a + q * q)) (fun q => 3 / 2 * (q * q * gf b (a + q * q)))).
      + apply (mulc (fun q => q * q * (q * q)) (fun q => mg b (a + q * q))); [apply (mulc (fun q => q * q) (fun q => q * q)); apply sq_c|].
        pose proof (ns_den b Hb _ P) as D1. pose proof (sqrt_lt_R0 _ P) as D2.
        apply (ex_derive_continuous (K := R_AbsRing) (V := R_NormedModule)). unfold mg, ns. auto_derive. repeat split; auto; lra.
      + apply (mulc (fun _ => 3 / 2)); [apply continuous_const|]. apply (mulc (fun q => q * q) (fun q => gf b (a + q * q))); [apply sq_c|now apply gf_cont].
    - apply (tends_squeeze0 _ (fun q => q * / b)).
      + apply (ev_right _ 0 1); [lra|]. intros q [Hq _]. specialize (P q Hq). unfold F. rewrite Rabs_Ropp. pose proof (gf_pos b Hb _ P) as G0. pose proof (gf_anti b Hb (q * q) (a + q * q) ltac:(nra)) as G1. pose proof (gk_le b q Hb Hq) as G2. unfold gk in G2.
        assert (0 < q * q) by nra. set (y := gf b (a + q * q)) in *. clearbody y. assert (Z0 : 0 <= q * q * q * y / 2) by (unfold Rdiv; repeat apply Rmult_le_pos; lra). rewrite (Rabs_pos_eq _ Z0).
        assert (q * q * y <= / b) by nra. assert (0 <= q * q * y) by nra. unfold Rdiv. nra.
      + apply (tends_eq _ (0 * / b)); [ring|]. apply tends_mult; [apply tends_id_right|apply tends_const].
    - destruct (gk_dec b Hb) as [K HK]. apply (tends_squeeze0 _ (fun q => K * / q)).
      + exists 1. intros q Hq. assert (Hq0 : 0 < q) by lra. specialize (P q Hq0). unfold F. rewrite Rabs_Ropp. pose proof (gf_pos b Hb _ P) as G0. pose proof (gf_anti b Hb (q * q) (a + q * q) ltac:(nra)) as G1. specialize (HK q Hq0). pose proof (gk_pos b q Hb Hq0) as G2.
        assert (0 < q * q) by nra. assert (Y : q * q * gf b (a + q * q) <= gk b q) by (unfold gk; nra). set (y := gf b (a + q * q)) in *. set (g := gk b q) in *. clearbody y g. rewrite Rabs_pos_eq by (unfold Rdiv; repeat apply Rmult_le_pos; lra).
        apply (Rmult_le_reg_r q); auto. replace (K * / q * q) with K by (field; lra). eapply Rle_trans; [|exact HK].
        replace (q * q * q * y / 2 * q) with (q * q / 2 * (q * q * y)) by field. replace (g * (1 + q) ^ 2) with ((1 + q) * (1 + q) * g) by ring. apply Rmult_le_compat; nra.
      + apply (tends_eq _ (K * 0)); [ring|]. apply tends_mult; [apply tends_const|apply tends_inv_infty]. }
  apply (gen_ext (fun q => 1 * f q + 3 / 2 * (q * q * gf b (a + q * q)))); [intros; unfold f; ring|].
  replace (3 / 2 * v) with (1 * (0 - 0) + 3 / 2 * v) by ring. now apply gen_lin.
Qed.
Lemma Q4_bounds b v w : 0 < b -> is_RInt (compact_R (Q4 b)) 0 1 v -> is_RInt (compact_R (q2nE b)) 0 1 w -> 3 / 2 * w <= - v <= 3 / 2 * (PI * PI / 6 / (b * b)).
Proof.
  intros Hb Hv Hw.
  pose proof (gen_of_compact _ _ (fun q H => Q4_c b q Hb H) Hv) as GV. pose proof (gen_of_compact _ _ (fun q H => q2nE_c b q Hb H) Hw) as GW. pose proof (gen_of_compact _ _ (fun q H => gk_c b q Hb H) (gk_is b Hb)) as GG.
  assert (P1 : is_RInt_gen (fun q => q * q * (q * q) * mg b (m * m + q * q)) R0 INF (3 / 2 * w)).
  { apply parts_int; [lra|auto|]. apply (gen_ext (q2nE b)); [|exact GW]. intros q _. unfold q2nE. now rewrite nE_gf. }
  assert (P0 : is_RInt_gen (fun q => q * q * (q * q) * mg b (0 + q * q)) R0 INF (3 / 2 * (PI * PI / 6 / (b * b)))).
  { apply parts_int; [lra|auto|]. apply (gen_ext (gk b)); [|exact GG]. intros q _. unfold gk. now rewrite Rplus_0_l. }
  assert (N : is_RInt_gen (fun q => -1 * Q4 b q + 0 * Q4 b q) R0 INF (-1 * v + 0 * v)) by now apply gen_lin.
  replace (- v) with (-1 * v + 0 * v) by ring.
  assert (X : forall q, 0 < q -> -1 * Q4 b q + 0 * Q4 b q = q * q * (q * q) * ((gf b (q * q) - gf b (m * m + q * q)) / (m * m))).
  { intros q Hq. unfold Q4. rewrite nE_gf, n0_gf by auto. field. auto. }
  assert (Y : forall q, 0 < q -> 0 < q * q * (q * q)) by (intros; assert (0 < q * q) by nra; nra).
  split.
  - apply (gen_le _ _ _ _ P1 N). intros q Hq. rewrite X by auto. apply Rmult_le_compat_l; [left; auto|]. apply gf_diff; nra.
  - apply (gen_le _ _ _ _ N P0). intros q Hq. rewrite X by auto. apply Rmult_le_compat_l; [left; auto|]. rewrite Rplus_0_l. apply gf_diff; nra.
Qed.
Lemma q2_HB : HB q2nE 1.
Proof.
  apply (HB_ext _ (fun b q => nE q m b * (q * q))); [intros; unfold q2nE; ring|]. apply (HB_nE m Hm (fun q => q * q)).
  - exists 1, 2%nat. split; [lra|]. intros q Hq. rewrite Rabs_pos_eq by nra. simpl. nra.
  - apply (tends_ext (fun _ => 1)); [exists 0; intros q Hq; field; lra|apply tends_const].
Qed.
Lemma zero_is : is_RInt (compact_R (fun _ => 0)) 0 1 0.
Proof. eapply (is_RInt_ext (V := R_NormedModule)); [|apply is_RInt_zero]. intros t _. unfold compact_R, Rdiv. eqR. ring. Qed.
Lemma q2_lim (W : R -> R) : (forall b, 0 < b < 1 -> is_RInt (compact_R (q2nE b)) 0 1 (W b)) -> tends R0 (fun b => b * b * W b) (PI * PI / 6).
Proof.
  intros H. eapply tends_eq; [|apply (HB_int q2nE (fun _ _ => 0) W (fun _ => 0) 1 0 H)].
  - ring.
  - intros; apply zero_is.
  - apply (HB_ext _ q2nE); [intros; ring|apply q2_HB].
  - apply (tends_ext (fun _ => 0)); [apply filter_forall; intros; ring|apply tends_const].
Qed.
Lemma Q4_lim (V : R -> R) : (forall b, 0 < b < 1 -> is_RInt (compact_R (Q4 b)) 0 1 (V b)) -> tends R0 (fun b => b * b * V b) (- (PI * PI / 4)).
Proof.
  intros H. set (W := fun b => RInt (compact_R (q2nE b)) 0 1).
  assert (HW : forall b, 0 < b < 1 -> is_RInt (compact_R (q2nE b)) 0 1 (W b)) by (intros b Hb; apply (RInt_correct (V := R_CompleteNormedModule)), q2nE_is; lra).
  pose proof (q2_lim W HW) as L. set (A := PI * PI / 6) in *.
  assert (Z : tends R0 (fun b => - (b * b * V b) - 3 / 2 * A) 0).
  { apply (tends_squeeze0 _ (fun b => 3 / 2 * (A - b * b * W b))).
    - apply (ev_right _ 0 1); [lra|]. intros b Hb. destruct (Q4_bounds b _ _ (proj1 Hb) (H b Hb) (HW b Hb)) as [B1 B2]. fold A in B2.
      assert (b2 : 0 < b * b) by nra. apply (Rmult_le_compat_l (b * b)) in B1; [|lra]. apply (Rmult_le_compat_l (b * b)) in B2; [|lra].
      replace (b * b * (3 / 2 * (A / (b * b)))) with (3 / 2 * A) in B2 by (field; lra). apply Rabs_le. split; nra.
    - apply (tends_eq _ (3 / 2 * (A - A))); [ring|]. apply tends_mult; [apply tends_const|]. apply tends_minus; [apply tends_const|exact L]. }
  apply (tends_ext (fun b => - (- (b * b * V b) - 3 / 2 * A) - 3 / 2 * A)); [apply filter_forall; intros; ring|].
  eapply tends_eq; [|apply tends_minus; [apply tends_opp; exact Z|apply tends_const]]. unfold A. field.
Qed.
End Tad.
