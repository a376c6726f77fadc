(** * High-temperature limit of integrals against the Bose distribution *)
From Coq Require Import Reals Psatz Lia.
From Coquelicot Require Import Coquelicot.
From Verif Require Import Num MCommon MThermal SpecInt SpecLim SpecHtl PDistr PVac PForms PForms2 PLim PInt PCold PBasel PWeights PBound PCompact PColdG PColdI PColdQ PDeriv PDeriv2 PHtl2 PHtl4 PDensity PHot.
Open Scope R_scope.

(** ** The occupation number as a function of the squared energy *)
Section N.
Variable b : R.
Hypothesis Hb : 0 < b.
Lemma n0_gf q : 0 < q -> n0 q b = gf b (q * q).
Proof. intros H. unfold n0, gf, ns. rewrite sqrt_square by lra. reflexivity. Qed.
Lemma ns_pos x : 0 < x -> 0 < ns b x.
Proof. intros H. unfold ns. apply Rinv_0_lt_compat. now apply ns_den. Qed.
Lemma ns_le x : 0 < x -> ns b x <= / (b * sqrt x).
Proof.
  intros H. pose proof (sqrt_lt_R0 x H) as S. unfold ns. apply Rinv_le_contravar; [nra|]. pose proof (exp_ge_lin (sqrt x * b)). lra.
Qed.
Lemma ns_sq_le x : 0 < x -> ns b x * (1 + ns b x) <= 4 / (b * b * x).
Proof.
  intros H. pose proof (sqrt_lt_R0 x H) as S. set (y := sqrt x * b). assert (Y : 0 < y) by (unfold y; nra).
  assert (X : x = sqrt x * sqrt x) by (symmetry; apply sqrt_sqrt; lra).
  replace (4 / (b * b * x)) with (4 / (y * y)) by (unfold y; rewrite X at 3; field; split; lra).
  assert (E : 1 + y + y * y / 4 <= exp y).
  { replace y with (y / 2 + y / 2) at 4 by field. rewrite exp_plus. pose proof (exp_ge_lin (y / 2)). nra. }
  unfold ns. fold y. set (t := exp y) in *. set (d := t - 1). assert (T1 : y + y * y / 4 <= d) by (unfold d; lra). assert (Y2 : 0 < y * y) by nra. assert (D : 0 < d) by lra. clearbody d. clear E t.
  replace (/ d * (1 + / d)) with ((d + 1) / (d * d)) by (field; lra).
  apply (Rmult_le_reg_r (d * d * (y * y))); [repeat apply Rmult_lt_0_compat; lra|].
  replace ((d + 1) / (d * d) * (d * d * (y * y))) with (d * (y * y) + y * y) by (field; lra).
  replace (4 / (y * y) * (d * d * (y * y))) with (4 * (d * d)) by (field; lra).
  assert (A : d * (y * y) <= d * (4 * d - 4 * y)) by (apply Rmult_le_compat_l; lra). assert (B : y * y <= d * y) by (apply Rmult_le_compat_r; lra). assert (0 < d * y) by nra. nra.
Qed.
Lemma gf_pos x : 0 < x -> 0 < gf b x.
Proof. intros H. unfold gf. apply Rdiv_lt_0_compat; [now apply ns_pos|now apply sqrt_lt_R0]. Qed.
Lemma gf_le x : 0 < x -> gf b x <= / (b * x).
Proof.
  intros H. pose proof (sqrt_lt_R0 x H) as S. assert (X : x = sqrt x * sqrt x) by (symmetry; apply sqrt_sqrt; lra). unfold gf, Rdiv.
  replace (/ (b * x)) with (/ (b * sqrt x) * / sqrt x) by (rewrite X at 3; field; split; lra). apply Rmult_le_compat_r; [left; now apply Rinv_0_lt_compat|now apply ns_le].
Qed.
Lemma ns_anti x y : 0 < x <= y -> ns b y <= ns b x.
Proof.
  intros H. unfold ns. apply Rinv_le_contravar; [apply ns_den; lra|]. apply Rplus_le_compat_r. assert (sqrt x <= sqrt y) by (apply sqrt_le_1; lra).
  assert (E : sqrt x * b <= sqrt y * b) by (apply Rmult_le_compat_r; lra). destruct E as [E|E]; [left; now apply exp_increasing|rewrite E; lra].
Qed.
Lemma is_anti x y : 0 < x <= y -> / sqrt y <= / sqrt x.
Proof. intros H. apply Rinv_le_contravar; [apply sqrt_lt_R0; lra|apply sqrt_le_1; lra]. Qed.
Lemma gf_anti x y : 0 < x <= y -> gf b y <= gf b x.
Proof.
  intros H. unfold gf, Rdiv. apply Rmult_le_compat; [left; apply ns_pos; lra|left; apply Rinv_0_lt_compat, sqrt_lt_R0; lra|now apply ns_anti|now apply is_anti].
Qed.
Definition mg (x : R) : R := (b * (ns b x * (1 + ns b x)) * / sqrt x + ns b x * (/ sqrt x * / sqrt x)) * (/ 2 * / sqrt x).
Lemma mg_gf' x : 0 < x -> gf' b x = - mg x.
Proof. intros H. pose proof (sqrt_lt_R0 x H). unfold gf', mg. replace (ns b x / x) with (ns b x / (sqrt x * sqrt x)) by (rewrite sqrt_sqrt; lra). field. lra. Qed.
Lemma mg_anti x y : 0 < x <= y -> 0 < mg y <= mg x.
Proof.
  intros H. assert (P : forall z, 0 < z -> 0 < ns b z /\ 0 < / sqrt z) by (intros z Hz; split; [now apply ns_pos|now apply Rinv_0_lt_compat, sqrt_lt_R0]).
  destruct (P x ltac:(lra)) as [X1 X2]. destruct (P y ltac:(lra)) as [Y1 Y2]. pose proof (ns_anti x y H) as A. pose proof (is_anti x y H) as B. unfold mg.
  set (n := ns b x) in *. set (n' := ns b y) in *. set (s := / sqrt x) in *. set (s' := / sqrt y) in *. clearbody n n' s s'.
  assert (C1 : 0 < n' * (1 + n') <= n * (1 + n)) by nra. assert (C2 : 0 < s' * s' <= s * s) by nra.
  assert (C3 : 0 < b * (n' * (1 + n')) <= b * (n * (1 + n))) by nra. set (u := b * (n * (1 + n))) in *. set (u' := b * (n' * (1 + n'))) in *. clearbody u u'.
  assert (C4 : 0 < u' * s' <= u * s) by nra. assert (C5 : 0 < n' * (s' * s') <= n * (s * s)) by nra. split; [nra|]. apply Rmult_le_compat; nra.
Qed.
Lemma mg_le x : 0 < x -> mg x <= 5 / 2 / (b * (x * x)).
Proof.
  intros H. pose proof (sqrt_lt_R0 x H) as S. assert (X : x = sqrt x * sqrt x) by (symmetry; apply sqrt_sqrt; lra). pose proof (ns_le x H) as A. pose proof (ns_sq_le x H) as B.
  unfold mg. rewrite X in B at 3. rewrite X at 8 9. set (s := sqrt x) in *. pose proof (Rinv_0_lt_compat _ S) as I.
  replace (5 / 2 / (b * (s * s * (s * s)))) with ((b * (4 / (b * b * (s * s))) * / s + / (b * s) * (/ s * / s)) * (/ 2 * / s)) by (field; split; lra).
  apply Rmult_le_compat_r; [nra|]. apply Rplus_le_compat.
  - apply Rmult_le_compat_r; [lra|]. apply Rmult_le_compat_l; lra.
  - apply Rmult_le_compat_r; [nra|exact A].
Qed.
(** mean value: both one-sided estimates of the difference quotient *)
Lemma gf_diff x d : 0 < x -> 0 < d -> mg (d + x) <= (gf b x - gf b (d + x)) / d <= mg x.
Proof.
  intros Hx Hd. destruct (MVT_gen (gf b) x (d + x) (gf' b)) as (z & Hz & E).
  - intros z Hz. rewrite Rmin_left, Rmax_right in Hz by lra. apply gf_d; lra.
  - intros z Hz. rewrite Rmin_left, Rmax_right in Hz by lra. apply continuity_pt_filterlim. apply (ex_derive_continuous (K := R_AbsRing) (V := R_NormedModule)). eexists. apply gf_d; lra.
  - rewrite Rmin_left, Rmax_right in Hz by lra. assert (F : (gf b x - gf b (d + x)) / d = mg z).
    { replace (gf b x - gf b (d + x)) with (- (gf b (d + x) - gf b x)) by ring. rewrite E, mg_gf' by lra. field. lra. }
    rewrite F. split; apply mg_anti; lra.
Qed.
End N.

(** ** Asymptotics under the integral *)
Definition gk (b q : R) : R := q * q * gf b (q * q).
Definition HB (f : R -> R -> R) (c : R) : Prop := forall eps, 0 < eps -> exists K, forall b q, 0 < b < 1 -> 0 < q ->
  Rabs (f b q - c * gk b q) <= eps * gk b q + K * (/ b * / ((1 + q) * (1 + q))).
Lemma gk_pos b q : 0 < b -> 0 < q -> 0 < gk b q.
Proof. intros Hb Hq. unfold gk. assert (0 < q * q) by nra. apply Rmult_lt_0_compat; auto. now apply gf_pos. Qed.
Lemma gk_le b q : 0 < b -> 0 < q -> gk b q <= / b.
Proof.
  intros Hb Hq. unfold gk. assert (P : 0 < q * q) by nra. pose proof (gf_le b Hb _ P) as L. apply (Rmult_le_compat_l (q * q)) in L; [|lra].
  replace (q * q * / (b * (q * q))) with (/ b) in L by (field; split; lra). exact L.
Qed.
Lemma iq_pos b q : 0 < b -> 0 < q -> 0 < / b * / ((1 + q) * (1 + q)).
Proof. intros. apply Rmult_lt_0_compat; apply Rinv_0_lt_compat; nra. Qed.
Lemma HB_ext f h c : (forall b q, 0 < b < 1 -> 0 < q -> f b q = h b q) -> HB h c -> HB f c.
Proof. intros E H eps He. destruct (H eps He) as [K HK]. exists K. intros b q Hb Hq. rewrite E by auto. auto. Qed.
Lemma HB_eq f c d : c = d -> HB f c -> HB f d. Proof. now intros ->. Qed.
Lemma HB_plus f h c d : HB f c -> HB h d -> HB (fun b q => f b q + h b q) (c + d).
Proof.
  intros H G eps He. destruct (H (eps / 2) ltac:(lra)) as [K HK]. destruct (G (eps / 2) ltac:(lra)) as [L HL]. exists (K + L). intros b q Hb Hq. specialize (HK b q Hb Hq). specialize (HL b q Hb Hq).
  replace (f b q + h b q - (c + d) * gk b q) with ((f b q - c * gk b q) + (h b q - d * gk b q)) by ring. eapply Rle_trans; [apply Rabs_triang|]. lra.
Qed.
Lemma HB_scal k f c : HB f c -> HB (fun b q => k * f b q) (k * c).
Proof.
  intros H eps He. pose proof (Rabs_pos k) as A. destruct (H (eps / (Rabs k + 1))) as [K HK]; [apply Rdiv_lt_0_compat; lra|]. exists (Rabs k * K). intros b q Hb Hq. specialize (HK b q Hb Hq).
  replace (k * f b q - k * c * gk b q) with (k * (f b q - c * gk b q)) by ring. rewrite Rabs_mult. apply (Rmult_le_compat_l (Rabs k)) in HK; auto. eapply Rle_trans; [exact HK|].
  pose proof (gk_pos b q ltac:(lra) Hq) as G. assert (E : Rabs k * (eps / (Rabs k + 1)) <= eps).
  { apply (Rmult_le_reg_r (Rabs k + 1)); [lra|]. replace (Rabs k * (eps / (Rabs k + 1)) * (Rabs k + 1)) with (Rabs k * eps) by (field; lra). nra. }
  apply (Rmult_le_compat_r (gk b q)) in E; [|lra]. lra.
Qed.
Lemma HB_opp f c : HB f c -> HB (fun b q => - f b q) (- c).
Proof. intros H. apply (HB_ext _ (fun b q => -1 * f b q)); [intros; ring|]. apply (HB_eq _ (-1 * c)); [ring|]. now apply HB_scal. Qed.
Lemma HB_minus f h c d : HB f c -> HB h d -> HB (fun b q => f b q - h b q) (c - d).
Proof. intros H G. apply (HB_plus f (fun b q => - h b q) c (- d)); auto. now apply HB_opp. Qed.
Lemma HB_small f K : (forall b q, 0 < b < 1 -> 0 < q -> Rabs (f b q) <= K * (/ b * / ((1 + q) * (1 + q)))) -> HB f 0.
Proof. intros H eps He. exists K. intros b q Hb Hq. rewrite Rmult_0_l, Rminus_0_r. pose proof (gk_pos b q ltac:(lra) Hq). specialize (H b q Hb Hq). nra. Qed.

(** *** Massless leg *)
Lemma HB_n0 w c : Ob 2 w -> tends INF (fun q => w q / (q * q)) c -> HB (fun b q => n0 q b * w q) c.
Proof.
  intros (K & k & K0 & HO) L eps He. destruct (tends_INF_elim _ _ eps He L) as (M0 & HM). set (M := Rmax M0 1). pose proof (Rmax_l M0 1). pose proof (Rmax_r M0 1). fold M in H, H0.
  set (B := K * (1 + M) ^ k + Rabs c). exists (B * ((1 + M) * (1 + M))). intros b q Hb Hq. rewrite n0_gf by auto.
  pose proof (gk_pos b q ltac:(lra) Hq) as G. pose proof (gk_le b q ltac:(lra) Hq) as GL. pose proof (iq_pos b q ltac:(lra) Hq) as I. assert (Q2 : 0 < q * q) by nra.
  assert (PM : 0 <= (1 + M) ^ k) by (apply pow_le; lra). pose proof (Rabs_pos c) as AC. assert (B0 : 0 <= B) by (unfold B; nra).
  replace (gf b (q * q) * w q - c * gk b q) with (gk b q * (w q / (q * q) - c)) by (unfold gk; field; lra). rewrite Rabs_mult, (Rabs_pos_eq (gk b q)) by lra.
  destruct (Rle_lt_dec q M) as [C|C].
  - assert (D : Rabs (w q / (q * q) - c) <= B).
    { unfold Rminus. eapply Rle_trans; [apply Rabs_triang|]. rewrite Rabs_Ropp. unfold B. apply Rplus_le_compat_r. specialize (HO q Hq). unfold Rdiv. rewrite Rabs_mult, (Rabs_pos_eq (/ (q * q))) by (left; now apply Rinv_0_lt_compat).
      apply (Rmult_le_reg_r (q * q)); auto. rewrite Rmult_assoc, Rinv_l, Rmult_1_r by lra. eapply Rle_trans; [exact HO|]. replace (K * q ^ 2 * (1 + q) ^ k) with (K * (1 + q) ^ k * (q * q)) by ring.
      apply Rmult_le_compat_r; [lra|]. apply Rmult_le_compat_l; auto. apply pow_incr. lra. }
    assert (X : / b <= (1 + M) * (1 + M) * (/ b * / ((1 + q) * (1 + q)))).
    { apply (Rmult_le_reg_r (b * ((1 + q) * (1 + q)))); [apply Rmult_lt_0_compat; nra|]. replace (/ b * (b * ((1 + q) * (1 + q)))) with ((1 + q) * (1 + q)) by (field; lra).
      replace ((1 + M) * (1 + M) * (/ b * / ((1 + q) * (1 + q))) * (b * ((1 + q) * (1 + q)))) with ((1 + M) * (1 + M)) by (field; split; lra). nra. }
    apply Rle_trans with (B * ((1 + M) * (1 + M)) * (/ b * / ((1 + q) * (1 + q)))); [|nra]. rewrite Rmult_assoc. rewrite (Rmult_comm (gk b q)). apply Rmult_le_compat; auto using Rabs_pos; lra.
  - specialize (HM q ltac:(lra)). assert (gk b q * Rabs (w q / (q * q) - c) <= gk b q * eps) by (apply Rmult_le_compat_l; lra). assert (0 <= B * ((1 + M) * (1 + M))) by nra. nra.
Qed.

(** *** Massive leg *)
Section Massive.
Variable m : R.
Hypothesis Hm : m <> 0.
Let M2 : 0 < m * m. Proof. nra. Qed.
Definition C1 : R := 2 * (1 + / (m * m)).
Lemma C1_pos : 0 < C1. Proof. unfold C1. pose proof (Rinv_0_lt_compat _ M2). lra. Qed.
Lemma inv_E b q : 0 < b -> 0 < q -> / (b * (m * m + q * q)) <= C1 * (/ b * / ((1 + q) * (1 + q))).
Proof.
  intros Hb Hq. assert (Q : 0 < m * m + q * q) by nra. apply (Rmult_le_reg_r (b * (m * m + q * q) * ((1 + q) * (1 + q)))); [repeat apply Rmult_lt_0_compat; lra|].
  replace (/ (b * (m * m + q * q)) * (b * (m * m + q * q) * ((1 + q) * (1 + q)))) with ((1 + q) * (1 + q)) by (field; split; lra).
  replace (C1 * (/ b * / ((1 + q) * (1 + q))) * (b * (m * m + q * q) * ((1 + q) * (1 + q)))) with (C1 * (m * m + q * q)) by (field; split; lra).
  unfold C1. pose proof (Rinv_0_lt_compat _ M2). assert (E : 2 * (1 + / (m * m)) * (m * m + q * q) = 2 * (m * m) + 2 * (q * q) + 2 + 2 * (/ (m * m) * (q * q))) by (field; lra). rewrite E. assert (0 <= / (m * m) * (q * q)) by nra. nra.
Qed.
Lemma nE_le b q : 0 < b -> 0 < q -> 0 < nE q m b <= C1 * (/ b * / ((1 + q) * (1 + q))).
Proof.
  intros Hb Hq. assert (Q : 0 < m * m + q * q) by nra. rewrite nE_gf. split; [now apply gf_pos|]. eapply Rle_trans; [now apply gf_le|now apply inv_E].
Qed.
Lemma nE_gk b q : 0 < b -> 0 < q -> q * q * nE q m b <= gk b q.
Proof. intros Hb Hq. rewrite nE_gf. unfold gk. apply Rmult_le_compat_l; [nra|]. apply gf_anti; nra. Qed.
Definition C2 : R := 4 * (1 + 5 / 2 * (m * m)).
Lemma nE_gk_diff b q : 0 < b -> 0 < q -> gk b q - q * q * nE q m b <= C2 * (/ b * / ((1 + q) * (1 + q))).
Proof.
  intros Hb Hq. assert (Q : 0 < q * q) by nra. pose proof (Rinv_0_lt_compat _ Hb) as IB.
  assert (A : gk b q - q * q * nE q m b <= / b). { pose proof (gk_le b q Hb Hq). pose proof (nE_le b q Hb Hq). nra. }
  assert (B : gk b q - q * q * nE q m b <= 5 / 2 * (m * m) * / b * / (q * q)).
  { rewrite nE_gf. unfold gk. destruct (gf_diff b Hb (q * q) (m * m) Q M2) as [_ D]. pose proof (mg_le b Hb _ Q) as E.
    assert (F : gf b (q * q) - gf b (m * m + q * q) <= m * m * (5 / 2 / (b * (q * q * (q * q))))).
    { apply (Rmult_le_reg_r (/ (m * m))); [now apply Rinv_0_lt_compat|]. replace (m * m * (5 / 2 / (b * (q * q * (q * q)))) * / (m * m)) with (5 / 2 / (b * (q * q * (q * q)))) by (field; repeat split; lra). unfold Rdiv in D at 1. lra. }
    apply (Rmult_le_compat_l (q * q)) in F; [|lra]. replace (q * q * (m * m * (5 / 2 / (b * (q * q * (q * q)))))) with (5 / 2 * (m * m) * / b * / (q * q)) in F by (field; split; lra). lra. }
  set (D := gk b q - q * q * nE q m b) in *. clearbody D.
  apply (Rmult_le_reg_r (b * ((1 + q) * (1 + q)))); [apply Rmult_lt_0_compat; nra|].
  replace (C2 * (/ b * / ((1 + q) * (1 + q))) * (b * ((1 + q) * (1 + q)))) with C2 by (field; split; lra).
  destruct (Rle_lt_dec q 1) as [C|C].
  - apply Rle_trans with (/ b * (b * ((1 + q) * (1 + q)))); [apply Rmult_le_compat_r; [apply Rmult_le_pos; nra|exact A]|]. replace (/ b * (b * ((1 + q) * (1 + q)))) with ((1 + q) * (1 + q)) by (field; lra). unfold C2. nra.
  - apply Rle_trans with (5 / 2 * (m * m) * / b * / (q * q) * (b * ((1 + q) * (1 + q)))); [apply Rmult_le_compat_r; [apply Rmult_le_pos; nra|exact B]|].
    replace (5 / 2 * (m * m) * / b * / (q * q) * (b * ((1 + q) * (1 + q)))) with (5 / 2 * (m * m) * ((1 + / q) * (1 + / q))) by (field; lra).
    assert (0 < / q < 1) by (split; [now apply Rinv_0_lt_compat|rewrite <- Rinv_1; apply Rinv_lt_contravar; lra]). unfold C2. set (z := / q) in *. assert ((1 + z) * (1 + z) <= 4) by nra. nra.
Qed.
Lemma HB_nE w c : Ob 0 w -> tends INF (fun q => w q / (q * q)) c -> HB (fun b q => nE q m b * w q) c.
Proof.
  intros (K & k & K0 & HO) L eps He. destruct (tends_INF_elim _ _ eps He L) as (M0 & HM). set (M := Rmax M0 1). pose proof (Rmax_l M0 1). pose proof (Rmax_r M0 1). fold M in H, H0.
  set (B := K * (1 + M) ^ k + Rabs c * (M * M)). exists (B * C1 + Rabs c * C2). intros b q Hb Hq.
  pose proof (gk_pos b q ltac:(lra) Hq) as G. pose proof (nE_le b q ltac:(lra) Hq) as [N0 N1]. pose proof (nE_gk b q ltac:(lra) Hq) as N2. pose proof (nE_gk_diff b q ltac:(lra) Hq) as N3. pose proof (iq_pos b q ltac:(lra) Hq) as I. assert (Q2 : 0 < q * q) by nra.
  assert (PM : 0 <= (1 + M) ^ k) by (apply pow_le; lra). pose proof (Rabs_pos c) as AC. assert (B0 : 0 <= B) by (unfold B; nra). pose proof C1_pos as C1p.
  set (n := nE q m b) in *. set (J := / b * / ((1 + q) * (1 + q))) in *.
  assert (D : Rabs (w q - c * (q * q)) <= eps * (q * q) + B).
  { destruct (Rle_lt_dec q M) as [C|C].
    - apply Rle_trans with B; [|nra]. unfold Rminus. eapply Rle_trans; [apply Rabs_triang|]. rewrite Rabs_Ropp, Rabs_mult, (Rabs_pos_eq (q * q)) by lra. unfold B. specialize (HO q Hq). rewrite Rmult_1_r in HO. apply Rplus_le_compat.
      + eapply Rle_trans; [exact HO|]. apply Rmult_le_compat_l; auto. apply pow_incr. lra.
      + apply Rmult_le_compat_l; auto. nra.
    - specialize (HM q ltac:(lra)). replace (w q - c * (q * q)) with ((w q / (q * q) - c) * (q * q)) by (field; lra). rewrite Rabs_mult, (Rabs_pos_eq (q * q)) by lra. apply Rle_trans with (eps * (q * q)); [apply Rmult_le_compat_r; lra|lra]. }
  replace (n * w q - c * gk b q) with (n * (w q - c * (q * q)) + - (c * (gk b q - q * q * n))) by ring. eapply Rle_trans; [apply Rabs_triang|]. rewrite Rabs_Ropp, !Rabs_mult, (Rabs_pos_eq n), (Rabs_pos_eq (gk b q - q * q * n)) by lra.
  apply Rle_trans with (n * (eps * (q * q) + B) + Rabs c * (C2 * J)); [apply Rplus_le_compat; apply Rmult_le_compat_l; lra|].
  assert (n * B <= C1 * J * B) by (apply Rmult_le_compat_r; lra). nra.
Qed.
(** the derivative of the occupation number *)
Lemma bose_neg_R e b : 0 < e -> 0 < b -> bose_distribution_zero_chempot (T := R) (- e) b = - (1 + bose_distribution_zero_chempot e b).
Proof.
  intros He Hb. unfold bose_distribution_zero_chempot, statistic_distribution_exponential_zero_chempot. numcbn. replace (- e * b) with (- (e * b)) by ring. rewrite exp_Ropp.
  assert (1 < exp (e * b)) by (rewrite <- exp_0; apply exp_increasing; nra). field. lra.
Qed.
Lemma HB_dn w M : (forall q, 0 < q -> Rabs (w q) <= M) -> HB (fun b q => b * bose_distribution_zero_chempot (energy q m) b * bose_distribution_zero_chempot (- energy q m) b * w q) 0.
Proof.
  intros HM. apply (HB_small _ (4 * C1 * M)). intros b q Hb Hq. assert (Q : 0 < m * m + q * q) by nra. assert (E0 : 0 < energy (T := R) q m) by (pose proof (energy_ge_q m q Hq); lra).
  rewrite bose_neg_R by lra. assert (Eb : bose_distribution_zero_chempot (energy q m) b = ns b (m * m + q * q)) by (rewrite energy_R; reflexivity). rewrite Eb.
  pose proof (ns_pos b ltac:(lra) _ Q) as N0. pose proof (ns_sq_le b ltac:(lra) _ Q) as N1. pose proof (inv_E b q ltac:(lra) Hq) as N2. specialize (HM q Hq). pose proof (iq_pos b q ltac:(lra) Hq). pose proof C1_pos.
  set (n := ns b (m * m + q * q)) in *. set (J := / b * / ((1 + q) * (1 + q))) in *.
  replace (b * n * - (1 + n) * w q) with (- (b * (n * (1 + n)) * w q)) by ring. rewrite Rabs_Ropp, !Rabs_mult, (Rabs_pos_eq b), (Rabs_pos_eq n), (Rabs_pos_eq (1 + n)) by lra.
  apply Rle_trans with (4 * C1 * J * M); [|right; ring]. apply Rmult_le_compat; auto using Rabs_pos; [apply Rmult_le_pos; nra|].
  apply Rle_trans with (b * (4 / (b * b * (m * m + q * q)))); [apply Rmult_le_compat_l; lra|]. replace (b * (4 / (b * b * (m * m + q * q)))) with (4 * / (b * (m * m + q * q))) by (field; split; lra). nra.
Qed.
End Massive.
