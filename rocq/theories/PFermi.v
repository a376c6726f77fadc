(** * Integrals weighted with the Fermi distribution, and their zero-temperature limit *)
From Coq Require Import Reals Lra Lia List Psatz.
From Coquelicot Require Import Coquelicot.
From Verif Require Import Num MCommon SpecLim SpecInt PCplx PDistr PVac PLim PLimC PJoint PInt PCold PBound PColdG PCompact PColdI.
Open Scope R_scope.

(** ** Zero-temperature limit of one occupation number *)
Lemma fermi_val x b : fermi_distribution (T := R) x b 0 = / (exp (x * b) + 1).
Proof. unfold fermi_distribution, statistic_distribution_exponential. numcbn. now rewrite Rminus_0_r. Qed.
Lemma fermi_shift e b nu : fermi_distribution (T := R) e b nu = / (exp ((e - nu) * b) + 1).
Proof. reflexivity. Qed.
Lemma fermi_le e b nu : fermi_distribution (T := R) e b nu <= exp (- ((e - nu) * b)).
Proof.
  rewrite fermi_shift, exp_Ropp. pose proof (exp_pos ((e - nu) * b)). apply Rinv_le_contravar; lra.
Qed.
Lemma fermi_pos e b nu : 0 < fermi_distribution (T := R) e b nu.
Proof. rewrite fermi_shift. pose proof (exp_pos ((e - nu) * b)). apply Rinv_0_lt_compat; lra. Qed.
Lemma fermi_zt_val e nu : fermi_distribution_zero_temp (T := R) e nu = if Rlt_dec nu e then 0 else 1.
Proof. reflexivity. Qed.
Lemma fermi_err e b nu : 0 < b -> Rabs (fermi_distribution (T := R) e b nu - fermi_distribution_zero_temp (T := R) e nu) <= exp (- (b * Rabs (e - nu))).
Proof.
  intros Hb. rewrite fermi_zt_val. destruct (Rlt_dec nu e) as [H|H].
  - rewrite Rminus_0_r, (Rabs_right (fermi_distribution e b nu)) by (left; apply fermi_pos).
    rewrite (Rabs_right (e - nu)) by lra. rewrite Rmult_comm. apply fermi_le.
  - rewrite (Rabs_left1 (e - nu)) by lra. rewrite fermi_shift. replace (- (b * - (e - nu))) with ((e - nu) * b) by ring.
    pose proof (exp_pos ((e - nu) * b)) as P. set (x := exp ((e - nu) * b)) in *.
    replace (/ (x + 1) - 1) with (- (x * / (x + 1))) by (field; lra). rewrite Rabs_Ropp.
    assert (0 < / (x + 1) <= 1). { split; [apply Rinv_0_lt_compat; lra|]. rewrite <- Rinv_1 at 2. apply Rinv_le_contravar; lra. }
    rewrite Rabs_right by nra. nra.
Qed.

(** ** Distance from the Fermi surface *)
Definition pF (m nu : R) : R := if Rle_dec (Rabs m) nu then fermi_momentum m nu else 0.
Definition CF (m nu : R) : R := 1 + 2 * Rabs m + Rabs nu.
Lemma pF_nonneg m nu : 0 <= pF m nu.
Proof. unfold pF. destruct (Rle_dec (Rabs m) nu); [|lra]. rewrite kF_R. apply sqrt_pos. Qed.
Lemma CF_pos m nu : 1 <= CF m nu.
Proof. unfold CF. pose proof (Rabs_pos m). pose proof (Rabs_pos nu). lra. Qed.
Lemma energy_sq q m : energy (T := R) q m * energy q m = m * m + q * q.
Proof. rewrite energy_R. apply sqrt_sqrt. nra. Qed.
Lemma Rabs_sq m : Rabs m * Rabs m = m * m.
Proof. rewrite <- Rabs_mult. apply Rabs_right. nra. Qed.
Lemma pF_sq m nu : Rabs m <= nu -> pF m nu * pF m nu = nu * nu - m * m.
Proof.
  intros H. unfold pF. destruct (Rle_dec (Rabs m) nu); [|contradiction]. rewrite kF_R. apply sqrt_sqrt.
  pose proof (Rabs_pos m). rewrite <- (Rabs_sq m). nra.
Qed.
Lemma surface q m nu : 0 < q -> (q - pF m nu) * (q - pF m nu) <= CF m nu * (1 + q) * Rabs (energy q m - nu).
Proof.
  intros Hq. pose proof (energy_ge_m m q) as E1. pose proof (energy_ge_q m q Hq) as E2. pose proof (energy_le m q Hq) as E3.
  pose proof (energy_sq q m) as E4. pose proof (Rabs_pos m) as M0. pose proof (Rabs_sq m) as M2. pose proof (pF_nonneg m nu) as F0.
  set (e := energy q m) in *. pose proof (Rle_abs nu) as N1. pose proof (Rabs_pos nu) as N2.
  destruct (Rle_dec (Rabs m) nu) as [H|H].
  - pose proof (pF_sq m nu H) as P. set (k := pF m nu) in *.
    assert (X : Rabs (q - k) * (q + k) = Rabs (e - nu) * (e + nu)).
    { rewrite <- (Rabs_right (q + k)), <- (Rabs_right (e + nu)), <- !Rabs_mult by lra. f_equal. lra. }
    assert (Y : (q - k) * (q - k) <= Rabs (q - k) * (q + k)).
    { replace ((q - k) * (q - k)) with (Rabs (q - k) * Rabs (q - k)) by (apply Rabs_sq). apply Rmult_le_compat_l; [apply Rabs_pos|]. apply Rabs_le. lra. }
    eapply Rle_trans; [exact Y|]. rewrite X. rewrite (Rmult_comm _ (Rabs (e - nu))). apply Rmult_le_compat_l; [apply Rabs_pos|].
    unfold CF. rewrite (Rabs_right nu) in * by lra. nra.
  - unfold pF. destruct (Rle_dec (Rabs m) nu); [contradiction|]. rewrite Rminus_0_r.
    assert (X : q * q = (e - Rabs m) * (e + Rabs m)) by (replace ((e - Rabs m) * (e + Rabs m)) with (e * e - Rabs m * Rabs m) by ring; rewrite M2; change (q * q = e * e - m * m); rewrite E4; ring). rewrite X. rewrite (Rmult_comm _ (Rabs (e - nu))).
    rewrite (Rabs_right (e - nu)) by lra. apply Rmult_le_compat; try lra. unfold CF. nra.
Qed.

(** ** The integrals *)
Section Weight.
Variables (m nu : R) (w : R -> R).
Hypothesis Ow : Ob 1 w.
Hypothesis Cw : forall q, 0 < q -> continuous w q.
Definition fT (b q : R) : R := w q * fermi_distribution (T := R) (energy q m) b nu.
Definition fZ (q : R) : R := w q * fermi_distribution_zero_temp (T := R) (energy q m) nu.
Lemma fT_cont b q : 0 < q -> continuous (fT b) q.
Proof.
  intros Hq. unfold fT. apply (continuous_mult (K := R_AbsRing) w (fun q => fermi_distribution (T := R) (energy q m) b nu)); auto.
  change (tends (locally q) (fun q => / (exp ((energy q m - nu) * b) + 1)) (/ (exp ((energy q m - nu) * b) + 1))).
  pose proof (exp_pos ((energy q m - nu) * b)). assert (Ti : tends (locally q) (fun q => q) q) by (intros P HP; exact HP).
  pose proof (energy_tends (fun q => q) q Ti m). apply tends_inv; [lra|]. apply tends_plus; [|apply tends_const].
  apply tends_exp; [apply locally_filter|]. apply tends_mult; [|apply tends_const]. apply tends_minus; [auto|apply tends_const].
Qed.
(** At fixed temperature. *)
Lemma fT_int b : 0 < b -> ex_RInt (compact_R (fT b)) 0 1.
Proof.
  intros Hb. destruct (Ob_weak 0 w Ow) as (K & k & K0 & HK).
  destruct (exp_poly (k + 2) b Hb) as (L & L0 & HL).
  destruct (bounded_int (fT b) (K * L * exp (b * Rabs nu))) as (v & Hv & _).
  - intros q Hq. now apply fT_cont.
  - intros q Hq. specialize (HK q Hq). specialize (HL q (Rlt_le _ _ Hq)). unfold fT. rewrite Rabs_mult, (Rabs_right (fermi_distribution _ _ _)) by (left; apply fermi_pos).
    pose proof (fermi_le (energy q m) b nu) as F. pose proof (fermi_pos (energy q m) b nu) as F0.
    assert (F2 : exp (- ((energy q m - nu) * b)) <= exp (b * Rabs nu) * exp (- (b * q))).
    { rewrite <- exp_plus. pose proof (energy_ge_q m q Hq). pose proof (Rle_abs nu).
      assert (- ((energy q m - nu) * b) <= b * Rabs nu + - (b * q)) by nra. destruct (Req_dec (- ((energy q m - nu) * b)) (b * Rabs nu + - (b * q))) as [->|]; [lra|].
      left. apply exp_increasing. lra. }
    pose proof (exp_pos (b * Rabs nu)) as P1. pose proof (exp_pos (- (b * q))) as P2. cbn [pow] in HK. rewrite Rmult_1_r in HK.
    assert (Q2 : 0 <= (1 + q) ^ 2) by (apply pow_le; lra). assert (Qk : 0 <= (1 + q) ^ k) by (apply pow_le; lra).
    apply Rle_trans with (K * (1 + q) ^ k * (exp (b * Rabs nu) * exp (- (b * q))) * (1 + q) ^ 2).
    + apply Rmult_le_compat_r; auto. apply Rmult_le_compat; try lra. apply Rabs_pos.
    + replace (K * (1 + q) ^ k * (exp (b * Rabs nu) * exp (- (b * q))) * (1 + q) ^ 2) with (K * exp (b * Rabs nu) * (exp (- (b * q)) * (1 + q) ^ (k + 2))) by (rewrite pow_add; ring).
      replace (K * L * exp (b * Rabs nu)) with (K * exp (b * Rabs nu) * L) by ring. apply Rmult_le_compat_l; [apply Rmult_le_pos; lra|].
      apply Rle_trans with (exp (- (b * q)) * (L * exp (b * q))); [apply Rmult_le_compat_l; lra|]. right.
      replace (exp (- (b * q)) * (L * exp (b * q))) with (L * (exp (- (b * q)) * exp (b * q))) by ring. rewrite <- exp_plus.
      replace (- (b * q) + b * q) with 0 by ring. rewrite exp_0. ring.
  - exists v. exact Hv.
Qed.

(** At zero temperature: the compactified integral is the integral up to the Fermi momentum. *)
Let wz (q : R) : R := if Rlt_dec 0 q then w q else 0.
Lemma wz_cont q : 0 <= q -> continuous wz q.
Proof.
  intros [Hq|<-].
  - apply (continuous_ext_loc _ w); [|now apply Cw]. exists (mkposreal q Hq). intros y Hy. unfold wz. destruct (Rlt_dec 0 y); auto.
    exfalso. apply n. unfold ball in Hy; simpl in Hy. unfold AbsRing_ball, minus, plus, opp in Hy; simpl in Hy. unfold abs in Hy; simpl in Hy.
    apply Rabs_lt_between in Hy. lra.
  - destruct Ow as (K & k & K0 & HK). intros P [eps HP]. unfold wz in HP at 1. destruct (Rlt_dec 0 0); [lra|].
    set (M := K * 2 ^ k + 1). assert (M0 : 0 < M) by (unfold M; assert (0 <= 2 ^ k) by (apply pow_le; lra); nra).
    assert (D : 0 < Rmin 1 (eps / M)) by (apply Rmin_glb_lt; [lra|apply Rdiv_lt_0_compat; auto; apply eps]).
    exists (mkposreal _ D). intros y Hy. apply HP.
    unfold ball in *; simpl in *. unfold AbsRing_ball, minus, plus, opp in *; simpl in *. unfold abs in *; simpl in *.
    replace (y + - 0) with y in Hy by ring. replace (wz y + - 0) with (wz y) by ring.
    assert (Y1 : Rabs y < 1) by (eapply Rlt_le_trans; [exact Hy|apply Rmin_l]). assert (Y2 : Rabs y < eps / M) by (eapply Rlt_le_trans; [exact Hy|apply Rmin_r]).
    unfold wz. destruct (Rlt_dec 0 y) as [H|H]; [|rewrite Rabs_R0; apply eps].
    specialize (HK y H). cbn [pow] in HK. rewrite Rmult_1_r in HK. rewrite (Rabs_right y) in * by lra.
    eapply Rle_lt_trans; [exact HK|]. assert (T : (1 + y) ^ k <= 2 ^ k) by (apply pow_incr; lra).
    assert (T0 : 0 <= (1 + y) ^ k) by (apply pow_le; lra). assert (T1 : y * M < eps).
    { apply Rmult_lt_reg_r with (/ M); [now apply Rinv_0_lt_compat|]. rewrite Rmult_assoc, Rinv_r by lra. unfold Rdiv in Y2. lra. }
    apply Rle_lt_trans with (y * (K * 2 ^ k)); [|unfold M in T1; lra]. replace (K * y * (1 + y) ^ k) with (y * (K * (1 + y) ^ k)) by ring. apply Rmult_le_compat_l; [lra|]. apply Rmult_le_compat_l; auto.
Qed.
Definition sea : R := RInt w 0 (pF m nu).
Lemma sea_is : is_RInt w 0 (pF m nu) sea.
Proof.
  unfold sea. apply (RInt_correct (V := R_CompleteNormedModule)).
  apply (ex_RInt_ext (V := R_NormedModule) wz).
  - rewrite Rmin_left by apply pF_nonneg. intros x Hx. unfold wz. destruct (Rlt_dec 0 x); [auto|lra].
  - apply (ex_RInt_continuous (V := R_CompleteNormedModule)). rewrite Rmin_left by apply pF_nonneg. intros z Hz. apply wz_cont. lra.
Qed.
Lemma fZ_int : is_RInt (compact_R fZ) 0 1 sea.
Proof.
  pose proof (pF_nonneg m nu) as F0. set (tF := / (1 + pF m nu)).
  assert (T0 : 0 < tF) by (unfold tF; apply Rinv_0_lt_compat; lra).
  assert (T1 : tF <= 1) by (unfold tF; rewrite <- Rinv_1; apply Rinv_le_contravar; lra).
  assert (TF : pF m nu = (1 - tF) / tF) by (unfold tF; field; lra).
  replace sea with (plus 0 sea) by (unfold plus; simpl; ring).
  apply (is_RInt_Chasles (V := R_NormedModule)) with tF.
  - apply (is_RInt_ext (V := R_NormedModule) (fun _ => 0)).
    + rewrite Rmin_left, Rmax_right by lra. intros t Ht. unfold compact_R, fZ. rewrite fermi_zt_val.
      destruct (Rlt_dec nu (energy ((1 - t) / t) m)) as [_|N]; [unfold Rdiv; now rewrite Rmult_0_r, Rmult_0_l|]. exfalso. apply N.
      assert (Hq : pF m nu < (1 - t) / t).
      { rewrite TF. unfold Rdiv. rewrite !Rmult_minus_distr_r, !Rinv_r by lra. assert (/ tF < / t) by (apply Rinv_lt_contravar; nra). lra. }
      set (q := (1 - t) / t) in *. pose proof (energy_ge_m m q) as E1. pose proof (energy_sq q m) as E2. pose proof (Rabs_pos m) as M0.
      destruct (Rle_dec (Rabs m) nu) as [H|H]; [|lra]. pose proof (pF_sq m nu H) as P. apply Rnot_le_lt. intros G. nra.
    + pose proof (is_RInt_const (V := R_NormedModule) 0 tF 0) as X. unfold scal in X; simpl in X. unfold mult in X; simpl in X. rewrite Rmult_0_r in X. exact X.
  - destruct F0 as [F0|F0].
    + apply (is_RInt_ext (V := R_NormedModule) (compact_R wz)).
      * rewrite Rmin_left, Rmax_right by lra. intros t Ht. unfold compact_R, fZ, wz. rewrite fermi_zt_val.
        assert (Hq0 : 0 < (1 - t) / t) by (apply Rdiv_lt_0_compat; lra).
        assert (Hq : (1 - t) / t < pF m nu).
        { rewrite TF. unfold Rdiv. rewrite !Rmult_minus_distr_r, !Rinv_r by lra. assert (/ t < / tF) by (apply Rinv_lt_contravar; nra). lra. }
        set (q := (1 - t) / t) in *. destruct (Rlt_dec 0 q); [|lra]. destruct (Rlt_dec nu (energy q m)) as [N|_]; [|now rewrite Rmult_1_r]. exfalso.
        pose proof (energy_sq q m) as E2. pose proof (energy_ge_m m q) as E1. pose proof (Rabs_pos m) as M0.
        destruct (Rle_dec (Rabs m) nu) as [H|H]; [|unfold pF in F0; destruct (Rle_dec (Rabs m) nu); [contradiction|lra]]. pose proof (pF_sq m nu H) as P. nra.
      * replace sea with (RInt wz 0 (pF m nu)); [apply compact_int; auto; intros x Hx; apply wz_cont; lra|]. unfold sea. apply RInt_ext.
        rewrite Rmin_left by lra. intros x Hx. unfold wz. destruct (Rlt_dec 0 x); [auto|lra].
    + assert (tF = 1) as -> by (unfold tF; rewrite <- F0; field). assert (Hs : sea = zero) by (unfold sea; rewrite <- F0; exact (RInt_point (V := R_CompleteNormedModule) 0 w)). rewrite Hs. apply (is_RInt_point (V := R_NormedModule)).
Qed.

(** A Lorentzian majorant of the difference. *)
Lemma atan_int a c : 0 < a -> is_RInt (fun t => / (1 + a * ((t - c) * (t - c)))) 0 1 ((atan (sqrt a * (1 - c)) - atan (sqrt a * (0 - c))) / sqrt a).
Proof.
  intros Ha. assert (S : 0 < sqrt a) by (now apply sqrt_lt_R0). pose proof (sqrt_sqrt a (Rlt_le _ _ Ha)) as SS.
  set (F := fun t => atan (sqrt a * (t - c)) / sqrt a).
  replace ((atan (sqrt a * (1 - c)) - atan (sqrt a * (0 - c))) / sqrt a) with (minus (F 1) (F 0)) by (unfold F, minus, plus, opp; simpl; field; lra).
  apply (is_RInt_derive (V := R_CompleteNormedModule)).
  - intros x _. unfold F. replace (/ (1 + a * ((x - c) * (x - c)))) with (sqrt a * / (1 + (sqrt a * (x - c)) ^ 2) * / sqrt a).
    + auto_derive; auto. replace (sqrt a * (x + - c)) with (sqrt a * (x - c)) by ring. assert (0 <= (sqrt a * (x - c)) ^ 2) by apply pow2_ge_0. field. split; [lra|nra].
    + replace ((sqrt a * (x - c)) ^ 2) with (a * ((x - c) * (x - c))) by (rewrite <- SS at 1; ring). field. split; [|lra]. pose proof (Rle_0_sqr (x - c)). unfold Rsqr in *. nra.
  - intros x _. apply (ex_derive_continuous (K := R_AbsRing) (V := R_NormedModule)). auto_derive. pose proof (Rle_0_sqr (x - c)). unfold Rsqr in *. nra.
Qed.
Lemma majorant : exists K, 0 <= K /\ forall b t, 1 <= b -> 0 < t < 1 ->
  Rabs (compact_R (fT b) t - compact_R fZ t) <= K * / (1 + b / (2 * CF m nu) * ((t - / (1 + pF m nu)) * (t - / (1 + pF m nu)))).
Proof.
  destruct (Ob_weak 0 w Ow) as (K & k & K0 & HK).
  destruct (exp_poly (k + 2) (1 / 2)) as (L & L0 & HL); [lra|].
  exists (K * L * exp (Rabs nu)). pose proof (exp_pos (Rabs nu)) as EN. split; [apply Rmult_le_pos; [apply Rmult_le_pos|]; lra|].
  intros b t Hb Ht. destruct (compact_dom t Ht) as [Hq E]. set (q := (1 - t) / t) in *.
  pose proof (pF_nonneg m nu) as F0. pose proof (CF_pos m nu) as C1.
  set (h := Rabs (energy q m - nu)). pose proof (Rabs_pos (energy q m - nu)) as h0. fold h in h0.
  set (X := (t - / (1 + pF m nu)) * (t - / (1 + pF m nu))). assert (X0 : 0 <= X) by (apply Rle_0_sqr).
  assert (D1 : X / CF m nu <= h).
  { pose proof (surface q m nu Hq) as S. fold h in S.
    assert (T : t = / (1 + q)) by (rewrite E, Rinv_inv; auto).
    assert (EX : X * ((1 + q) * (1 + q) * ((1 + pF m nu) * (1 + pF m nu))) = (q - pF m nu) * (q - pF m nu)).
    { unfold X. rewrite T. field. split; lra. }
    apply Rmult_le_reg_r with (CF m nu); [lra|]. unfold Rdiv. rewrite Rmult_assoc, Rinv_l, Rmult_1_r by lra.
    assert (P1 : 1 <= (1 + pF m nu) * (1 + pF m nu)) by nra.
    assert (XX : X * ((1 + q) * (1 + q)) <= CF m nu * (1 + q) * h).
    { eapply Rle_trans; [|exact S]. rewrite <- EX. apply Rmult_le_compat_l; auto. assert (0 <= (1 + q) * (1 + q)) by nra. nra. }
    assert (XY : X * (1 + q) <= CF m nu * h).
    { apply Rmult_le_reg_r with (1 + q); [lra|]. lra. }
    assert (X <= X * (1 + q)) by nra. lra. }
  assert (D2 : q - Rabs nu <= h).
  { pose proof (energy_ge_q m q Hq). pose proof (Rle_abs nu). pose proof (Rle_abs (energy q m - nu)). unfold h. lra. }
  assert (Err : Rabs (compact_R (fT b) t - compact_R fZ t) <= K * (1 + q) ^ (k + 2) * exp (- (b * h))).
  { unfold compact_R. fold q. unfold fT, fZ.
    replace (w q * fermi_distribution (energy q m) b nu / t ^ 2 - w q * fermi_distribution_zero_temp (energy q m) nu / t ^ 2)
      with (w q * (1 + q) ^ 2 * (fermi_distribution (energy q m) b nu - fermi_distribution_zero_temp (energy q m) nu)) by (rewrite E; field; lra).
    rewrite !Rabs_mult. specialize (HK q Hq). cbn [pow] in HK. rewrite Rmult_1_r in HK.
    assert (Q2 : 0 <= (1 + q) ^ 2) by (apply pow_le; lra). rewrite (Rabs_right ((1 + q) ^ 2)) by lra.
    apply Rmult_le_compat; [apply Rmult_le_pos; auto using Rabs_pos|apply Rabs_pos| |apply fermi_err; lra].
    rewrite pow_add. rewrite <- Rmult_assoc. apply Rmult_le_compat_r; auto. }
  eapply Rle_trans; [exact Err|].
  replace (exp (- (b * h))) with (exp (- (b * h / 2)) * exp (- (b * h / 2))) by (rewrite <- exp_plus; f_equal; field).
  assert (G1 : exp (- (b * h / 2)) <= / (1 + b / (2 * CF m nu) * X)).
  { rewrite exp_Ropp. assert (Y : b / (2 * CF m nu) * X <= b * h / 2).
    { replace (b / (2 * CF m nu) * X) with (b * (X / CF m nu) / 2) by (field; lra). assert (b * (X / CF m nu) <= b * h) by (apply Rmult_le_compat_l; lra). lra. }
    assert (Y0 : 0 <= b / (2 * CF m nu) * X) by (apply Rmult_le_pos; auto; apply Rdiv_le_0_compat; lra).
    apply Rinv_le_contravar; [lra|]. pose proof (exp_ineq1_le (b * h / 2)). lra. }
  assert (G2 : (1 + q) ^ (k + 2) * exp (- (b * h / 2)) <= L * exp (Rabs nu)).
  { specialize (HL q (Rlt_le _ _ Hq)).
    assert (H1 : exp (- (b * h / 2)) <= exp (- (1 / 2 * q)) * exp (Rabs nu)).
    { rewrite <- exp_plus. assert (Hh : - (b * h / 2) <= - (1 / 2 * q) + Rabs nu) by (pose proof (Rabs_pos nu); nra).
      destruct (Req_dec (- (b * h / 2)) (- (1 / 2 * q) + Rabs nu)) as [->|]; [lra|]. left. apply exp_increasing. lra. }
    pose proof (exp_pos (- (1 / 2 * q))) as P1. assert (Qk : 0 <= (1 + q) ^ (k + 2)) by (apply pow_le; lra). pose proof (exp_pos (- (b * h / 2))) as P3.
    apply Rle_trans with (L * exp (1 / 2 * q) * (exp (- (1 / 2 * q)) * exp (Rabs nu))); [apply Rmult_le_compat; lra|]. right.
    replace (L * exp (1 / 2 * q) * (exp (- (1 / 2 * q)) * exp (Rabs nu))) with (L * exp (Rabs nu) * (exp (1 / 2 * q) * exp (- (1 / 2 * q)))) by ring.
    rewrite <- exp_plus. replace (1 / 2 * q + - (1 / 2 * q)) with 0 by ring. rewrite exp_0. ring. }
  pose proof (exp_pos (- (b * h / 2))) as P3. assert (Qk : 0 <= (1 + q) ^ (k + 2)) by (apply pow_le; lra).
  replace (K * (1 + q) ^ (k + 2) * (exp (- (b * h / 2)) * exp (- (b * h / 2)))) with (K * ((1 + q) ^ (k + 2) * exp (- (b * h / 2))) * exp (- (b * h / 2))) by ring.
  apply Rmult_le_compat; try lra.
  - apply Rmult_le_pos; auto. apply Rmult_le_pos; lra.
  - rewrite Rmult_assoc. apply Rmult_le_compat_l; auto.
Qed.
Lemma fermi_cold : tends (Rbar_locally p_infty) (fun b => RInt (compact_R (fT b)) 0 1) sea.
Proof.
  destruct majorant as (K & K0 & HM). pose proof (CF_pos m nu) as C1.
  assert (B : forall b, 1 <= b -> Rabs (RInt (compact_R (fT b)) 0 1 - sea) <= K * PI * / sqrt (b / (2 * CF m nu))).
  { intros b Hb. set (a := b / (2 * CF m nu)). assert (Ha : 0 < a) by (unfold a; apply Rdiv_lt_0_compat; lra).
    assert (I1 : is_RInt (compact_R (fT b)) 0 1 (RInt (compact_R (fT b)) 0 1)) by (apply (RInt_correct (V := R_CompleteNormedModule)), fT_int; lra).
    pose proof (is_RInt_minus (V := R_NormedModule) _ _ _ _ _ _ I1 fZ_int) as I2.
    set (c := / (1 + pF m nu)). pose proof (is_RInt_scal (V := R_NormedModule) _ _ _ K _ (atan_int a c Ha)) as I3.
    set (v := (atan (sqrt a * (1 - c)) - atan (sqrt a * (0 - c))) / sqrt a) in *.
    assert (SA : 0 < sqrt a) by (now apply sqrt_lt_R0).
    assert (V : v <= PI * / sqrt a).
    { unfold v, Rdiv. apply Rmult_le_compat_r; [left; now apply Rinv_0_lt_compat|]. pose proof (atan_bound (sqrt a * (1 - c))). pose proof (atan_bound (sqrt a * (0 - c))). lra. }
    assert (L1 : minus (RInt (compact_R (fT b)) 0 1) sea <= scal K v).
    { apply (is_RInt_le _ _ 0 1 _ _ ltac:(lra) I2 I3). intros t Ht. pose proof (HM b t Hb Ht) as H. apply Rabs_le_between in H.
      unfold scal, minus, plus, opp; simpl. unfold mult; simpl. fold a in H. fold c in H. lra. }
    assert (L2 : scal K (opp v) <= minus (RInt (compact_R (fT b)) 0 1) sea).
    { pose proof (is_RInt_opp (V := R_NormedModule) _ _ _ _ (atan_int a c Ha)) as I4. fold v in I4.
      pose proof (is_RInt_scal (V := R_NormedModule) _ _ _ K _ I4) as I5.
      apply (is_RInt_le _ _ 0 1 _ _ ltac:(lra) I5 I2). intros t Ht. pose proof (HM b t Hb Ht) as H. apply Rabs_le_between in H.
      unfold scal, minus, plus, opp; simpl. unfold mult; simpl. fold a in H. fold c in H. lra. }
    unfold scal, minus, plus, opp in L1, L2; simpl in L1, L2. unfold mult in L1, L2; simpl in L1, L2.
    assert (K * v <= K * PI * / sqrt a) by (rewrite Rmult_assoc; apply Rmult_le_compat_l; auto). apply Rabs_le. split; lra. }
  apply (tends_ext (fun b => sea + (RInt (compact_R (fT b)) 0 1 - sea))). { apply filter_forall. intros; ring. }
  apply (tends_eq _ (sea + 0)); [ring|]. apply tends_plus; [apply tends_const|].
  apply (tends_squeeze0 _ (fun b => K * PI * / sqrt (b / (2 * CF m nu)))).
  - exists 1. intros b Hb. apply B. lra.
  - apply (tends_eq _ (K * PI * 0)); [ring|]. apply tends_mult; [apply tends_const|].
    change (is_lim (fun b => / sqrt (b / (2 * CF m nu))) p_infty 0).
    replace (Finite 0) with (Rbar_inv p_infty) by reflexivity. apply is_lim_inv; [|discriminate].
    assert (L : is_lim (fun b => b / (2 * CF m nu)) p_infty p_infty).
    { intros P [M HMm]. exists (Rmax 0 (M * (2 * CF m nu))). intros y Hy. apply HMm.
      assert (M * (2 * CF m nu) < y) by (eapply Rle_lt_trans; [apply Rmax_r|exact Hy]).
      apply Rmult_lt_reg_r with (2 * CF m nu); [lra|]. unfold Rdiv. rewrite Rmult_assoc, Rinv_l; lra. }
    exact (is_lim_sqrt_p _ _ L).
Qed.
End Weight.
