(** * The charge density at low temperature: the Sommerfeld expansion *)
From Coq Require Import Reals Psatz Lia.
From Coquelicot Require Import Coquelicot.
From Verif Require Import Num MCommon MConsts MThermal MDress MQuark MUtils SpecInt SpecLim SpecSmear PDistr PDistr2 PVac PLim PInt PCold PBasel PWeights PWeights2 PBound PColdG PColdI PFermi PColdQ PColdFin PDensity PSmear PSmear2.
Open Scope R_scope.

Lemma bound_d (f df B dB : R -> R) t : 0 <= t -> (forall x, 0 <= x <= t -> is_derive f x (df x)) -> (forall x, 0 <= x <= t -> is_derive B x (dB x)) ->
  (forall x, 0 <= x <= t -> Rabs (df x) <= dB x) -> f 0 = 0 -> B 0 = 0 -> Rabs (f t) <= B t.
Proof.
  intros Ht Df DB H F0 B0.
  assert (P : B 0 - f 0 <= B t - f t).
  { apply (mono_d (fun x => B x - f x) (fun x => dB x - df x) 0 t Ht).
    - intros x Hx. exact (is_derive_minus (K := R_AbsRing) (V := R_NormedModule) _ _ _ _ _ (DB x Hx) (Df x Hx)).
    - intros x Hx. pose proof (H x Hx). pose proof (Rle_abs (df x)). lra. }
  assert (Q : B 0 + f 0 <= B t + f t).
  { apply (mono_d (fun x => B x + f x) (fun x => dB x + df x) 0 t Ht).
    - intros x Hx. exact (is_derive_plus (K := R_AbsRing) (V := R_NormedModule) _ _ _ _ _ (DB x Hx) (Df x Hx)).
    - intros x Hx. pose proof (H x Hx). pose proof (Rle_abs (- df x)) as A. rewrite Rabs_Ropp in A. lra. }
  apply Rabs_le. lra.
Qed.

Section Somm.
Variables (nc : nat) (m mu : R).
Hypothesis Hm : Rabs m < mu.
Definition sq (x : R) : R := sqrt (x * x - m * m).
Definition d2 (x : R) : R := 3 * (sq x + x * x / sq x).
Definition d3 (x : R) : R := 3 * (3 * x / sq x - x * x * x / (sq x * sq x * sq x)).
Lemma sq_arg x : Rabs m < x -> 0 < x * x - m * m.
Proof. intros H. pose proof (Rabs_pos m). pose proof (sqr_Rabs m). nra. Qed.
Lemma sq_pos x : Rabs m < x -> 0 < sq x.
Proof. intros H. apply sqrt_lt_R0. now apply sq_arg. Qed.
Lemma sq_d x : Rabs m < x -> is_derive sq x (x / sq x).
Proof. intros H. pose proof (sq_arg x H) as A. pose proof (sq_pos x H) as P. unfold sq in *. auto_derive; [exact A|]. unfold Rminus in *. field. lra. Qed.
Lemma dK3_sq x : dK3 m x = 3 * (x * sq x). Proof. reflexivity. Qed.
Lemma dK3_d x : Rabs m < x -> is_derive (dK3 m) x (d2 x).
Proof.
  intros H. pose proof (sq_d x H) as D. pose proof (sq_pos x H) as P. apply (is_derive_ext (fun x => 3 * (x * sq x))); [intros; now rewrite dK3_sq|].
  auto_derive; [eexists; exact D|]. change (Derive (fun x => sq x) x) with (Derive sq x). rewrite (is_derive_unique _ _ _ D). unfold d2. field. lra.
Qed.
Lemma d2_d x : Rabs m < x -> is_derive d2 x (d3 x).
Proof.
  intros H. pose proof (sq_d x H) as D. pose proof (sq_pos x H) as P. unfold d2.
  auto_derive; [repeat split; try (eexists; exact D); lra|]. change (Derive (fun x => sq x) x) with (Derive sq x). rewrite (is_derive_unique _ _ _ D). unfold d3. field. lra.
Qed.
Definition dl : R := (mu - Rabs m) / 2.
Definition s0 : R := sq (mu - dl).
Definition LL : R := 9 * (2 * mu) / s0 + 3 * (2 * mu) ^ 3 / s0 ^ 3.
Lemma near x : mu - dl <= x <= mu + dl -> Rabs m < x /\ 0 < x <= 2 * mu /\ s0 <= sq x /\ 0 < s0.
Proof.
  intros H. unfold dl in H. pose proof (Rabs_pos m). pose proof (sqr_Rabs m). repeat split; try lra.
  - unfold s0, sq, dl. apply sqrt_le_1_alt. nra.
  - unfold s0. apply sq_pos. unfold dl. lra.
Qed.
Lemma d3_bound x : mu - dl <= x <= mu + dl -> Rabs (d3 x) <= LL.
Proof.
  intros H. destruct (near x H) as (H1 & H2 & H3 & H4). unfold d3, LL.
  assert (I1' : 0 < / sq x <= / s0) by (split; [apply Rinv_0_lt_compat; lra|apply Rinv_le_contravar; lra]).
  replace (3 * (3 * x / sq x - x * x * x / (sq x * sq x * sq x))) with (9 * (x * / sq x) + - (3 * (x * / sq x) ^ 3)) by (field; lra).
  replace (9 * (2 * mu) / s0 + 3 * (2 * mu) ^ 3 / s0 ^ 3) with (9 * (2 * mu * / s0) + 3 * (2 * mu * / s0) ^ 3) by (field; lra).
  assert (A : 0 <= x * / sq x <= 2 * mu * / s0) by (split; [apply Rmult_le_pos; lra|apply Rmult_le_compat; lra]).
  apply Rle_trans with (1 := Rabs_triang _ _). rewrite Rabs_Ropp. pose proof (pow_incr _ _ 3 A). pose proof (pow_le _ 3 (proj1 A)).
  rewrite !Rabs_pos_eq by lra. lra.
Qed.
Definition E2 (t : R) : R := d2 (mu + t) + d2 (mu - t) - 2 * d2 mu.
Definition E1 (t : R) : R := dK3 m (mu + t) - dK3 m (mu - t) - 2 * d2 mu * t.
Definition E0 (t : R) : R := K3 m (mu + t) + K3 m (mu - t) - 2 * K3 m mu - d2 mu * (t * t).
Lemma shift_d (f df : R -> R) t : is_derive f (mu + t) (df (mu + t)) -> is_derive (fun t => f (mu + t)) t (df (mu + t)).
Proof. intros H. auto_derive; [eexists; exact H|]. change (Derive (fun x => f x) (mu + t)) with (Derive f (mu + t)). rewrite (is_derive_unique _ _ _ H). ring. Qed.
Lemma refl_d (f df : R -> R) t : is_derive f (mu - t) (df (mu - t)) -> is_derive (fun t => f (mu - t)) t (- df (mu - t)).
Proof. intros H. auto_derive; [eexists; exact H|]. change (Derive (fun x => f x)) with (Derive f). replace (mu + - t) with (mu - t) by ring. rewrite (is_derive_unique _ _ _ H). ring. Qed.
Lemma E_near t : 0 <= t <= dl -> Rabs (E0 t) <= LL / 3 * (t * t * t).
Proof.
  intros Ht. assert (P2 : forall t, 0 <= t <= dl -> Rabs m < mu + t /\ Rabs m < mu - t) by (intros s Hs; split; apply near; lra).
  assert (B2 : forall t, 0 <= t <= dl -> Rabs (E2 t) <= 2 * LL * t).
  { intros s Hs. apply (bound_d E2 (fun t => d3 (mu + t) + - d3 (mu - t)) (fun t => 2 * LL * t) (fun _ => 2 * LL) s); try (unfold E2; rewrite ?Rplus_0_r, ?Rminus_0_r; lra).
    - intros x Hx. destruct (P2 x ltac:(lra)) as [A B]. unfold E2. pose proof (shift_d d2 d3 x (d2_d _ A)) as D1. pose proof (refl_d d2 d3 x (d2_d _ B)) as D2.
      evar_last; [exact (is_derive_minus (K := R_AbsRing) (V := R_NormedModule) _ _ _ _ _ (is_derive_plus (K := R_AbsRing) (V := R_NormedModule) _ _ _ _ _ D1 D2) (is_derive_const (K := R_AbsRing) (V := R_NormedModule) (2 * d2 mu) x))|]. unfold minus, plus, opp, zero; simpl. ring.
    - intros x Hx. auto_derive; [auto|ring].
    - intros x Hx. apply Rle_trans with (1 := Rabs_triang _ _). rewrite Rabs_Ropp. pose proof (d3_bound (mu + x) ltac:(lra)). pose proof (d3_bound (mu - x) ltac:(lra)). lra. }
  assert (B1 : forall t, 0 <= t <= dl -> Rabs (E1 t) <= LL * (t * t)).
  { intros s Hs. apply (bound_d E1 E2 (fun t => LL * (t * t)) (fun t => 2 * LL * t) s); try (unfold E1; rewrite ?Rplus_0_r, ?Rminus_0_r; lra).
    - intros x Hx. destruct (P2 x ltac:(lra)) as [A B]. unfold E1. pose proof (shift_d (dK3 m) d2 x (dK3_d _ A)) as D1. pose proof (refl_d (dK3 m) d2 x (dK3_d _ B)) as D2.
      assert (D3 : is_derive (fun t => 2 * d2 mu * t) x (2 * d2 mu)) by (auto_derive; [auto|ring]).
      evar_last; [exact (is_derive_minus (K := R_AbsRing) (V := R_NormedModule) _ _ _ _ _ (is_derive_minus (K := R_AbsRing) (V := R_NormedModule) _ _ _ _ _ D1 D2) D3)|]. unfold E2, minus, plus, opp; simpl. ring.
    - intros x Hx. auto_derive; [auto|ring].
    - intros x Hx. apply B2. lra. }
  apply (bound_d E0 E1 (fun t => LL / 3 * (t * t * t)) (fun t => LL * (t * t)) t); try (unfold E0; rewrite ?Rplus_0_r, ?Rminus_0_r; lra).
  - intros x Hx. unfold E0. pose proof (D_in m mu x) as D1.
    assert (D3 : is_derive (fun t => 2 * K3 m mu + d2 mu * (t * t)) x (2 * d2 mu * x)) by (auto_derive; [auto|ring]).
    eapply is_derive_ext; [|evar_last; [exact (is_derive_minus (K := R_AbsRing) (V := R_NormedModule) _ _ _ _ _ D1 D3)|]].
    + intros y. unfold minus, plus, opp; simpl. ring.
    + unfold E1, minus, plus, opp; simpl. ring.
  - intros x Hx. auto_derive; [auto|field].
  - intros x Hx. apply B1. lra.
Qed.
Lemma mu_pos : 0 < mu. Proof. pose proof (Rabs_pos m). lra. Qed.
Lemma K3_nonneg x : 0 <= K3 m x. Proof. unfold K3, U3. apply pow_le, sqrt_pos. Qed.
Lemma K3_le x y : 0 <= x <= y -> K3 m x <= y * y * y.
Proof.
  intros H. unfold K3, U3. replace (y * y * y) with (y ^ 3) by ring. apply pow_incr. split; [apply sqrt_pos|]. rewrite <- (sqrt_square y) by lra. apply sqrt_le_1_alt. nra.
Qed.
Lemma n0_le x y : Rabs x <= y -> Rabs (charge_density_zero_temp nc m x) <= cc nc * (y * y * y).
Proof.
  intros H. pose proof (cc_pos nc). destruct (Rle_dec 0 x) as [P|P].
  - rewrite Rabs_pos_eq in H by auto. rewrite n0_K by auto. rewrite Rabs_pos_eq by (apply Rmult_le_pos; [auto|apply K3_nonneg]). apply Rmult_le_compat_l; auto. apply K3_le. lra.
  - rewrite Rabs_left in H by lra. rewrite <- (Ropp_involutive x), density_odd, Rabs_Ropp, n0_K by lra. rewrite Rabs_pos_eq by (apply Rmult_le_pos; [auto|apply K3_nonneg]). apply Rmult_le_compat_l; auto. apply K3_le. lra.
Qed.
Lemma taylor : exists C, 0 <= C /\ forall t, 0 <= t -> Rabs (SS nc m mu t - SS nc m mu 0 - cc nc * d2 mu * (t * t)) <= C * (t * t * t).
Proof.
  pose proof mu_pos as M0. pose proof (cc_pos nc) as C0. assert (D0 : 0 < dl) by (unfold dl; lra). pose proof (Rabs_pos m).
  assert (L0 : 0 <= LL) by (apply Rle_trans with (2 := d3_bound mu ltac:(lra)); apply Rabs_pos).
  assert (d20 : 0 <= d2 mu). { unfold d2. pose proof (sq_pos mu Hm). apply Rmult_le_pos; [lra|]. apply Rplus_le_le_0_compat; [lra|]. apply Rdiv_le_0_compat; nra. }
  assert (XK : exists k, 0 < k /\ mu = k * dl) by (exists (mu / dl); split; [apply Rdiv_lt_0_compat; lra|field; lra]). destruct XK as (k & K0 & KE).
  set (A := 2 * ((1 + k) * (1 + k) * (1 + k)) + 2 * (k * k * k) + d2 mu / dl).
  assert (A0 : 0 <= A). { unfold A. assert (0 <= d2 mu / dl) by (apply Rdiv_le_0_compat; lra). assert (0 < k * k * k) by (repeat apply Rmult_lt_0_compat; lra). assert (0 < (1 + k) * (1 + k) * (1 + k)) by (repeat apply Rmult_lt_0_compat; lra). lra. }
  exists (cc nc * (LL / 3) + cc nc * A). split; [apply Rplus_le_le_0_compat; apply Rmult_le_pos; lra|]. intros t Ht.
  assert (T3 : 0 <= t * t * t) by (apply Rmult_le_pos; nra).
  destruct (Rle_dec t dl) as [L|L].
  - rewrite !SS_in by (unfold dl in L; lra). rewrite Rplus_0_r, Rminus_0_r.
    replace (cc nc * (K3 m (mu + t) + K3 m (mu - t)) - cc nc * (K3 m mu + K3 m mu) - cc nc * d2 mu * (t * t)) with (cc nc * E0 t) by (unfold E0; ring).
    rewrite Rabs_mult, (Rabs_pos_eq (cc nc)) by auto. pose proof (E_near t ltac:(lra)) as E. assert (0 <= cc nc * A * (t * t * t)) by (apply Rmult_le_pos; [apply Rmult_le_pos|]; auto). nra.
  - assert (Lt : dl < t) by lra. assert (MK : mu <= k * t) by (rewrite KE at 1; nra).
    assert (U1 : Rabs (charge_density_zero_temp nc m (mu + t)) <= cc nc * (((1 + k) * t) * ((1 + k) * t) * ((1 + k) * t))) by (apply n0_le; rewrite Rabs_pos_eq; nra).
    assert (U2 : Rabs (charge_density_zero_temp nc m (mu - t)) <= cc nc * (((1 + k) * t) * ((1 + k) * t) * ((1 + k) * t))) by (apply n0_le; apply Rabs_le; nra).
    assert (U3' : Rabs (charge_density_zero_temp nc m mu) <= cc nc * ((k * t) * (k * t) * (k * t))) by (apply n0_le; rewrite Rabs_pos_eq; lra).
    assert (U4 : 0 <= d2 mu * (t * t) <= d2 mu / dl * (t * t * t)).
    { split; [apply Rmult_le_pos; nra|]. replace (d2 mu / dl * (t * t * t)) with (d2 mu * (t * t) * (t / dl)) by (field; lra). rewrite <- (Rmult_1_r (d2 mu * (t * t))) at 1. apply Rmult_le_compat_l; [apply Rmult_le_pos; nra|].
      apply Rmult_le_reg_r with dl; [lra|]. unfold Rdiv. rewrite Rmult_assoc, Rinv_l by lra. lra. }
    unfold SS. rewrite Rplus_0_r, Rminus_0_r. set (a := charge_density_zero_temp nc m (mu + t)) in *. set (b := charge_density_zero_temp nc m (mu - t)) in *. set (n := charge_density_zero_temp nc m mu) in *.
    assert (U5 : Rabs (a + b - (n + n) - cc nc * d2 mu * (t * t)) <= Rabs a + Rabs b + 2 * Rabs n + cc nc * (d2 mu * (t * t))).
    { assert (X : 0 <= cc nc * (d2 mu * (t * t))) by (apply Rmult_le_pos; lra). replace (cc nc * d2 mu * (t * t)) with (cc nc * (d2 mu * (t * t))) by ring. unfold Rabs; repeat destruct Rcase_abs; lra. }
    apply Rle_trans with (1 := U5). assert (X : cc nc * (d2 mu * (t * t)) <= cc nc * (d2 mu / dl * (t * t * t))) by (apply Rmult_le_compat_l; lra).
    apply Rle_trans with (cc nc * (((1 + k) * t) * ((1 + k) * t) * ((1 + k) * t)) + cc nc * (((1 + k) * t) * ((1 + k) * t) * ((1 + k) * t)) + 2 * (cc nc * ((k * t) * (k * t) * (k * t))) + cc nc * (d2 mu / dl * (t * t * t))); [lra|].
    assert (Y : 0 <= cc nc * (LL / 3) * (t * t * t)) by (apply Rmult_le_pos; [apply Rmult_le_pos; lra|auto]).
    unfold A. ring_simplify. ring_simplify in Y. lra.
Qed.
End Somm.

(** ** Moments of the weight *)
Lemma smear_0 Y : is_RInt smear 0 Y (/ 2 - / (exp Y + 1)).
Proof.
  assert (H : is_RInt smear 0 Y ((- / (exp Y + 1)) - (- / (exp 0 + 1)))).
  { apply (ftc (fun y => - / (exp y + 1))); [|apply smear_c]. intros y. pose proof (exp_pos y). rewrite <- smear_F. auto_derive; [lra|]. field. lra. }
  rewrite exp_0 in H. replace (/ 2 - / (exp Y + 1)) with (- / (exp Y + 1) - - / (1 + 1)); [exact H|]. replace (1 + 1) with 2 by ring. ring.
Qed.
Lemma smear_2 Y : is_RInt (fun y => smear y * (y * y)) 0 Y (2 * I1 Y - Y * Y * / (exp Y + 1)).
Proof.
  set (F := fun y => 2 * I1 y - y * y * / (exp y + 1)).
  assert (H : is_RInt (fun y => smear y * (y * y)) 0 Y (F Y - F 0)).
  { apply ftc.
    - intros y. unfold F. pose proof (exp_pos y). pose proof (I1_d y) as D. rewrite <- smear_F. auto_derive; [split; [eexists; exact D|split; [lra|auto]]|].
      change (Derive (fun x => I1 x) y) with (Derive I1 y). rewrite (is_derive_unique _ _ _ D). unfold g1. field. lra.
    - intros y. apply (continuous_mult (K := R_AbsRing)); [apply smear_c|]. apply (ex_derive_continuous (K := R_AbsRing) (V := R_NormedModule)). auto_derive. auto. }
  replace (2 * I1 Y - Y * Y * / (exp Y + 1)) with (F Y - F 0); [exact H|]. unfold F. unfold I1 at 2. rewrite RInt_point. unfold zero; simpl. ring.
Qed.
Lemma exp_cube y : 0 <= y -> y * y * y <= 4096 * exp (y / 2).
Proof.
  intros Hy. pose proof (exp_ge_sq (y / 4) ltac:(lra)) as T. replace (exp (y / 2)) with (exp (y / 4) * exp (y / 4)) by (rewrite <- exp_plus; f_equal; field).
  set (z := exp (y / 4)) in *. assert (z >= 1 + y * y / 64) by lra. assert (0 <= y * y) by nra. assert (Z : z * z >= (1 + y * y / 64) * (1 + y * y / 64)) by nra.
  assert (4096 * ((1 + y * y / 64) * (1 + y * y / 64)) >= y * y * y); [|nra].
  assert (y * y * y <= (y * y) * (y * y) + y * y) by nra. nra.
Qed.
Lemma smear_3 Y : 0 <= Y -> forall v, is_RInt (fun y => smear y * (y * y * y)) 0 Y v -> v <= 8192.
Proof.
  intros HY v Hv. assert (H : is_RInt (fun y => 4096 * exp (- (y / 2))) 0 Y ((- 8192 * exp (- (Y / 2))) - (- 8192 * exp (- (0 / 2))))).
  { apply (ftc (fun y => - 8192 * exp (- (y / 2)))).
    - intros y. auto_derive; [auto|]. unfold Rdiv. field.
    - intros y. apply (ex_derive_continuous (K := R_AbsRing) (V := R_NormedModule)). auto_derive. auto. }
  apply Rle_trans with (- 8192 * exp (- (Y / 2)) - - 8192 * exp (- (0 / 2))).
  - apply (is_RInt_le _ _ 0 Y _ _ HY Hv H). intros y Hy. pose proof (exp_cube y ltac:(lra)) as B. pose proof (exp_pos (y / 2)). pose proof (exp_pos (- (y / 2))). pose proof (exp_pos (- y)).
    assert (S : smear y <= exp (- y)). { unfold smear. rewrite exp_Ropp. pose proof (exp_pos y). apply Rinv_le_contravar; [auto|]. assert (0 < / exp y) by now apply Rinv_0_lt_compat. lra. }
    apply Rle_trans with (exp (- y) * (4096 * exp (y / 2))); [apply Rmult_le_compat; auto; [left; apply smear_pos|apply Rmult_le_pos; nra]|].
    right. rewrite <- Rmult_assoc, (Rmult_comm (exp (- y))), Rmult_assoc, <- exp_plus. do 2 f_equal. field.
  - replace (- (0 / 2)) with 0 by field. rewrite exp_0. pose proof (exp_pos (- (Y / 2))). lra.
Qed.
Lemma inv_exp_inf : tends INF (fun Y => / (exp Y + 1)) 0.
Proof.
  apply (tends_squeeze0 _ (fun Y => / Y)); [|apply tends_inv_infty]. exists 0. intros Y HY. pose proof (exp_ineq1_le Y). rewrite Rabs_pos_eq by (left; apply Rinv_0_lt_compat; lra). apply Rinv_le_contravar; lra.
Qed.
Lemma sq_exp_inf : tends INF (fun Y => Y * Y * / (exp Y + 1)) 0.
Proof.
  apply (tends_squeeze0 _ (fun Y => 4096 * / Y * 1)).
  - exists 1. intros Y HY. pose proof (exp_cube Y ltac:(lra)) as B. pose proof (exp_pos Y). rewrite Rabs_pos_eq by (apply Rmult_le_pos; [nra|left; apply Rinv_0_lt_compat; lra]).
    assert (E : exp (Y / 2) <= exp Y) by (left; apply exp_increasing; lra).
    apply Rmult_le_reg_r with (Y * (exp Y + 1)); [nra|]. replace (Y * Y * / (exp Y + 1) * (Y * (exp Y + 1))) with (Y * Y * Y) by (field; lra). replace (4096 * / Y * 1 * (Y * (exp Y + 1))) with (4096 * (exp Y + 1)) by (field; lra). lra.
  - eapply tends_eq; [|apply tends_mult; [apply tends_mult; [apply tends_const|apply tends_inv_infty]|apply tends_const]]. ring.
Qed.
Lemma sommerfeld J g m mu I : exact_integrator J -> Rabs m < mu -> exists C, forall T, 0 < T ->
  Rabs (charge_density_with_method J g m (/ T) mu I - (charge_density_zero_temp (g_nc g) m mu + INR (g_nc g) * (2 * (mu * mu) - m * m) / (6 * sqrt (mu * mu - m * m)) * (T * T))) <= C * (T * T * T).
Proof.
  intros HJ Hm. destruct (taylor (g_nc g) m mu Hm) as (C & C0 & HC). exists (8192 * C). intros T HT.
  set (S0 := SS (g_nc g) m mu 0) in *. set (a := cc (g_nc g) * d2 m mu) in *.
  pose proof (half_smeared J g m mu I HJ T HT) as HL.
  set (r := fun Y => RInt (sym g m mu T) 0 Y - S0 * (/ 2 - / (exp Y + 1)) - a * (T * T) * (2 * I1 Y - Y * Y * / (exp Y + 1))).
  assert (HR : tends INF r (charge_density_with_method J g m (/ T) mu I - S0 * (/ 2 - 0) - a * (T * T) * (2 * (PI * PI / 12) - 0))).
  { unfold r. apply tends_minus; [apply tends_minus; [exact HL|]|].
    - apply tends_mult; [apply tends_const|]. apply tends_minus; [apply tends_const|apply inv_exp_inf].
    - apply tends_mult; [apply tends_const|]. apply tends_minus; [apply tends_mult; [apply tends_const|apply I1_inf]|apply sq_exp_inf]. }
  assert (B : forall Y, 0 <= Y -> Rabs (r Y) <= 8192 * C * (T * T * T)).
  { intros Y HY. set (h := fun y => smear y * (SS (g_nc g) m mu (T * y) - S0 - a * ((T * y) * (T * y)))).
    assert (Hh : is_RInt h 0 Y (r Y)).
    { pose proof (is_RInt_minus (V := R_NormedModule) _ _ _ _ _ _ (is_RInt_minus (V := R_NormedModule) _ _ _ _ _ _ (sym_is g m mu T 0 Y) (is_RInt_scal (V := R_NormedModule) _ _ _ S0 _ (smear_0 Y))) (is_RInt_scal (V := R_NormedModule) _ _ _ (a * (T * T)) _ (smear_2 Y))) as W.
      eapply is_RInt_ext; [|exact W]. intros y _. unfold h, sym, minus, plus, opp, scal; simpl; unfold mult; simpl. ring. }
    assert (C3 : forall y, continuous (fun y => smear y * (y * y * y)) y).
    { intros y. apply (continuous_mult (K := R_AbsRing)); [apply smear_c|]. apply (ex_derive_continuous (K := R_AbsRing) (V := R_NormedModule)). auto_derive. auto. }
    assert (X3 : is_RInt (fun y => smear y * (y * y * y)) 0 Y (RInt (fun y => smear y * (y * y * y)) 0 Y)) by (apply (RInt_correct (V := R_CompleteNormedModule)), (ex_RInt_continuous (V := R_CompleteNormedModule)); intros; apply C3).
    pose proof (smear_3 Y HY _ X3) as M3. set (v := RInt (fun y => smear y * (y * y * y)) 0 Y) in *.
    pose proof (is_RInt_scal (V := R_NormedModule) _ _ _ (C * (T * T * T)) _ X3) as X4.
    assert (N : norm (r Y) <= scal (C * (T * T * T)) v).
    { apply (norm_RInt_le (V := R_NormedModule) h (fun y => scal (C * (T * T * T)) (smear y * (y * y * y))) 0 Y (r Y) _ HY); [|exact Hh|exact X4].
      intros y Hy. change (norm (h y)) with (Rabs (h y)). unfold h. rewrite Rabs_mult, (Rabs_pos_eq (smear y)) by (left; apply smear_pos).
      unfold scal; simpl; unfold mult; simpl. replace (C * (T * T * T) * (smear y * (y * y * y))) with (smear y * (C * ((T * y) * (T * y) * (T * y)))) by ring.
      apply Rmult_le_compat_l; [left; apply smear_pos|]. apply HC. nra. }
    change (norm (r Y)) with (Rabs (r Y)) in N. unfold scal in N; simpl in N; unfold mult in N; simpl in N.
    assert (0 <= C * (T * T * T)) by (apply Rmult_le_pos; [auto|]; repeat apply Rmult_le_pos; lra). nra. }
  set (l := charge_density_with_method J g m (/ T) mu I - S0 * (/ 2 - 0) - a * (T * T) * (2 * (PI * PI / 12) - 0)) in *.
  assert (El : l = charge_density_with_method J g m (/ T) mu I - (charge_density_zero_temp (g_nc g) m mu + INR (g_nc g) * (2 * (mu * mu) - m * m) / (6 * sqrt (mu * mu - m * m)) * (T * T))).
  { unfold l, S0, a, SS, cc, d2, sq. rewrite Rplus_0_r, Rminus_0_r. pose proof (sq_pos m mu Hm) as P. unfold sq in P. pose proof (sq_arg m mu Hm) as P'. set (s := sqrt (mu * mu - m * m)) in *.
    assert (SQ : s * s = mu * mu - m * m) by (apply sqrt_sqrt; lra). replace (2 * (mu * mu) - m * m) with (s * s + mu * mu) by lra. field. split; [lra|apply PI_neq0]. }
  rewrite <- El. apply Rabs_le. split.
  - apply (filterlim_le (F := Rbar_locally p_infty) (fun _ => - (8192 * C * (T * T * T))) r (- (8192 * C * (T * T * T))) l); [|apply tends_const|exact HR]. exists 0. intros Y HY. pose proof (B Y ltac:(lra)) as BB. apply Rabs_le_between in BB. lra.
  - apply (filterlim_le (F := Rbar_locally p_infty) r (fun _ => 8192 * C * (T * T * T)) l (8192 * C * (T * T * T))); [|exact HR|apply tends_const]. exists 0. intros Y HY. pose proof (B Y ltac:(lra)) as BB. apply Rabs_le_between in BB. lra.
Qed.
