(** * The charge density increases with temperature *)
From Coq Require Import Reals Psatz Lia.
From Coquelicot Require Import Coquelicot.
From Verif Require Import Num MCommon MConsts MThermal MDress MQuark MUtils SpecInt SpecLim SpecSmear PDistr PDistr2 PVac PLim PInt PCold PBasel PWeights PWeights2 PBound PColdG PColdI PFermi PColdQ PColdFin PDensity PSmear.
Open Scope R_scope.

(** ** The cube of the Fermi momentum, continued by 0 *)
Definition U3 (z : R) : R := sqrt z ^ 3.
Lemma U3_d z : is_derive U3 z (3 / 2 * sqrt z).
Proof.
  destruct (Rtotal_order z 0) as [H|[->|H]].
  - rewrite sqrt_neg_0 by lra. rewrite Rmult_0_r. apply (is_derive_ext_loc (fun _ => 0)); [|apply (is_derive_const (K := R_AbsRing) (V := R_NormedModule) 0)].
    assert (P : 0 < - z / 2) by lra. exists (mkposreal _ P). intros y Hy. unfold ball in Hy; simpl in Hy; unfold AbsRing_ball, abs, minus, plus, opp in Hy; simpl in Hy. apply Rabs_def2 in Hy.
    unfold U3. rewrite sqrt_neg_0 by lra. change (0 = 0 ^ 3)%R. ring.
  - rewrite sqrt_0, Rmult_0_r. apply is_derive_Reals. intros eps He. assert (P : 0 < eps * eps) by nra. exists (mkposreal _ P). intros h Hh Hd. simpl in Hd. unfold U3. rewrite Rplus_0_l, sqrt_0, Rminus_0_r.
    replace (0 ^ 3) with 0 by ring. rewrite Rminus_0_r. destruct (Rlt_dec h 0) as [L|L].
    + rewrite sqrt_neg_0 by lra. replace (0 ^ 3 / h) with 0 by (field; auto). rewrite Rabs_R0. auto.
    + assert (P0 : 0 < h) by lra. rewrite Rabs_pos_eq in Hd by lra. replace (sqrt h ^ 3 / h) with (sqrt h).
      * rewrite Rabs_pos_eq by apply sqrt_pos. rewrite <- (sqrt_square eps) by lra. apply sqrt_lt_1; lra.
      * replace (sqrt h ^ 3) with (sqrt h * (sqrt h * sqrt h)) by ring. rewrite sqrt_sqrt by lra. field. auto.
  - pose proof (sqrt_lt_R0 z H) as S. unfold U3. auto_derive; [auto|]. simpl. field. lra.
Qed.
Definition K3 (m x : R) : R := U3 (x * x - m * m).
Definition dK3 (m x : R) : R := 3 * (x * sqrt (x * x - m * m)).
Lemma K3_d m x : is_derive (K3 m) x (dK3 m x).
Proof.
  unfold K3. assert (H : is_derive (fun x => x * x - m * m) x (2 * x)) by (auto_derive; [auto|ring]).
  pose proof (is_derive_comp (K := R_AbsRing) (V := R_NormedModule) U3 (fun x => x * x - m * m) x _ _ (U3_d _) H) as D.
  evar_last; [exact D|]. unfold scal; simpl; unfold mult; simpl. unfold dK3. field.
Qed.
Lemma dK3_mono m x y : 0 <= x <= y -> dK3 m x <= dK3 m y.
Proof.
  intros H. unfold dK3. apply Rmult_le_compat_l; [lra|]. apply Rmult_le_compat; try lra; [apply sqrt_pos|]. apply sqrt_le_1_alt. nra.
Qed.
Lemma dK3_strict m x y : Rabs m <= x < y -> dK3 m x < dK3 m y.
Proof.
  intros H. pose proof (Rabs_pos m). pose proof (sqr_Rabs m). unfold dK3. apply Rmult_lt_compat_l; [lra|].
  apply Rle_lt_trans with (x * sqrt (y * y - m * m)); [apply Rmult_le_compat_l; [lra|]; apply sqrt_le_1_alt; nra|].
  apply Rmult_lt_compat_r; [|lra]. apply sqrt_lt_R0. nra.
Qed.
Lemma dK3_odd m x : dK3 m (- x) = - dK3 m x.
Proof. unfold dK3. replace (- x * - x) with (x * x) by ring. ring. Qed.
Lemma mono_d (f df : R -> R) a b : a <= b -> (forall x, a <= x <= b -> is_derive f x (df x)) -> (forall x, a <= x <= b -> 0 <= df x) -> f a <= f b.
Proof.
  intros H D P. destruct (MVT_gen f a b df) as (c & Hc & E); rewrite ?Rmin_left, ?Rmax_right in * by auto.
  - intros x Hx. apply D. lra.
  - intros x Hx. apply continuity_pt_filterlim. apply (ex_derive_continuous (K := R_AbsRing) (V := R_NormedModule)). eexists. now apply D.
  - pose proof (P c Hc). nra.
Qed.
Lemma strict_d (f df : R -> R) a b : a < b -> (forall x, a <= x <= b -> is_derive f x (df x)) -> (forall x, a <= x <= b -> 0 < df x) -> f a < f b.
Proof.
  intros H D P. destruct (MVT_gen f a b df) as (c & Hc & E); rewrite ?Rmin_left, ?Rmax_right in * by lra.
  - intros x Hx. apply D. lra.
  - intros x Hx. apply continuity_pt_filterlim. apply (ex_derive_continuous (K := R_AbsRing) (V := R_NormedModule)). eexists. now apply D.
  - pose proof (P c Hc). nra.
Qed.

Section Sym.
Variables (nc : nat) (m mu : R).
Hypothesis Hmu : 0 <= mu.
Notation n0 := (charge_density_zero_temp nc m).
Lemma n0_K x : 0 <= x -> n0 x = cc nc * K3 m x.
Proof.
  intros Hx. rewrite density_closed. fold (cc nc). pose proof (Rabs_pos m). pose proof (sqr_Rabs m). rewrite (hcube_low m (- x)) by lra. rewrite Rminus_0_r. f_equal.
  unfold hcube, K3, U3. destruct (Rle_dec x (Rabs m)).
  - rewrite Rmax_right by auto. rewrite sqr_Rabs, Rminus_diag_eq, sqrt_0 by auto. rewrite sqrt_neg_0 by nra. reflexivity.
  - now rewrite Rmax_left by lra.
Qed.
Definition SS (t : R) : R := n0 (mu + t) + n0 (mu - t).
Lemma SS_in t : 0 <= t <= mu -> SS t = cc nc * (K3 m (mu + t) + K3 m (mu - t)).
Proof. intros H. unfold SS. rewrite !n0_K by lra. ring. Qed.
Lemma SS_out t : mu <= t -> SS t = cc nc * (K3 m (t + mu) - K3 m (t - mu)).
Proof. intros H. unfold SS. replace (mu - t) with (- (t - mu)) by ring. rewrite density_odd, !n0_K by lra. rewrite (Rplus_comm mu t). ring. Qed.
Lemma cc_pos : 0 <= cc nc.
Proof. unfold cc. pose proof (pos_INR nc). pose proof PI_RGT_0. apply Rdiv_le_0_compat; nra. Qed.
Lemma D_in t : is_derive (fun t => K3 m (mu + t) + K3 m (mu - t)) t (dK3 m (mu + t) - dK3 m (mu - t)).
Proof.
  pose proof (K3_d m (mu + t)) as A. pose proof (K3_d m (mu - t)) as B. auto_derive; [repeat split; eexists; eassumption|].
  change (Derive (fun x => K3 m x)) with (Derive (K3 m)). rewrite (is_derive_unique _ _ _ A). replace (mu + - t) with (mu - t) by ring. rewrite (is_derive_unique _ _ _ B). ring.
Qed.
Lemma D_out t : is_derive (fun t => K3 m (t + mu) - K3 m (t - mu)) t (dK3 m (t + mu) - dK3 m (t - mu)).
Proof.
  pose proof (K3_d m (t + mu)) as A. pose proof (K3_d m (t - mu)) as B. auto_derive; [repeat split; eexists; eassumption|].
  change (Derive (fun x => K3 m x)) with (Derive (K3 m)). rewrite (is_derive_unique _ _ _ A). replace (t + - mu) with (t - mu) by ring. rewrite (is_derive_unique _ _ _ B). ring.
Qed.
Lemma SS_mono s t : 0 <= s <= t -> SS s <= SS t.
Proof.
  assert (In : forall s t, 0 <= s -> s <= t -> t <= mu -> SS s <= SS t).
  { intros a b H1 H2 H3. rewrite !SS_in by lra. apply Rmult_le_compat_l; [apply cc_pos|]. apply (mono_d _ _ a b H2 (fun x _ => D_in x)). intros x Hx. pose proof (dK3_mono m (mu - x) (mu + x) ltac:(lra)). lra. }
  assert (Out : forall s t, mu <= s -> s <= t -> SS s <= SS t).
  { intros a b H1 H2. rewrite !SS_out by lra. apply Rmult_le_compat_l; [apply cc_pos|]. apply (mono_d _ _ a b H2 (fun x _ => D_out x)). intros x Hx. pose proof (dK3_mono m (x - mu) (x + mu) ltac:(lra)). lra. }
  intros H. destruct (Rle_dec t mu); [apply In; lra|]. destruct (Rle_dec mu s); [apply Out; lra|].
  apply Rle_trans with (SS mu); [apply In; lra|apply Out; lra].
Qed.
Lemma SS_strict s t : (0 < nc)%nat -> 0 < mu -> mu + Rabs m <= s < t -> SS s < SS t.
Proof.
  intros Hn Hp H. pose proof (Rabs_pos m). rewrite !SS_out by lra. apply Rmult_lt_compat_l.
  - unfold cc. pose proof PI_RGT_0. apply Rdiv_lt_0_compat; [now apply lt_0_INR|nra].
  - apply (strict_d _ _ s t (proj2 H) (fun x _ => D_out x)). intros x Hx. pose proof (dK3_strict m (x - mu) (x + mu) ltac:(lra)). lra.
Qed.
End Sym.

Section Temp.
Variables (J : Integrator) (g : globals R) (m mu : R) (I : Integral R).
Hypothesis HJ : exact_integrator J.
Notation n0 := (charge_density_zero_temp (g_nc g) m).
Notation cd T := (charge_density_with_method J g m (/ T) mu I).
Definition sym (T y : R) : R := smear y * SS (g_nc g) m mu (T * y).
Lemma sym_c T y : continuous (sym T) y.
Proof.
  unfold sym, SS. apply (continuous_mult (K := R_AbsRing)); [apply smear_c|]. apply (continuous_plus (V := R_NormedModule)).
  - apply (continuous_comp (fun y => mu + T * y) n0); [|apply density_continuous]. apply (ex_derive_continuous (K := R_AbsRing) (V := R_NormedModule)). auto_derive. auto.
  - apply (continuous_comp (fun y => mu - T * y) n0); [|apply density_continuous]. apply (ex_derive_continuous (K := R_AbsRing) (V := R_NormedModule)). auto_derive. auto.
Qed.
Lemma sym_is T a b : is_RInt (sym T) a b (RInt (sym T) a b).
Proof. apply (RInt_correct (V := R_CompleteNormedModule)), (ex_RInt_continuous (V := R_CompleteNormedModule)). intros; apply sym_c. Qed.
Lemma half_smeared T : 0 < T -> tends INF (fun Y => RInt (sym T) 0 Y) (cd T).
Proof.
  intros HT. assert (Hb : 0 < / T) by now apply Rinv_0_lt_compat. pose proof (smeared J g (/ T) m mu I HJ Hb) as H.
  assert (E : forall Y, is_RInt (ff g (/ T) m mu) (- Y) Y (RInt (sym T) 0 Y)).
  { intros Y. assert (C : forall y, continuous (ff g (/ T) m mu) y).
    { intros y. unfold ff. apply (continuous_mult (K := R_AbsRing)); [apply smear_c|]. apply (continuous_comp (fun y => mu + y / / T) n0); [|apply density_continuous].
      apply (ex_derive_continuous (K := R_AbsRing) (V := R_NormedModule)). auto_derive. auto. }
    assert (X : forall a b, is_RInt (ff g (/ T) m mu) a b (RInt (ff g (/ T) m mu) a b)) by (intros; apply (RInt_correct (V := R_CompleteNormedModule)), (ex_RInt_continuous (V := R_CompleteNormedModule)); intros; apply C).
    pose proof (X (- Y) (- 0)) as L. apply (is_RInt_swap (V := R_NormedModule)) in L. apply (is_RInt_comp_opp (V := R_NormedModule)) in L. apply (is_RInt_opp (V := R_NormedModule)) in L.
    pose proof (is_RInt_plus (V := R_NormedModule) _ _ _ _ _ _ L (X 0 Y)) as S. apply (is_RInt_ext (V := R_NormedModule) _ (sym T)) in S.
    2:{ intros y _. unfold ff, sym, SS, plus, opp; simpl. rewrite smear_even. replace (mu + - y / / T) with (mu - T * y) by (field; lra). replace (mu + y / / T) with (mu + T * y) by (field; lra). ring. }
    rewrite (uniq _ _ _ _ _ (sym_is T 0 Y) S). pose proof (is_RInt_Chasles (V := R_NormedModule) _ _ _ _ _ _ (X (- Y) 0) (X 0 Y)) as W.
    evar_last; [exact W|]. unfold plus, opp; simpl. rewrite Ropp_0. ring. }
  intros P HP. destruct (H P HP) as [Q1 Q2 [M1 H1] [M2 H2] HQ]. exists (Rmax (- M1) M2). intros Y HY.
  pose proof (Rmax_l (- M1) M2). pose proof (Rmax_r (- M1) M2). destruct (HQ (- Y) Y (H1 (- Y) ltac:(lra)) (H2 Y ltac:(lra))) as (v & V & PV). cbn [fst snd] in V.
  now rewrite (uniq _ _ _ _ _ (E Y) V).
Qed.
Lemma sym_diff T1 T2 Y : 0 < T1 < T2 -> 0 <= mu -> 0 <= Y -> RInt (sym T1) 0 Y <= RInt (sym T2) 0 Y.
Proof.
  intros HT Hm HY. apply (RInt_le _ _ 0 Y HY); try (eexists; apply sym_is). intros y Hy. unfold sym. apply Rmult_le_compat_l; [left; apply smear_pos|]. apply SS_mono; nra.
Qed.
Lemma cd_T T1 T2 : 0 < T1 < T2 -> 0 <= mu -> cd T1 <= cd T2.
Proof.
  intros HT Hm. apply (filterlim_le (F := Rbar_locally p_infty) (fun Y => RInt (sym T1) 0 Y) (fun Y => RInt (sym T2) 0 Y) (cd T1) (cd T2)); [|apply half_smeared; lra|apply half_smeared; lra].
  exists 0. intros Y HY. apply sym_diff; lra.
Qed.
Lemma cd_T_strict T1 T2 : (0 < g_nc g)%nat -> 0 < T1 < T2 -> 0 < mu -> cd T1 < cd T2.
Proof.
  intros Hn HT Hm. set (y0 := (mu + Rabs m + 1) / T1). pose proof (Rabs_pos m). assert (Y0 : 0 < y0) by (apply Rdiv_lt_0_compat; lra).
  assert (Y1 : T1 * y0 = mu + Rabs m + 1) by (unfold y0; field; lra).
  set (d := RInt (sym T2) y0 (y0 + 1) - RInt (sym T1) y0 (y0 + 1)).
  assert (Hd : 0 < d).
  { apply Rlt_Rminus. apply (RInt_lt _ _ y0 (y0 + 1)); try lra; try (intros; apply sym_c). intros y Hy. unfold sym. apply Rmult_lt_compat_l; [apply smear_pos|]. apply SS_strict; auto; nra. }
  apply Rlt_le_trans with (cd T1 + d); [lra|].
  assert (Cs : forall T Y, y0 + 1 <= Y -> RInt (sym T) 0 Y = RInt (sym T) 0 y0 + RInt (sym T) y0 (y0 + 1) + RInt (sym T) (y0 + 1) Y).
  { intros T Y HY. pose proof (is_RInt_Chasles (V := R_NormedModule) _ _ _ _ _ _ (is_RInt_Chasles (V := R_NormedModule) _ _ _ _ _ _ (sym_is T 0 y0) (sym_is T y0 (y0 + 1))) (sym_is T (y0 + 1) Y)) as W. exact (uniq _ _ _ _ _ (sym_is T 0 Y) W). }
  apply (filterlim_le (F := Rbar_locally p_infty) (fun Y => RInt (sym T1) 0 Y + d) (fun Y => RInt (sym T2) 0 Y) (cd T1 + d) (cd T2)); [|apply (tends_plus (F := Rbar_locally p_infty) (fun Y => RInt (sym T1) 0 Y) (fun _ => d)); [apply half_smeared; lra|apply tends_const]|apply half_smeared; lra].
  exists (y0 + 1). intros Y HY. rewrite (Cs T1 Y), (Cs T2 Y) by lra. unfold d. pose proof (sym_diff T1 T2 y0 HT ltac:(lra) ltac:(lra)).
  assert (RInt (sym T1) (y0 + 1) Y <= RInt (sym T2) (y0 + 1) Y); [|lra].
  apply (RInt_le _ _ (y0 + 1) Y); [lra|eexists; apply sym_is|eexists; apply sym_is|]. intros y Hy. unfold sym. apply Rmult_le_compat_l; [left; apply smear_pos|]. apply SS_mono; nra.
Qed.
End Temp.
