(** * The charge density with an exact integration routine *)
From Coq Require Import Reals Psatz Lia.
From Coquelicot Require Import Coquelicot.
From Verif Require Import Num MCommon MConsts MThermal MDress MQuark MUtils SpecInt SpecLim PDistr PDistr2 PVac PLim PInt PCold PBasel PWeights PWeights2 PBound PColdG PColdI PFermi PColdQ PColdFin.
Open Scope R_scope.

(** ** Massless quarks: second moment *)
Definition g2 (x : R) : R := x * x / (exp x + 1).
Lemma g2_c x : continuous g2 x.
Proof. apply (ex_derive_continuous (K := R_AbsRing) (V := R_NormedModule)). unfold g2. pose proof (exp_pos x). auto_derive. lra. Qed.
Definition I2 (x : R) : R := RInt g2 0 x.
Lemma I2_is a b : is_RInt g2 a b (I2 b - I2 a).
Proof.
  assert (E : forall u v, is_RInt g2 u v (RInt g2 u v)) by (intros; apply (RInt_correct (V := R_CompleteNormedModule)), (ex_RInt_continuous (V := R_CompleteNormedModule)); intros; apply g2_c).
  pose proof (is_RInt_Chasles (V := R_NormedModule) g2 a 0 b (RInt g2 a 0) (RInt g2 0 b) (E a 0) (E 0 b)) as H. unfold I2.
  replace (RInt g2 0 b - RInt g2 0 a) with (plus (RInt g2 a 0) (RInt g2 0 b)); [exact H|].
  rewrite <- (opp_RInt_swap (V := R_CompleteNormedModule) g2 0 a) by (eexists; apply E). unfold plus, opp; simpl. ring.
Qed.
Lemma I2_d x : is_derive I2 x (g2 x).
Proof.
  unfold I2. apply (is_derive_RInt (V := R_NormedModule) g2 (fun x => RInt g2 0 x) 0 x).
  - apply filter_forall. intros y. pose proof (I2_is 0 y) as H. unfold I2 in H. rewrite (RInt_point 0 g2) in H. change (@zero R_NormedModule) with 0 in H. rewrite Rminus_0_r in H. exact H.
  - apply g2_c.
Qed.
(** [I2] over a window of fixed width goes to 0. *)
Lemma g2_bound x : 0 < x -> Rabs (g2 x) <= 256 / x ^ 2.
Proof.
  intros Hx. unfold g2. pose proof (exp_pos x). rewrite Rabs_pos_eq by (apply Rdiv_le_0_compat; nra).
  assert (H4 : x ^ 4 / 256 <= exp x).
  { pose proof (exp_ge_sq (x / 2) ltac:(lra)) as T. replace (exp x) with (exp (x / 2) * exp (x / 2)) by (rewrite <- exp_plus; f_equal; field).
    assert (0 <= x / 2 * (x / 2) / 4) by nra. replace (x ^ 4 / 256) with ((x / 2 * (x / 2) / 4) * (x / 2 * (x / 2) / 4)) by field. apply Rmult_le_compat; lra. }
  apply Rle_trans with (x * x / (x ^ 4 / 256)).
  - unfold Rdiv. apply Rmult_le_compat_l; [nra|]. apply Rinv_le_contravar; [|lra]. apply Rmult_lt_0_compat; [apply pow_lt|]; lra.
  - right. field. lra.
Qed.
Lemma I2_window nu : tends INF (fun q => I2 (q - nu) - I2 (q + nu)) 0.
Proof.
  apply (tends_squeeze0 _ (fun q => 2 * Rabs nu * (256 * / ((q - Rabs nu) * (q - Rabs nu))))).
  - exists (Rabs nu + 1). intros q Hq. pose proof (Rabs_pos nu).
    assert (W : forall x, q - Rabs nu <= x -> norm (g2 x) <= 256 * / ((q - Rabs nu) * (q - Rabs nu))).
    { intros x Hx. apply Rle_trans with (1 := g2_bound x ltac:(lra)). unfold Rdiv. apply Rmult_le_compat_l; [lra|]. apply Rinv_le_contravar; nra. }
    pose proof (I2_is (q + nu) (q - nu)) as HI. pose proof (Rle_abs nu). pose proof (Rle_abs (- nu)) as Hn. rewrite Rabs_Ropp in Hn.
    destruct (Rle_dec 0 nu) as [G|G].
    + rewrite (Rabs_pos_eq nu) in * by auto. rewrite Rabs_minus_sym.
      pose proof (norm_RInt_le_const (V := R_NormedModule) g2 (q - nu) (q + nu) (I2 (q + nu) - I2 (q - nu)) _ ltac:(lra) ltac:(intros x Hx; apply W; lra) (I2_is _ _)) as B.
      replace (q + nu - (q - nu)) with (2 * nu) in B by ring. exact B.
    + rewrite (Rabs_left nu) in * by lra.
      pose proof (norm_RInt_le_const (V := R_NormedModule) g2 (q + nu) (q - nu) (I2 (q - nu) - I2 (q + nu)) _ ltac:(lra) ltac:(intros x Hx; apply W; lra) (I2_is _ _)) as B.
      replace (q - nu - (q + nu)) with (2 * - nu) in B by ring. exact B.
  - replace 0 with (2 * Rabs nu * (256 * (0 * 0))) by ring. apply tends_mult; [apply tends_const|]. apply tends_mult; [apply tends_const|].
    apply (tends_ext (fun q => / (q + - Rabs nu) * / (q + - Rabs nu))).
    + exists (Rabs nu + 1). intros x Hx. field. lra.
    + apply tends_mult; apply (tends_shift (fun x => / x)); apply tends_inv_infty.
Qed.
Definition dens (nu q : R) : R := q * q / (exp (q - nu) + 1) - q * q / (exp (q + nu) + 1).
Definition Chi (nu q : R) : R := I2 (q - nu) - I2 (q + nu) + 2 * nu * (I1 (q - nu) + I1 (q + nu)) + nu * nu * (I0 (q - nu) - I0 (q + nu)).
Lemma Chi_d nu q : is_derive (Chi nu) q (dens nu q).
Proof.
  unfold Chi. pose proof (exp_pos (q - nu)). pose proof (exp_pos (q + nu)).
  pose proof (I1_d (q - nu)) as A1. pose proof (I1_d (q + nu)) as A2. pose proof (I0_d (q - nu)) as A3. pose proof (I0_d (q + nu)) as A4. pose proof (I2_d (q - nu)) as A5. pose proof (I2_d (q + nu)) as A6.
  auto_derive; [repeat split; eexists; eassumption|].
  change (Derive (fun x => I2 x)) with (Derive I2). change (Derive (fun x => I1 x)) with (Derive I1). change (Derive (fun x => I0 x)) with (Derive I0).
  rewrite (is_derive_unique I2 (q + - nu) (g2 (q - nu))), (is_derive_unique I1 (q + - nu) (g1 (q - nu))), (is_derive_unique I0 (q + - nu) (/ (exp (q - nu) + 1))), (is_derive_unique I2 _ _ A6), (is_derive_unique I1 _ _ A2), (is_derive_unique I0 _ _ A4) by auto.
  unfold g1, g2, dens. field. split; lra.
Qed.
Lemma Chi_0 nu : Chi nu 0 = - (nu * nu * nu / 3).
Proof.
  assert (E2 : forall v, I2 (0 - v) - I2 (0 + v) = - (v * v * v / 3)).
  { set (Psi := fun v => I2 (0 - v) - I2 (0 + v) + v * v * v / 3). intros v. enough (Psi v = Psi 0) as EP.
    { unfold Psi in EP. replace (0 - 0) with 0 in EP by ring. rewrite (Rplus_0_l 0) in EP. lra. }
    assert (D : forall v, is_derive Psi v 0).
    { intros w. unfold Psi. pose proof (I2_d (0 - w)) as A1. pose proof (I2_d (0 + w)) as A2. auto_derive; [repeat split; eexists; eassumption|].
      change (Derive (fun x => I2 x)) with (Derive I2). rewrite (is_derive_unique I2 (0 + - w) (g2 (0 - w))), (is_derive_unique I2 _ _ A2) by auto.
      unfold g2. replace (0 - w) with (- w) by ring. rewrite !Rplus_0_l. pose proof (exp_pos w). rewrite exp_Ropp. field. split; lra. }
    assert (H : is_RInt (fun _ => 0) 0 v (Psi v - Psi 0)) by (apply (ftc Psi); [exact D|intros; apply continuous_const]).
    assert (H' : is_RInt (fun _ : R => 0) 0 v ((v - 0) * 0)) by (apply (is_RInt_const (V := R_NormedModule))). pose proof (uniq _ _ _ _ _ H H'). lra. }
  pose proof (Phi_0 nu) as E1. pose proof (I0_opp nu) as E0. specialize (E2 nu). unfold Phi in E1. unfold Chi. replace (0 - nu) with (- nu) in * by ring. rewrite Rplus_0_l in *. nra.
Qed.
Lemma Chi_inf nu : tends INF (Chi nu) (nu * (PI * PI) / 3).
Proof.
  unfold Chi. pose proof (tends_shift _ _ (- nu) I1_inf) as A1. pose proof (tends_shift _ _ nu I1_inf) as A2. pose proof (tends_shift _ _ (- nu) I0_inf) as A3. pose proof (tends_shift _ _ nu I0_inf) as A4.
  eapply tends_eq; [|apply tends_plus; [apply tends_plus; [apply I2_window|apply tends_mult; [apply tends_const|apply tends_plus; [exact A1|exact A2]]]|apply tends_mult; [apply tends_const|apply tends_minus; [exact A3|exact A4]]]]. field.
Qed.
(** ** From the compactified integral to the half line *)
Lemma half_of_compact (f : R -> R) (v : R) : (forall x, 0 <= x -> continuous f x) -> is_RInt (compact_R f) 0 1 v -> tends INF (fun Q => RInt f 0 Q) v.
Proof.
  intros Hc Hv. apply (compact_limit f v Hc).
  assert (K : forall e, 0 < e < 1 -> RInt (compact_R f) e 1 = v - RInt (compact_R f) 0 e).
  { intros e He. assert (X1 : ex_RInt (compact_R f) 0 e) by (apply (ex_RInt_Chasles_1 (V := R_CompleteNormedModule) _ 0 e 1); [lra|eexists; exact Hv]).
    assert (X2 : ex_RInt (compact_R f) e 1) by (apply (ex_RInt_Chasles_2 (V := R_CompleteNormedModule) _ 0 e 1); [lra|eexists; exact Hv]).
    pose proof (RInt_Chasles (V := R_CompleteNormedModule) _ 0 e 1 X1 X2) as C. rewrite (is_RInt_unique _ _ _ _ Hv) in C. unfold plus in C; simpl in C. lra. }
  apply (tends_ext (fun e => v - RInt (compact_R f) 0 e)).
  - apply (ev_right _ 0 1); [lra|]. intros e He. now rewrite K.
  - replace v with (v - 0) at 1 by ring. apply tends_minus; [apply tends_const|].
    destruct (ex_RInt_ub (compact_R f) 0 1) as [M HM]; [eexists; exact Hv|].
    apply (tends_squeeze0 _ (fun e => e * M)).
    + apply (ev_right _ 0 1); [lra|]. intros e He.
      assert (X1 : ex_RInt (compact_R f) 0 e) by (apply (ex_RInt_Chasles_1 (V := R_CompleteNormedModule) _ 0 e 1); [lra|eexists; exact Hv]).
      pose proof (norm_RInt_le_const (V := R_NormedModule) (compact_R f) 0 e (RInt (compact_R f) 0 e) M ltac:(lra)) as B. replace (e - 0) with e in B by ring. apply B.
      * intros x Hx. apply HM. rewrite Rmin_left, Rmax_right by lra. lra.
      * now apply (RInt_correct (V := R_CompleteNormedModule)).
    + apply (tends_eq _ (0 * M)); [ring|]. apply tends_mult; [apply tends_id_right|apply tends_const].
Qed.
Lemma INF_uniq f (u v : R) : tends INF f u -> tends INF f v -> u = v.
Proof. intros A B. apply (filterlim_locally_unique (F := Rbar_locally p_infty) f u v A B). Qed.

Section Density.
Variables (J : Integrator) (g : globals R) (beta : R) (I : Integral R).
Hypothesis HJ : exact_integrator J.
Hypothesis Hb : 0 < beta.
Notation cd m mu := (charge_density_with_method J g m beta mu I).

Lemma cdi_is m mu : is_RInt (compact_R (fun q => charge_density_i (g_nc g) q m beta mu)) 0 1 (cd m mu).
Proof.
  pose proof (cT_is m mu (wc (g_nc g)) (wc_Ob _) (fun q Hq => wc_cont _ q Hq) beta Hb) as D.
  assert (V : is_RInt (compact_R (fun q => charge_density_i (g_nc g) q m beta mu)) 0 1 (RInt (compact_R (fT m mu (wc (g_nc g)) beta)) 0 1 - RInt (compact_R (fT m (- mu) (wc (g_nc g)) beta)) 0 1)).
  { apply (compact_ext _ (cT m mu (wc (g_nc g)) beta)); [intros; apply cd_eq|exact D]. }
  replace (cd m mu) with (RInt (compact_R (fT m mu (wc (g_nc g)) beta)) 0 1 - RInt (compact_R (fT m (- mu) (wc (g_nc g)) beta)) 0 1); [exact V|].
  symmetry. unfold charge_density_with_method. apply (proj1 HJ). eapply is_RInt_ext; [|exact V]. intros t _. unfold compact_R, get_number_of_colors. simpl. now rewrite Rmult_1_r.
Qed.
Lemma cdi_massless q mu : 0 <= q -> charge_density_i (g_nc g) q 0 beta mu = INR (g_nc g) / (PI * PI) / (beta * beta) * dens (beta * mu) (beta * q).
Proof.
  intros Hq. unfold charge_density_i, dens, PI2q, fermi_distribution, statistic_distribution_exponential. rewrite energy_R. replace (0 * 0 + q * q) with (q * q) by ring. rewrite sqrt_square by auto. numcbn.
  replace ((q - mu) * beta) with (beta * q - beta * mu) by ring. replace ((q - - mu) * beta) with (beta * q + beta * mu) by ring.
  pose proof (exp_pos (beta * q - beta * mu)). pose proof (exp_pos (beta * q + beta * mu)). pose proof PI_neq0. field. repeat split; auto; lra.
Qed.
Lemma cd_massless mu : cd 0 mu = INR (g_nc g) * (mu * mu * mu / (3 * (PI * PI)) + mu / (3 * (beta * beta))).
Proof.
  set (h := fun q => INR (g_nc g) / (PI * PI) / (beta * beta) * dens (beta * mu) (beta * q)).
  set (K := fun q => INR (g_nc g) / (PI * PI) / (beta * beta * beta) * Chi (beta * mu) (beta * q)).
  assert (D : forall q, is_derive K q (h q)).
  { intros q. unfold K, h. pose proof (Chi_d (beta * mu) (beta * q)) as A. auto_derive; [eexists; exact A|].
    change (Derive (fun x => Chi (beta * mu) x)) with (Derive (Chi (beta * mu))). rewrite (is_derive_unique _ _ _ A). pose proof PI_neq0. field. repeat split; auto; lra. }
  assert (C : forall q, continuous h q).
  { intros q. apply (ex_derive_continuous (K := R_AbsRing) (V := R_NormedModule)). unfold h, dens. pose proof (exp_pos (beta * q + - (beta * mu))). pose proof (exp_pos (beta * q + beta * mu)). auto_derive. repeat split; auto; lra. }
  assert (V : is_RInt (compact_R h) 0 1 (cd 0 mu)).
  { apply (compact_ext _ (fun q => charge_density_i (g_nc g) q 0 beta mu)); [|apply cdi_is]. intros q Hq. unfold h. symmetry. apply cdi_massless. lra. }
  pose proof (half_of_compact h _ (fun x _ => C x) V) as L. eapply INF_uniq; [exact L|].
  apply (tends_ext (fun Q => K Q - K 0)).
  - apply filter_forall. intros Q. symmetry. apply is_RInt_unique. now apply ftc.
  - unfold K. rewrite Rmult_0_r, Chi_0.
    replace (INR (g_nc g) * (mu * mu * mu / (3 * (PI * PI)) + mu / (3 * (beta * beta))))
      with (INR (g_nc g) / (PI * PI) / (beta * beta * beta) * (beta * mu * (PI * PI) / 3) - INR (g_nc g) / (PI * PI) / (beta * beta * beta) * - (beta * mu * (beta * mu) * (beta * mu) / 3)).
    + apply tends_minus; [|apply tends_const]. apply tends_mult; [apply tends_const|].
      intros P HP. destruct (Chi_inf (beta * mu) P HP) as [M HM]. exists (M / beta). intros x Hx. apply HM.
      replace M with (beta * (M / beta)) by (field; lra). now apply Rmult_lt_compat_l.
    + pose proof PI_neq0. field. split; auto; lra.
Qed.

(** ** Comparison of compactified integrals *)
Lemma compact_le (f h : R -> R) u v : is_RInt (compact_R f) 0 1 u -> is_RInt (compact_R h) 0 1 v -> (forall q, 0 < q -> f q <= h q) -> u <= v.
Proof.
  intros Hu Hv L. apply (is_RInt_le (compact_R f) (compact_R h) 0 1 u v); auto; [lra|]. intros t Ht. unfold compact_R, Rdiv.
  apply Rmult_le_compat_r; [left; apply Rinv_0_lt_compat, pow_lt; lra|]. apply L. apply Rmult_lt_0_compat; [|apply Rinv_0_lt_compat]; lra.
Qed.
Lemma compact_lt (f h : R -> R) u v : is_RInt (compact_R f) 0 1 u -> is_RInt (compact_R h) 0 1 v -> (forall q, 0 < q -> f q < h q) ->
  (forall q, 0 < q -> continuous f q) -> (forall q, 0 < q -> continuous h q) -> u < v.
Proof.
  intros Hu Hv L Cf Ch.
  assert (Q : forall t, 0 < t < 1 -> 0 < (1 - t) / t) by (intros t Ht; apply Rmult_lt_0_compat; [|apply Rinv_0_lt_compat]; lra).
  assert (LT : forall t, 0 < t < 1 -> compact_R f t < compact_R h t).
  { intros t Ht. unfold compact_R, Rdiv. apply Rmult_lt_compat_r; [apply Rinv_0_lt_compat, pow_lt; lra|]. apply L. now apply Q. }
  assert (CC : forall k, (forall q, 0 < q -> continuous k q) -> forall t, 0 < t < 1 -> continuous (compact_R k) t).
  { intros k Ck t Ht. unfold compact_R, Rdiv. apply (continuous_mult (K := R_AbsRing) (fun t => k ((1 - t) * / t)) (fun t => / t ^ 2)).
    - apply (continuous_comp (fun t => (1 - t) * / t) k); [|apply Ck, Q; auto]. apply (ex_derive_continuous (K := R_AbsRing) (V := R_NormedModule)). auto_derive. lra.
    - apply (ex_derive_continuous (K := R_AbsRing) (V := R_NormedModule)). auto_derive. assert (P2 : 0 < t ^ 2) by (apply pow_lt; lra). simpl in *. lra. }
  assert (S : forall k w, is_RInt (compact_R k) 0 1 w -> is_RInt (compact_R k) 0 (1/3) (RInt (compact_R k) 0 (1/3)) /\ is_RInt (compact_R k) (1/3) (2/3) (RInt (compact_R k) (1/3) (2/3)) /\ is_RInt (compact_R k) (2/3) 1 (RInt (compact_R k) (2/3) 1) /\ w = RInt (compact_R k) 0 (1/3) + RInt (compact_R k) (1/3) (2/3) + RInt (compact_R k) (2/3) 1).
  { intros k w Hk. assert (X : ex_RInt (compact_R k) 0 1) by (eexists; exact Hk).
    assert (X1 : ex_RInt (compact_R k) 0 (1/3)) by (apply (ex_RInt_Chasles_1 (V := R_CompleteNormedModule) _ 0 (1/3) 1); [lra|auto]).
    assert (X2 : ex_RInt (compact_R k) (1/3) 1) by (apply (ex_RInt_Chasles_2 (V := R_CompleteNormedModule) _ 0 (1/3) 1); [lra|auto]).
    assert (X3 : ex_RInt (compact_R k) (1/3) (2/3)) by (apply (ex_RInt_Chasles_1 (V := R_CompleteNormedModule) _ (1/3) (2/3) 1); [lra|auto]).
    assert (X4 : ex_RInt (compact_R k) (2/3) 1) by (apply (ex_RInt_Chasles_2 (V := R_CompleteNormedModule) _ (1/3) (2/3) 1); [lra|auto]).
    repeat split; try (apply (RInt_correct (V := R_CompleteNormedModule)); auto).
    pose proof (RInt_Chasles (V := R_CompleteNormedModule) _ 0 (1/3) 1 X1 X2) as E1. pose proof (RInt_Chasles (V := R_CompleteNormedModule) _ (1/3) (2/3) 1 X3 X4) as E2.
    rewrite (is_RInt_unique _ _ _ _ Hk) in E1. unfold plus in E1, E2; simpl in E1, E2. lra. }
  destruct (S f u Hu) as (A1 & A2 & A3 & ->). destruct (S h v Hv) as (B1 & B2 & B3 & ->).
  assert (RInt (compact_R f) 0 (1/3) <= RInt (compact_R h) 0 (1/3)) by (apply (is_RInt_le _ _ _ _ _ _ (ltac:(lra) : 0 <= 1 / 3) A1 B1); intros t Ht; left; apply LT; lra).
  assert (RInt (compact_R f) (2/3) 1 <= RInt (compact_R h) (2/3) 1) by (apply (is_RInt_le _ _ _ _ _ _ (ltac:(lra) : 2 / 3 <= 1) A3 B3); intros t Ht; left; apply LT; lra).
  pose proof (RInt_lt (compact_R f) (compact_R h) (1/3) (2/3) ltac:(lra) (fun t Ht => CC h Ch t ltac:(lra)) (fun t Ht => CC f Cf t ltac:(lra)) (fun t Ht => LT t ltac:(lra))). lra.
Qed.
Lemma cdi_cont m mu q : 0 < q -> continuous (fun q => charge_density_i (g_nc g) q m beta mu) q.
Proof.
  intros Hq. apply (ex_derive_continuous (K := R_AbsRing) (V := R_NormedModule)).
  apply (ex_derive_ext (fun q => INR (g_nc g) * (q * q) / (PI * PI) * (/ (exp ((sqrt (m * m + q * q) - mu) * beta) + 1) - / (exp ((sqrt (m * m + q * q) - - mu) * beta) + 1)))).
  { intros t. now rewrite cdi_R, !fermi_R, energy_R. }
  pose proof PI_neq0. pose proof (exp_pos ((sqrt (m * m + q * q) + - mu) * beta)). pose proof (exp_pos ((sqrt (m * m + q * q) + - - mu) * beta)).
  auto_derive. assert (0 < m * m + q * q) by nra. repeat split; auto; lra.
Qed.
Lemma cd_odd m mu : cd m (- mu) = - cd m mu.
Proof.
  pose proof (cdi_is m mu) as A. pose proof (cdi_is m (- mu)) as B. pose proof (is_RInt_opp (V := R_NormedModule) _ _ _ _ A) as A'.
  eapply uniq; [exact B|]. eapply is_RInt_ext; [|exact A']. intros t _. unfold compact_R, opp; simpl. rewrite cdi_odd. unfold Rdiv. ring.
Qed.
Lemma cd_increasing m mu1 mu2 : (0 < g_nc g)%nat -> mu1 < mu2 -> cd m mu1 < cd m mu2.
Proof.
  intros Hn H. apply (compact_lt _ _ _ _ (cdi_is m mu1) (cdi_is m mu2)); try (intros; now apply cdi_cont).
  intros q Hq. apply cdi_increasing; auto. lra.
Qed.
Lemma cd_0 m : cd m 0 = 0.
Proof. pose proof (cd_odd m 0) as H. rewrite Ropp_0 in H. lra. Qed.
Lemma fdiff_antitone e1 e2 mu : 0 <= e1 <= e2 -> 0 <= mu ->
  fermi_distribution (T := R) e2 beta mu - fermi_distribution (T := R) e2 beta (- mu) <= fermi_distribution (T := R) e1 beta mu - fermi_distribution (T := R) e1 beta (- mu).
Proof.
  intros He Hmu. rewrite !fermi_R.
  set (a := exp ((e1 - mu) * beta)). set (b := exp ((e1 - - mu) * beta)). set (k := exp ((e2 - e1) * beta)).
  replace (exp ((e2 - mu) * beta)) with (k * a) by (unfold k, a; rewrite <- exp_plus; f_equal; ring).
  replace (exp ((e2 - - mu) * beta)) with (k * b) by (unfold k, b; rewrite <- exp_plus; f_equal; ring).
  assert (Ha : 0 < a) by apply exp_pos. assert (M : forall x y, x <= y -> exp x <= exp y) by (intros x y [L|L]; [left; now apply exp_increasing|right; now rewrite L]).
  assert (Hab : a <= b) by (apply M; nra). assert (Hk : 1 <= k) by (unfold k; rewrite <- exp_0; apply M; nra).
  assert (Hp : 1 <= a * b) by (unfold a, b; rewrite <- exp_plus, <- exp_0; apply M; nra).
  assert (E1 : / (a + 1) - / (b + 1) = (b - a) * / ((a + 1) * (b + 1))) by (field; lra).
  assert (E2 : / (k * a + 1) - / (k * b + 1) = (b - a) * (k * / ((k * a + 1) * (k * b + 1)))) by (field; nra).
  rewrite E1, E2. apply Rmult_le_compat_l; [lra|]. apply Rmult_le_reg_r with ((k * a + 1) * (k * b + 1) * ((a + 1) * (b + 1))).
  - apply Rmult_lt_0_compat; apply Rmult_lt_0_compat; nra.
  - replace (k * / ((k * a + 1) * (k * b + 1)) * ((k * a + 1) * (k * b + 1) * ((a + 1) * (b + 1)))) with (k * ((a + 1) * (b + 1))) by (field; nra).
    replace (/ ((a + 1) * (b + 1)) * ((k * a + 1) * (k * b + 1) * ((a + 1) * (b + 1)))) with ((k * a + 1) * (k * b + 1)) by (field; lra).
    assert (0 <= (k - 1) * (k * (a * b) - 1)) by (apply Rmult_le_pos; nra). nra.
Qed.
Lemma cd_antitone m1 m2 mu : Rabs m1 <= Rabs m2 -> 0 <= mu -> cd m2 mu <= cd m1 mu.
Proof.
  intros Hm Hmu. apply (compact_le _ _ _ _ (cdi_is m2 mu) (cdi_is m1 mu)). intros q Hq. rewrite !cdi_R.
  apply Rmult_le_compat_l; [pose proof (pos_INR (g_nc g)); pose proof PI_RGT_0; apply Rdiv_le_0_compat; [apply Rmult_le_pos; nra|nra]|].
  apply fdiff_antitone; auto. rewrite !energy_R. split; [apply sqrt_pos|]. apply sqrt_le_1; try nra. apply Rsqr_le_abs_1 in Hm. unfold Rsqr in Hm. lra.
Qed.
Lemma cd_above m mu : 0 <= mu -> cd 0 (mu - Rabs m) <= cd m mu.
Proof.
  intros Hmu. apply (compact_le _ _ _ _ (cdi_is 0 _) (cdi_is m mu)). intros q Hq. rewrite !cdi_R.
  apply Rmult_le_compat_l; [pose proof (pos_INR (g_nc g)); pose proof PI_RGT_0; apply Rdiv_le_0_compat; [apply Rmult_le_pos; nra|nra]|].
  assert (E0 : energy (T := R) q 0 = q) by (rewrite energy_R; replace (0 * 0 + q * q) with (q * q) by ring; apply sqrt_square; lra). rewrite E0.
  pose proof (Rabs_pos m) as Hp. assert (Em : 0 <= energy (T := R) q m <= q + Rabs m).
  { rewrite energy_R. split; [apply sqrt_pos|]. rewrite <- (sqrt_square (q + Rabs m)) by lra. apply sqrt_le_1; [nra|nra|]. pose proof (Rabs_sq m). nra. }
  apply Rle_trans with (2 := fdiff_antitone _ _ mu Em Hmu).
  assert (S1 : fermi_distribution (T := R) q beta (mu - Rabs m) = fermi_distribution (T := R) (q + Rabs m) beta mu) by (rewrite !fermi_R; do 3 f_equal; ring).
  assert (S2 : fermi_distribution (T := R) (q + Rabs m) beta (- mu) <= fermi_distribution (T := R) q beta (- (mu - Rabs m))).
  { replace (fermi_distribution (T := R) (q + Rabs m) beta (- mu)) with (fermi_distribution (T := R) q beta (- mu - Rabs m)) by (rewrite !fermi_R; do 3 f_equal; ring).
    destruct Hp as [Hp|Hp]; [left; apply fermi_increasing_mu; lra|right; f_equal; lra]. }
  rewrite S1. lra.
Qed.
(** ** Continuity in the chemical potential, existence and uniqueness of its inverse *)
Definition Nb (m mu : R) : R := RInt (compact_R (fT m mu (wc (g_nc g)) beta)) 0 1.
Lemma Nb_is m mu : is_RInt (compact_R (fT m mu (wc (g_nc g)) beta)) 0 1 (Nb m mu).
Proof. apply (RInt_correct (V := R_CompleteNormedModule)), fT_int; auto; [apply wc_Ob|intros; now apply wc_cont]. Qed.
Lemma cd_Nb m mu : cd m mu = Nb m mu - Nb m (- mu).
Proof.
  eapply uniq; [apply cdi_is|]. eapply is_RInt_ext; [|exact (is_RInt_minus (V := R_NormedModule) _ _ _ _ _ _ (Nb_is m mu) (Nb_is m (- mu)))].
  intros t _. unfold compact_R. rewrite cd_eq. unfold cT, fT, minus, plus, opp, Rdiv. simpl. ring.
Qed.
Lemma wc_nonneg q : 0 <= wc (g_nc g) q.
Proof. unfold wc, PI2q. pose proof (pos_INR (g_nc g)). pose proof PI_RGT_0. apply Rdiv_le_0_compat; [|nra]. rewrite Rmult_assoc. apply Rmult_le_pos; nra. Qed.
Lemma Nb_step m mu d : 0 <= d -> Nb m mu <= Nb m (mu + d) <= exp (beta * d) * Nb m mu.
Proof.
  intros Hd. assert (M : forall x y, x <= y -> exp x <= exp y) by (intros x y [L|L]; [left; now apply exp_increasing|right; now rewrite L]). split.
  - apply (compact_le _ _ _ _ (Nb_is m mu) (Nb_is m (mu + d))). intros q Hq. unfold fT. apply Rmult_le_compat_l; [apply wc_nonneg|]. rewrite !fermi_R.
    apply Rinv_le_contravar; [pose proof (exp_pos ((energy q m - (mu + d)) * beta)); lra|]. apply Rplus_le_compat_r, M. nra.
  - assert (X : is_RInt (compact_R (fun q => exp (beta * d) * fT m mu (wc (g_nc g)) beta q)) 0 1 (exp (beta * d) * Nb m mu)).
    { eapply is_RInt_ext; [|exact (is_RInt_scal (V := R_NormedModule) _ _ _ (exp (beta * d)) _ (Nb_is m mu))]. intros t _. unfold compact_R, scal; simpl; unfold mult; simpl. unfold Rdiv. ring. }
    apply (compact_le _ _ _ _ (Nb_is m (mu + d)) X). intros q Hq. unfold fT. rewrite <- Rmult_assoc, (Rmult_comm (exp _)), Rmult_assoc. apply Rmult_le_compat_l; [apply wc_nonneg|]. rewrite !fermi_R.
    set (z := exp ((energy q m - (mu + d)) * beta)). set (k := exp (beta * d)). replace (exp ((energy q m - mu) * beta)) with (k * z) by (unfold k, z; rewrite <- exp_plus; f_equal; ring).
    assert (0 < z) by apply exp_pos. assert (1 <= k) by (unfold k; rewrite <- exp_0; apply M; nra).
    apply Rmult_le_reg_r with ((k * z + 1) * (z + 1)); [nra|]. replace (/ (z + 1) * ((k * z + 1) * (z + 1))) with (k * z + 1) by (field; lra). replace (k * / (k * z + 1) * ((k * z + 1) * (z + 1))) with (k * (z + 1)) by (field; nra). nra.
Qed.
Lemma Nb_cont m (mu : R) : tends (locally mu) (Nb m) (Nb m mu).
Proof.
  assert (N0 : 0 <= Nb m mu).
  { assert (Z : is_RInt (compact_R (fun _ => 0)) 0 1 0).
    { assert (H : is_RInt (fun _ : R => 0) 0 1 ((1 - 0) * 0)) by (apply (is_RInt_const (V := R_NormedModule))). rewrite Rmult_0_r in H. eapply is_RInt_ext; [|exact H]. intros t _. unfold compact_R, Rdiv. symmetry. apply Rmult_0_l. }
    apply (compact_le _ _ _ _ Z (Nb_is m mu)). intros q Hq. unfold fT. apply Rmult_le_pos; [apply wc_nonneg|]. pose proof (fermi_range (energy q m) beta mu). lra. }
  apply (tends_ext (fun x => Nb m mu + (Nb m x - Nb m mu))); [apply filter_forall; intros; ring|].
  apply (tends_eq _ (Nb m mu + 0)); [ring|]. apply tends_plus; [apply tends_const|].
  apply (tends_squeeze0 _ (fun x => (exp (beta * Rabs (x - mu)) - 1) * Nb m mu)).
  - apply filter_forall. intros x. change R in x. destruct (Rle_dec mu x) as [L|L].
    + pose proof (Nb_step m mu (x - mu) ltac:(lra)) as S. replace (mu + (x - mu)) with x in S by ring. rewrite (Rabs_pos_eq (x - mu)) by lra. rewrite Rabs_pos_eq by lra. lra.
    + pose proof (Nb_step m x (mu - x) ltac:(lra)) as S. replace (x + (mu - x)) with mu in S by ring. rewrite (Rabs_left (x - mu)) by lra. replace (- (x - mu)) with (mu - x) by ring.
      rewrite Rabs_left1 by lra. set (k := exp (beta * (mu - x))) in *. assert (1 < k) by (unfold k; rewrite <- exp_0; apply exp_increasing; nra). nra.
  - apply (tends_eq _ ((exp (beta * Rabs (mu - mu)) - 1) * Nb m mu)); [replace (mu - mu) with 0 by ring; rewrite Rabs_R0, Rmult_0_r, exp_0; ring|].
    apply tends_mult; [|apply tends_const]. apply tends_minus; [|apply tends_const]. apply (tends_comp exp); [apply continuous_exp|]. apply tends_mult; [apply tends_const|].
    apply (tends_comp Rabs); [apply continuous_Rabs|]. apply tends_minus; [exact (filterlim_id _ _)|apply tends_const].
Qed.
Lemma cd_continuous m (mu : R) : continuous (fun mu => cd m mu) mu.
Proof.
  assert (H : tends (locally mu) (fun x => cd m x) (cd m mu)); [|exact H].
  apply (tends_ext (fun x => Nb m x - Nb m (- x))); [apply filter_forall; intros; now rewrite cd_Nb|]. rewrite cd_Nb. apply tends_minus; [apply Nb_cont|].
  apply (tends_comp (Nb m)); [exact (Nb_cont m (- mu))|]. apply tends_opp. exact (filterlim_id _ _).
Qed.
Lemma cd_large m n : (0 < g_nc g)%nat -> exists mu, 0 <= mu /\ n <= cd m mu.
Proof.
  intros Hn. apply lt_0_INR in Hn. set (c := INR (g_nc g) / (3 * (beta * beta))). assert (Hc : 0 < c) by (unfold c; apply Rdiv_lt_0_compat; [exact Hn|]; apply Rmult_lt_0_compat; [lra|now apply Rmult_lt_0_compat]).
  exists (Rabs m + Rabs n / c). pose proof (Rabs_pos m). pose proof (Rabs_pos n). assert (X0 : 0 <= Rabs n / c) by (apply Rdiv_le_0_compat; assumption). split; [apply Rplus_le_le_0_compat; assumption|].
  apply Rle_trans with (2 := cd_above m _ (Rplus_le_le_0_compat _ _ H X0)). replace (Rabs m + Rabs n / c - Rabs m) with (Rabs n / c) by ring. rewrite cd_massless. set (x := Rabs n / c) in *.
  assert (E : Rabs n = INR (g_nc g) * (x / (3 * (beta * beta)))) by (unfold x, c; field; lra). pose proof (Rle_abs n). pose proof PI_RGT_0.
  assert (0 <= x * x * x / (3 * (PI * PI))) by (apply Rdiv_le_0_compat; [|nra]; apply Rmult_le_pos; nra). nra.
Qed.
Lemma cd_exists_unique m n : (0 < g_nc g)%nat -> exists mu, cd m mu = n /\ forall mu', cd m mu' = n -> mu' = mu.
Proof.
  intros Hn. destruct (cd_large m (Rabs n) Hn) as (M & HM0 & HM).
  destruct (IVT_gen (fun mu => cd m mu) (- M) M n) as (mu & _ & Hmu).
  - intros x. apply continuity_pt_filterlim. exact (cd_continuous m x).
  - pose proof (Rle_abs n). pose proof (Rle_abs (- n)) as Hl. rewrite Rabs_Ropp in Hl. rewrite cd_odd. split.
    + apply Rle_trans with (1 := Rmin_l _ _). lra.
    + apply Rle_trans with (2 := Rmax_r _ _). lra.
  - exists mu. split; auto. intros mu' H'. destruct (Rtotal_order mu' mu) as [L|[L|L]]; auto; pose proof (cd_increasing m _ _ Hn L); lra.
Qed.
Lemma chempot_error n mu mu0 : (0 < g_nc g)%nat -> chemical_potential_with_method J g 0 beta n I = Ret mu -> 0 < get_tol I -> cd 0 mu0 = n ->
  Rabs (mu - mu0) < 3 * (beta * beta) * get_tol I / INR (g_nc g).
Proof.
  intros Hn H Ht H0. pose proof Hn as Hn'. apply lt_0_INR in Hn. destruct (chempot_within_tol J g 0 beta n I mu H) as [(-> & ->)|(Hz & L)].
  - assert (mu0 = 0). { destruct (cd_exists_unique 0 0 Hn') as (u & _ & U). rewrite (U 0 (cd_0 0)). now apply U. } subst mu0. rewrite Rminus_eq_0, Rabs_R0. apply Rdiv_lt_0_compat; auto. apply Rmult_lt_0_compat; nra.
  - rewrite <- H0, !cd_massless in L. rewrite (Rabs_minus_sym mu).
    set (N := INR (g_nc g)) in *. set (P := / (3 * (PI * PI))) in *. set (B := / (3 * (beta * beta))) in *.
    assert (HP : 0 < P) by (apply Rinv_0_lt_compat; pose proof PI_RGT_0; nra). assert (HB : 0 < B) by (apply Rinv_0_lt_compat; nra).
    replace (N * (mu0 * mu0 * mu0 / (3 * (PI * PI)) + mu0 / (3 * (beta * beta))) - N * (mu * mu * mu / (3 * (PI * PI)) + mu / (3 * (beta * beta))))
      with ((mu0 - mu) * (N * ((mu0 * mu0 + mu0 * mu + mu * mu) * P + B))) in L by (unfold P, B; pose proof PI_neq0; field; split; auto; lra).
    assert (G : N * B <= N * ((mu0 * mu0 + mu0 * mu + mu * mu) * P + B)). { apply Rmult_le_compat_l; [lra|]. assert (0 <= mu0 * mu0 + mu0 * mu + mu * mu) by nra. nra. }
    assert (NB : 0 < N * B) by nra. rewrite Rabs_mult, (Rabs_pos_eq (N * _)) in L by lra. pose proof (Rabs_pos (mu0 - mu)).
    replace (3 * (beta * beta) * get_tol I / N) with (get_tol I / (N * B)) by (unfold B; field; split; lra).
    apply Rmult_lt_reg_r with (N * B); auto. unfold Rdiv. rewrite Rmult_assoc, Rinv_l by lra. nra.
Qed.
End Density.
Lemma cd_mass J g beta mu I : exact_integrator J -> 0 < beta -> 0 <= mu ->
  (forall m1 m2, Rabs m1 <= Rabs m2 -> charge_density_with_method J g m2 beta mu I <= charge_density_with_method J g m1 beta mu I) /\
  (forall m, let x := mu - Rabs m in
     INR (g_nc g) * (x * x * x / (3 * (PI * PI)) + x / (3 * (beta * beta))) <= charge_density_with_method J g m beta mu I
       <= INR (g_nc g) * (mu * mu * mu / (3 * (PI * PI)) + mu / (3 * (beta * beta)))).
Proof.
  intros HJ Hb Hmu. split; [intros; now apply cd_antitone|]. intros m x. rewrite <- (cd_massless J g beta I HJ Hb mu), <- (cd_massless J g beta I HJ Hb x). split.
  - now apply cd_above.
  - apply cd_antitone; auto. rewrite Rabs_R0. apply Rabs_pos.
Qed.
