(** * Distributions, Fermi momentum, quark density *)
From Coq Require Import Reals Psatz.
From Coquelicot Require Import Coquelicot.
From Verif Require Import Num CField MCommon MConsts MUtils MDress MQuark SpecConsts SpecDistr PUtils.
Open Scope R_scope.

(** ** Explicit forms *)
Lemma fermi_R en beta mu : fermi_distribution (T := R) en beta mu = / (exp ((en - mu) * beta) + 1).
Proof. reflexivity. Qed.
Lemma bose_R en beta mu : bose_distribution (T := R) en beta mu = / (exp ((en - mu) * beta) - 1).
Proof. reflexivity. Qed.
Lemma fermi2_R en beta mu : fermi_distribution_double (T := R) en beta mu =
  fermi_distribution en beta mu + fermi_distribution en beta (- mu).
Proof. reflexivity. Qed.

Lemma fermi_range en beta mu : 0 < fermi_distribution (T := R) en beta mu < 1.
Proof.
  rewrite fermi_R. pose proof (exp_pos ((en - mu) * beta)). split.
  - apply Rinv_0_lt_compat. lra.
  - rewrite <- Rinv_1. apply Rinv_lt_contravar; lra.
Qed.

Lemma fermi_decreasing beta mu e1 e2 : 0 < beta -> e1 < e2 ->
  fermi_distribution (T := R) e2 beta mu < fermi_distribution e1 beta mu.
Proof.
  intros. rewrite !fermi_R. pose proof (exp_pos ((e1 - mu) * beta)). pose proof (exp_pos ((e2 - mu) * beta)).
  apply Rinv_lt_contravar; [nra|]. apply Rplus_lt_compat_r. apply exp_increasing. nra.
Qed.

Lemma fermi_increasing_mu beta en m1 m2 : 0 < beta -> m1 < m2 ->
  fermi_distribution (T := R) en beta m1 < fermi_distribution en beta m2.
Proof.
  intros. rewrite !fermi_R. pose proof (exp_pos ((en - m1) * beta)). pose proof (exp_pos ((en - m2) * beta)).
  apply Rinv_lt_contravar; [nra|]. apply Rplus_lt_compat_r. apply exp_increasing. nra.
Qed.

Lemma fermi_particle_hole beta mu x :
  fermi_distribution (T := R) (mu + x) beta mu + fermi_distribution (mu - x) beta mu = 1.
Proof.
  rewrite !fermi_R. replace ((mu + x - mu) * beta) with (x * beta) by ring.
  replace ((mu - x - mu) * beta) with (- (x * beta)) by ring. rewrite exp_Ropp.
  pose proof (exp_pos (x * beta)). field. lra.
Qed.

Lemma fermi2_even en beta mu :
  fermi_distribution_double (T := R) en beta (- mu) = fermi_distribution_double en beta mu.
Proof. rewrite !fermi2_R, Ropp_involutive. ring. Qed.

Lemma fermi2_range en beta mu : 0 < fermi_distribution_double (T := R) en beta mu < 2.
Proof.
  rewrite fermi2_R. pose proof (fermi_range en beta mu). pose proof (fermi_range en beta (- mu)). lra.
Qed.

Lemma bose_pos en beta mu : 0 < beta -> mu < en -> 0 < bose_distribution (T := R) en beta mu.
Proof.
  intros. rewrite bose_R. apply Rinv_0_lt_compat. assert (0 < (en - mu) * beta) by nra.
  apply exp_increasing in H1. rewrite exp_0 in H1. lra.
Qed.

Lemma exp_neq_1 x : x <> 0 -> exp x <> 1.
Proof. intros H E. apply H. apply exp_inv. now rewrite exp_0. Qed.

Lemma bose_reflection beta mu x : beta <> 0 -> x <> 0 ->
  bose_distribution (T := R) (mu + x) beta mu + bose_distribution (mu - x) beta mu = -1.
Proof.
  intros. rewrite !bose_R. replace ((mu + x - mu) * beta) with (x * beta) by ring.
  replace ((mu - x - mu) * beta) with (- (x * beta)) by ring. rewrite exp_Ropp.
  assert (exp (x * beta) <> 1) by (apply exp_neq_1; now apply Rmult_integral_contrapositive).
  pose proof (exp_pos (x * beta)). field. repeat split; lra.
Qed.

Lemma zero_chempot_R en beta :
  fermi_distribution_zero_chempot (T := R) en beta = fermi_distribution en beta 0 /\
  bose_distribution_zero_chempot (T := R) en beta = bose_distribution en beta 0.
Proof.
  unfold fermi_distribution_zero_chempot, bose_distribution_zero_chempot, fermi_distribution, bose_distribution,
    statistic_distribution_exponential, statistic_distribution_exponential_zero_chempot.
  cbn [nadd nsub nmul ndiv nopp ninv nexp ofR NumR]. now rewrite Rminus_0_r.
Qed.

Lemma zero_chempot_C (en : C) beta :
  fermi_distribution_zero_chempot en beta = fermi_distribution en beta (RtoC 0) /\
  bose_distribution_zero_chempot en beta = bose_distribution en beta (RtoC 0).
Proof.
  unfold fermi_distribution_zero_chempot, bose_distribution_zero_chempot, fermi_distribution, bose_distribution,
    statistic_distribution_exponential, statistic_distribution_exponential_zero_chempot.
  cbn [nadd nsub nmul ndiv nopp ninv nexp ofR NumC].
  replace (en - RtoC 0)%C with en by ring. auto.
Qed.

Lemma Cexp_RtoC x : Cexp (RtoC x) = RtoC (exp x).
Proof. unfold Cexp, RtoC. simpl. rewrite cos_0, sin_0. apply Ceq; simpl; ring. Qed.

Lemma Cexp_add z w : Cexp (z + w)%C = (Cexp z * Cexp w)%C.
Proof.
  unfold Cexp. simpl. rewrite exp_plus, cos_plus, sin_plus. apply Ceq; simpl; ring.
Qed.

Lemma Cexp_0 : Cexp (RtoC 0) = RtoC 1.
Proof. rewrite Cexp_RtoC. now rewrite exp_0. Qed.

Lemma Cexp_neq_0 z : Cexp z <> RtoC 0.
Proof.
  intros E. apply (RtoC_neq 1 0 R1_neq_R0). rewrite <- Cexp_0. replace (RtoC 0) with (z + - z)%C by ring.
  rewrite Cexp_add, E. ring.
Qed.

Lemma distr_real_complex en beta mu :
  fermi_distribution (RtoC en) beta (RtoC mu) = RtoC (fermi_distribution en beta mu) /\
  (beta <> 0 -> en <> mu -> bose_distribution (RtoC en) beta (RtoC mu) = RtoC (bose_distribution en beta mu)).
Proof.
  rewrite fermi_R, bose_R.
  unfold fermi_distribution, bose_distribution, statistic_distribution_exponential.
  cbn [nadd nsub nmul ndiv nopp ninv nexp ofR NumC].
  rewrite <- RtoC_minus, <- RtoC_mult, Cexp_RtoC, <- RtoC_plus, <- RtoC_minus, <- !RtoC_inv'. auto.
Qed.

Lemma fermi_particle_hole_C (x mu : C) beta : (Cexp (x * RtoC beta) + RtoC 1)%C <> RtoC 0 ->
  (fermi_distribution (mu + x)%C beta mu + fermi_distribution (mu - x)%C beta mu)%C = RtoC 1.
Proof.
  intros H. unfold fermi_distribution, statistic_distribution_exponential.
  cbn [nadd nsub nmul ndiv nopp ninv nexp ofR NumC].
  replace ((mu + x - mu) * RtoC beta)%C with (x * RtoC beta)%C by ring.
  replace ((mu - x - mu) * RtoC beta)%C with (- (x * RtoC beta))%C by ring.
  set (z := (x * RtoC beta)%C) in *.
  assert (E : (Cexp z * Cexp (- z) = RtoC 1)%C).
  { rewrite <- Cexp_add. replace (z + - z)%C with (RtoC 0) by ring. apply Cexp_0. }
  assert (Hz := Cexp_neq_0 z).
  assert (E2 : Cexp (- z)%C = (/ Cexp z)%C) by (rewrite <- (Cmult_1_l (Cexp (- z))), <- (Cinv_l (Cexp z)) by auto; rewrite <- Cmult_assoc, E; ring).
  rewrite E2. field. repeat split; auto. rewrite Cplus_comm. exact H.
Qed.

(** ** Zero-temperature limits *)
Lemma lim_lin_p a : 0 < a -> is_lim (fun beta => a * beta) p_infty p_infty.
Proof.
  intros Ha. replace p_infty with (Rbar_mult (Finite a) p_infty) at 2.
  - apply is_lim_scal_l. apply is_lim_id.
  - simpl. destruct (Rle_dec 0 a); [|lra]. destruct (Rle_lt_or_eq_dec 0 a r); auto. lra.
Qed.
Lemma lim_lin_m a : a < 0 -> is_lim (fun beta => a * beta) p_infty m_infty.
Proof.
  intros Ha. replace m_infty with (Rbar_mult (Finite a) p_infty).
  - apply is_lim_scal_l. apply is_lim_id.
  - simpl. destruct (Rle_dec 0 a); auto. exfalso; lra.
Qed.

Lemma lim_exp_p a : 0 < a -> is_lim (fun beta => exp (a * beta)) p_infty p_infty.
Proof.
  intros Ha. apply (is_lim_comp exp (fun beta => a * beta) p_infty p_infty p_infty is_lim_exp_p (lim_lin_p a Ha)).
  exists 0. intros; discriminate.
Qed.
Lemma lim_exp_m a : a < 0 -> is_lim (fun beta => exp (a * beta)) p_infty 0.
Proof.
  intros Ha. apply (is_lim_comp exp (fun beta => a * beta) p_infty 0 m_infty is_lim_exp_m (lim_lin_m a Ha)).
  exists 0. intros; discriminate.
Qed.

Lemma lim_inv_exp_p a c : 0 < a -> is_lim (fun beta => / (exp (a * beta) + c)) p_infty 0.
Proof.
  intros Ha. replace (Finite 0) with (Rbar_inv p_infty) by reflexivity.
  apply is_lim_inv; [|discriminate].
  replace p_infty with (Rbar_plus p_infty (Finite c)) at 2 by reflexivity.
  apply is_lim_plus with (lf := p_infty) (lg := Finite c).
  - now apply lim_exp_p.
  - apply is_lim_const.
  - reflexivity.
Qed.
Lemma lim_inv_exp_m a c : a < 0 -> c <> 0 -> is_lim (fun beta => / (exp (a * beta) + c)) p_infty (/ c).
Proof.
  intros Ha Hc. replace (Finite (/ c)) with (Rbar_inv (Finite (0 + c))) by (simpl; now rewrite Rplus_0_l).
  apply is_lim_inv; [|simpl; intros E; injection E; lra].
  apply is_lim_plus with (lf := Finite 0) (lg := Finite c).
  - now apply lim_exp_m.
  - apply is_lim_const.
  - reflexivity.
Qed.

Lemma fermi_zt_R en mu : fermi_distribution_zero_temp (T := R) en mu = if Rlt_dec mu en then 0 else 1.
Proof. reflexivity. Qed.
Lemma fermi2_zt_R en mu : fermi_distribution_double_zero_temp (T := R) en mu =
  fermi_distribution_zero_temp en mu + fermi_distribution_zero_temp en (- mu).
Proof. reflexivity. Qed.

Lemma fermi_lim en mu : en <> mu ->
  is_lim (fun beta => fermi_distribution (T := R) en beta mu) p_infty (fermi_distribution_zero_temp en mu).
Proof.
  intros H. rewrite fermi_zt_R.
  apply is_lim_ext with (fun beta => / (exp ((en - mu) * beta) + 1)); [intros; now rewrite fermi_R|].
  destruct (Rlt_dec mu en).
  - apply lim_inv_exp_p. lra.
  - replace (Finite 1) with (Finite (/ 1)) by (f_equal; field). apply lim_inv_exp_m; lra.
Qed.

Lemma fermi2_lim en mu : en <> mu -> en <> - mu ->
  is_lim (fun beta => fermi_distribution_double (T := R) en beta mu) p_infty (fermi_distribution_double_zero_temp en mu).
Proof.
  intros H1 H2. rewrite fermi2_zt_R.
  apply is_lim_ext with (fun beta => fermi_distribution en beta mu + fermi_distribution en beta (- mu)); [intros; now rewrite fermi2_R|].
  apply (is_lim_plus _ _ p_infty _ _ _ (fermi_lim en mu H1) (fermi_lim en (- mu) H2)). reflexivity.
Qed.

Lemma fermi_surface en beta : fermi_distribution (T := R) en beta en = / 2 /\ fermi_distribution_zero_temp (T := R) en en = 1.
Proof.
  rewrite fermi_R, fermi_zt_R. replace ((en - en) * beta) with 0 by ring. rewrite exp_0. split; [f_equal; ring|].
  destruct (Rlt_dec en en); lra.
Qed.

(** ** Fermi momentum *)
Lemma energy_R q m : energy (T := R) q m = sqrt (m * m + q * q).
Proof. reflexivity. Qed.
Lemma kF_R m mu : fermi_momentum m mu = sqrt (mu * mu - m * m).
Proof. reflexivity. Qed.

Lemma sqr_Rabs x : Rabs x * Rabs x = x * x.
Proof. rewrite <- Rabs_mult. apply Rabs_pos_eq. nra. Qed.

Lemma Rabs_lt_sqr x y : Rabs x < Rabs y -> x * x < y * y.
Proof. intros H. rewrite <- (sqr_Rabs x), <- (sqr_Rabs y). pose proof (Rabs_pos x). nra. Qed.
Lemma Rabs_le_sqr x y : Rabs x <= Rabs y -> x * x <= y * y.
Proof. intros H. rewrite <- (sqr_Rabs x), <- (sqr_Rabs y). pose proof (Rabs_pos x). nra. Qed.
Lemma sqr_lt_Rabs x y : x * x < y * y -> Rabs x < Rabs y.
Proof.
  intros H. rewrite <- (sqr_Rabs x), <- (sqr_Rabs y) in H. pose proof (Rabs_pos x). pose proof (Rabs_pos y). nra.
Qed.

Lemma kF_sqr m mu : Rabs m <= Rabs mu -> fermi_momentum m mu * fermi_momentum m mu = mu * mu - m * m.
Proof. intros H. rewrite kF_R. apply sqrt_def. apply Rabs_le_sqr in H. lra. Qed.

Lemma energy_at_kF m mu : Rabs m <= Rabs mu -> energy (T := R) (fermi_momentum m mu) m = Rabs mu.
Proof.
  intros H. rewrite energy_R, kF_sqr by auto.
  replace (m * m + (mu * mu - m * m)) with (Rsqr mu) by (unfold Rsqr; ring). apply sqrt_Rsqr_abs.
Qed.

Lemma kF_pos m mu : 0 <= fermi_momentum m mu.
Proof. rewrite kF_R. apply sqrt_pos. Qed.

Lemma energy_lt q m mu : 0 <= q -> Rabs m <= Rabs mu -> q < fermi_momentum m mu -> energy (T := R) q m < Rabs mu.
Proof.
  intros. rewrite <- (energy_at_kF m mu) by auto. rewrite !energy_R. apply sqrt_lt_1; nra.
Qed.
Lemma energy_gt q m mu : Rabs m <= Rabs mu -> fermi_momentum m mu < q -> Rabs mu < energy (T := R) q m.
Proof.
  intros. rewrite <- (energy_at_kF m mu) by auto. pose proof (kF_pos m mu). rewrite !energy_R. apply sqrt_lt_1; nra.
Qed.
Lemma energy_ge_mass q m : Rabs m <= energy (T := R) q m.
Proof. rewrite energy_R. rewrite <- sqrt_Rsqr_abs. apply sqrt_le_1; unfold Rsqr; nra. Qed.
Lemma energy_pos q m : 0 <= energy (T := R) q m.
Proof. rewrite energy_R. apply sqrt_pos. Qed.

Ltac rabs := unfold Rabs in *; repeat destruct Rcase_abs; try lra.

Lemma occ_inside en mu : 0 <= en -> en < Rabs mu -> fermi_distribution_double_zero_temp (T := R) en mu = 1.
Proof.
  intros. rewrite fermi2_zt_R, !fermi_zt_R. destruct (Rlt_dec mu en), (Rlt_dec (- mu) en); rabs.
Qed.
Lemma occ_outside en mu : Rabs mu < en -> fermi_distribution_double_zero_temp (T := R) en mu = 0.
Proof.
  intros. rewrite fermi2_zt_R, !fermi_zt_R. destruct (Rlt_dec mu en), (Rlt_dec (- mu) en); rabs.
Qed.

Lemma kF_occupation m mu q : 0 <= q ->
  (Rabs m <= Rabs mu -> q < fermi_momentum m mu -> fermi_distribution_double_zero_temp (energy (T := R) q m) mu = 1) /\
  (Rabs m <= Rabs mu -> fermi_momentum m mu < q -> fermi_distribution_double_zero_temp (energy (T := R) q m) mu = 0) /\
  (Rabs mu < Rabs m -> fermi_distribution_double_zero_temp (energy (T := R) q m) mu = 0).
Proof.
  intros Hq. split; [|split]; intros.
  - apply occ_inside; [apply energy_pos|]. now apply energy_lt.
  - apply occ_outside. now apply energy_gt.
  - apply occ_outside. pose proof (energy_ge_mass q m). lra.
Qed.

(** ** Zero-temperature density *)
Definition sgn (x : R) : R := if Rlt_dec 0 x then 1 else -1.
Lemma charge_integrand_zt_R nc m mu q : charge_integrand_zt nc m mu q =
  INR nc * (q * q) * (fermi_distribution_zero_temp (energy (T := R) q m) mu
                      - fermi_distribution_zero_temp (energy (T := R) q m) (- mu)) / (PI * PI).
Proof.
  unfold charge_integrand_zt, occupied. rewrite !fermi_zt_R, energy_R.
  replace (q ^ 2 + m ^ 2) with (m * m + q * q) by ring.
  destruct (Rle_dec _ mu), (Rlt_dec mu _), (Rle_dec _ (- mu)), (Rlt_dec (- mu) _); try lra; field; apply PI_neq0.
Qed.

Lemma occ_diff_in en mu : 0 <= en -> en < Rabs mu ->
  fermi_distribution_zero_temp (T := R) en mu - fermi_distribution_zero_temp en (- mu) = sgn mu.
Proof.
  intros. rewrite !fermi_zt_R. unfold sgn. destruct (Rlt_dec mu en), (Rlt_dec (- mu) en), (Rlt_dec 0 mu); rabs.
Qed.
Lemma occ_diff_out en mu : Rabs mu < en ->
  fermi_distribution_zero_temp (T := R) en mu - fermi_distribution_zero_temp en (- mu) = 0.
Proof.
  intros. rewrite !fermi_zt_R. destruct (Rlt_dec mu en), (Rlt_dec (- mu) en); rabs.
Qed.

Lemma cd_sign m mu : Rabs m < Rabs mu -> (if Rlt_dec m mu then 1 else -1) = sgn mu.
Proof. intros. unfold sgn. destruct (Rlt_dec m mu), (Rlt_dec 0 mu); rabs. Qed.

Lemma cd_zt_R nc m mu : charge_density_zero_temp nc m mu =
  if Rle_dec (Rabs mu) (Rabs m) then 0 else INR nc * sgn mu * fermi_momentum m mu ^ 3 / (3 * (PI * PI)).
Proof.
  unfold charge_density_zero_temp, PI2q. destruct (Rle_dec (Rabs mu) (Rabs m)); auto.
  rewrite cd_sign by lra. f_equal. f_equal. ring.
Qed.

Ltac eqR := match goal with |- @eq _ ?a ?b => change (@eq R a b) end.

Lemma is_RInt_zero a b : is_RInt (fun _ : R => 0) a b 0.
Proof.
  pose proof (is_RInt_const (V := R_NormedModule) a b 0) as H. unfold scal in H; simpl in H.
  unfold mult in H; simpl in H. now rewrite Rmult_0_r in H.
Qed.

Lemma PI_nz : PI <> 0.
Proof. apply PI_neq0. Qed.

Lemma is_RInt_cube c b : is_RInt (fun q => c * (q * q)) 0 b (c * (b ^ 3 / 3)).
Proof.
  replace (c * (b ^ 3 / 3)) with (minus (c * (b ^ 3 / 3)) (c * (0 ^ 3 / 3))) by (unfold minus, plus, opp; simpl; field).
  apply (is_RInt_derive (fun q => c * (q ^ 3 / 3)) (fun q => c * (q * q))).
  - intros x _. auto_derive; auto. field.
  - intros x _. apply (ex_derive_continuous (fun q => c * (q * q))). auto_derive; auto.
Qed.

Lemma density_integral nc m mu K : fermi_momentum m mu <= K ->
  is_RInt (charge_integrand_zt nc m mu) 0 K (charge_density_zero_temp nc m mu).
Proof.
  intros HK. pose proof (kF_pos m mu) as Hk. rewrite cd_zt_R.
  destruct (Rle_dec (Rabs mu) (Rabs m)) as [L|L].
  - (* no occupied states, except possibly the single point q = 0 *)
    apply is_RInt_ext with (fun _ => 0); [|apply is_RInt_zero].
    intros q [Hq _]. rewrite Rmin_left in Hq by lra. rewrite charge_integrand_zt_R.
    rewrite occ_diff_out; [eqR; field; apply PI_nz|].
    apply Rle_lt_trans with (Rabs m); auto. rewrite energy_R, <- sqrt_Rsqr_abs. apply sqrt_lt_1; unfold Rsqr; nra.
  - assert (Hm : Rabs m <= Rabs mu) by lra.
    replace (INR nc * sgn mu * fermi_momentum m mu ^ 3 / (3 * (PI * PI))) with
      (plus (INR nc * sgn mu / (PI * PI) * (fermi_momentum m mu ^ 3 / 3)) 0).
    2:{ unfold plus; simpl. field. apply PI_nz. }
    apply (is_RInt_Chasles (V := R_NormedModule) _ 0 (fermi_momentum m mu) K).
    + apply is_RInt_ext with (fun q => INR nc * sgn mu / (PI * PI) * (q * q)); [|apply is_RInt_cube].
      intros q. rewrite Rmin_left, Rmax_right by lra. intros [H1 H2]. rewrite charge_integrand_zt_R.
      rewrite occ_diff_in; [eqR; field; apply PI_nz|apply energy_pos|apply energy_lt; lra].
    + apply is_RInt_ext with (fun _ => 0); [|apply is_RInt_zero].
      intros q. rewrite Rmin_left, Rmax_right by lra. intros [H1 H2]. rewrite charge_integrand_zt_R.
      rewrite occ_diff_out; [eqR; field; apply PI_nz|apply energy_gt; lra].
Qed.

Lemma sgn_opp x : x <> 0 -> sgn (- x) = - sgn x.
Proof. intros. unfold sgn. destruct (Rlt_dec 0 x), (Rlt_dec 0 (- x)); lra. Qed.

Lemma density_odd nc m mu : charge_density_zero_temp nc m (- mu) = - charge_density_zero_temp nc m mu.
Proof.
  rewrite !cd_zt_R, Rabs_Ropp. destruct (Rle_dec (Rabs mu) (Rabs m)); [ring|].
  assert (mu <> 0) by (intros ->; rewrite Rabs_R0 in n; pose proof (Rabs_pos m); lra).
  rewrite sgn_opp by auto. rewrite !kF_R. replace (- mu * - mu) with (mu * mu) by ring. field. apply PI_nz.
Qed.

Lemma density_even_mass nc m mu : charge_density_zero_temp nc (- m) mu = charge_density_zero_temp nc m mu.
Proof.
  rewrite !cd_zt_R, Rabs_Ropp. destruct (Rle_dec (Rabs mu) (Rabs m)); auto.
  rewrite !kF_R. replace (- m * - m) with (m * m) by ring. reflexivity.
Qed.

Lemma PI2_pos : 0 < PI * PI.
Proof. pose proof PI_RGT_0. nra. Qed.

Lemma kF_strict m mu : Rabs m < Rabs mu -> 0 < fermi_momentum m mu.
Proof. intros. rewrite kF_R. apply sqrt_lt_R0. apply Rabs_lt_sqr in H. lra. Qed.

Lemma density_zero_iff nc m mu : (0 < nc)%nat ->
  (charge_density_zero_temp nc m mu = 0 <-> Rabs mu <= Rabs m).
Proof.
  intros Hn. rewrite cd_zt_R. destruct (Rle_dec (Rabs mu) (Rabs m)) as [L|L]; [tauto|].
  split; [|contradiction]. intros E. exfalso.
  apply lt_0_INR in Hn. pose proof (kF_strict m mu ltac:(lra)) as K. pose proof PI2_pos.
  assert (0 < fermi_momentum m mu ^ 3) by (apply pow_lt; auto).
  assert (INR nc * sgn mu * fermi_momentum m mu ^ 3 = 0).
  { replace (INR nc * sgn mu * fermi_momentum m mu ^ 3) with
     (INR nc * sgn mu * fermi_momentum m mu ^ 3 / (3 * (PI * PI)) * (3 * (PI * PI))) by (field; apply PI_nz).
    rewrite E. ring. }
  unfold sgn in *. destruct (Rlt_dec 0 mu); nra.
Qed.

(** A closed form valid for all mu, used for monotonicity and continuity. *)
Definition hcube (m x : R) : R := sqrt (Rmax x (Rabs m) * Rmax x (Rabs m) - m * m) ^ 3.
Lemma hcube_low m x : x <= Rabs m -> hcube m x = 0.
Proof.
  intros. unfold hcube. rewrite Rmax_right by auto. rewrite sqr_Rabs, Rminus_diag_eq by auto. rewrite sqrt_0. ring.
Qed.
Lemma hcube_high m x : Rabs m <= x -> hcube m x = fermi_momentum m x ^ 3.
Proof. intros. unfold hcube. rewrite Rmax_left by auto. rewrite kF_R. reflexivity. Qed.

Lemma kF_opp m mu : fermi_momentum m (- mu) = fermi_momentum m mu.
Proof. rewrite !kF_R. f_equal. ring. Qed.

Lemma density_closed nc m mu :
  charge_density_zero_temp nc m mu = INR nc / (3 * (PI * PI)) * (hcube m mu - hcube m (- mu)).
Proof.
  rewrite cd_zt_R. pose proof (Rabs_pos m). destruct (Rle_dec (Rabs mu) (Rabs m)) as [L|L].
  - rewrite !hcube_low; [ring| |]; rabs.
  - unfold sgn. destruct (Rlt_dec 0 mu).
    + rewrite (hcube_high m mu), (hcube_low m (- mu)); [eqR; field; apply PI_nz| |]; rabs.
    + rewrite (hcube_high m (- mu)), (hcube_low m mu), kF_opp; [eqR; field; apply PI_nz| |]; rabs.
Qed.

Lemma hcube_mono m x y : x <= y -> hcube m x <= hcube m y.
Proof.
  intros H. unfold hcube. apply pow_incr. split; [apply sqrt_pos|]. apply sqrt_le_1_alt.
  pose proof (Rabs_pos m). assert (Rmax x (Rabs m) <= Rmax y (Rabs m)) by (apply Rle_max_compat_r; auto).
  assert (0 <= Rmax x (Rabs m)) by (apply Rle_trans with (Rabs m); auto; apply Rmax_r). nra.
Qed.

Lemma density_mono nc m x y : x <= y -> charge_density_zero_temp nc m x <= charge_density_zero_temp nc m y.
Proof.
  intros H. rewrite !density_closed. apply Rmult_le_compat_l.
  - pose proof PI2_pos. apply Rmult_le_pos; [apply pos_INR|]. left. apply Rinv_0_lt_compat. lra.
  - pose proof (hcube_mono m x y H). pose proof (hcube_mono m (- y) (- x) ltac:(lra)). lra.
Qed.

Lemma density_strict nc m x y : (0 < nc)%nat -> x < y -> Rabs m < Rabs x \/ Rabs m < Rabs y ->
  charge_density_zero_temp nc m x < charge_density_zero_temp nc m y.
Proof.
  intros Hn H HM. rewrite !density_closed. apply Rmult_lt_compat_l.
  - pose proof PI2_pos. apply Rmult_lt_0_compat; [now apply lt_0_INR|]. apply Rinv_0_lt_compat. lra.
  - assert (S : forall a b, Rabs m < b -> a < b -> hcube m a < hcube m b).
    { intros a b Hb Hab. unfold hcube. pose proof (Rabs_pos m).
      assert (0 <= Rmax a (Rabs m) < Rmax b (Rabs m)).
      { split; [apply Rle_trans with (Rabs m); auto; apply Rmax_r|]. rewrite (Rmax_left b) by lra. apply Rmax_lub_lt; auto. }
      assert (Rabs m <= Rmax a (Rabs m)) by apply Rmax_r. pose proof (sqr_Rabs m).
      assert (sqrt (Rmax a (Rabs m) * Rmax a (Rabs m) - m * m) < sqrt (Rmax b (Rabs m) * Rmax b (Rabs m) - m * m)) by (apply sqrt_lt_1; nra).
      pose proof (sqrt_pos (Rmax a (Rabs m) * Rmax a (Rabs m) - m * m)).
      revert H4 H5. generalize (sqrt (Rmax a (Rabs m) * Rmax a (Rabs m) - m * m)) (sqrt (Rmax b (Rabs m) * Rmax b (Rabs m) - m * m)).
      intros u v Huv Hu. assert (0 < (v - u) * (v * v + u * v + u * u)) by (apply Rmult_lt_0_compat; nra). simpl. lra. }
    pose proof (hcube_mono m x y ltac:(lra)). pose proof (hcube_mono m (- y) (- x) ltac:(lra)).
    destruct (Rlt_dec (Rabs m) y) as [Hy|Hy].
    + pose proof (S x y Hy H). lra.
    + assert (Rabs m < - x) by (destruct HM; rabs). pose proof (S (- y) (- x) H2 ltac:(lra)). lra.
Qed.

Lemma hcube_continuous m x : continuous (hcube m) x.
Proof.
  unfold hcube.
  assert (E : forall y, Rmax y (Rabs m) = (y + Rabs m + Rabs (y - Rabs m)) / 2).
  { intros y. generalize (Rabs m). intros a. unfold Rmax, Rabs. destruct (Rle_dec y a), Rcase_abs; lra. }
  apply continuous_ext with (fun y => sqrt ((y + Rabs m + Rabs (y - Rabs m)) / 2 * ((y + Rabs m + Rabs (y - Rabs m)) / 2) - m * m) ^ 3).
  { intros y. now rewrite E. }
  apply (continuous_comp (fun y => sqrt ((y + Rabs m + Rabs (y - Rabs m)) / 2 * ((y + Rabs m + Rabs (y - Rabs m)) / 2) - m * m)) (fun s => s ^ 3)).
  2:{ apply (ex_derive_continuous (fun s => s ^ 3)). auto_derive; auto. }
  apply (continuous_comp (fun y => (y + Rabs m + Rabs (y - Rabs m)) / 2 * ((y + Rabs m + Rabs (y - Rabs m)) / 2) - m * m) sqrt).
  2:{ apply continuity_pt_filterlim. apply continuity_pt_sqrt. rewrite <- E.
      pose proof (Rmax_r x (Rabs m)). pose proof (Rabs_pos m). pose proof (sqr_Rabs m). nra. }
  assert (A : continuous (fun y => Rabs (y - Rabs m)) x).
  { apply (continuous_comp (fun y => y - Rabs m) Rabs).
    - apply (ex_derive_continuous (fun y => y - Rabs m)). auto_derive; auto.
    - apply continuity_pt_filterlim. apply Rcontinuity_abs. }
  apply (continuous_comp_2 (fun y => Rabs (y - Rabs m)) (fun y => y) (fun a y => (y + Rabs m + a) / 2 * ((y + Rabs m + a) / 2) - m * m)); auto.
  - apply continuous_id.
  - apply (continuous_minus (V := R_NormedModule)); [|apply continuous_const].
    assert (B : continuous (fun z : R * R => (snd z + Rabs m + fst z) / 2) (Rabs (x - Rabs m), x)).
    { unfold Rdiv. apply (continuous_scal_l (K := R_AbsRing) (V := R_NormedModule) (fun z : R * R => (snd z + Rabs m + fst z)) (/ 2)).
      apply (continuous_plus (V := R_NormedModule)); [apply (continuous_plus (V := R_NormedModule))|].
      - apply continuous_snd.
      - apply continuous_const.
      - apply continuous_fst. }
    apply (continuous_mult (K := R_AbsRing)); exact B.
Qed.
