(** * Quark density and chemical potential: inverses, root search, integrand *)
From Coq Require Import Reals Psatz Lia.
From Coquelicot Require Import Coquelicot.
From Verif Require Import Num CField MCommon MConsts MUtils MDress MQuark SpecConsts SpecDistr PUtils PDistr.
Open Scope R_scope.

Lemma density_continuous nc m mu : continuous (charge_density_zero_temp nc m) mu.
Proof.
  apply continuous_ext with (fun x => INR nc / (3 * (PI * PI)) * (hcube m x - hcube m (- x))).
  { intros x. now rewrite density_closed. }
  apply (continuous_scal_r (K := R_AbsRing) (V := R_NormedModule) (INR nc / (3 * (PI * PI))) (fun x => hcube m x - hcube m (- x))).
  apply (continuous_minus (V := R_NormedModule)); [apply hcube_continuous|].
  apply (continuous_comp Ropp (hcube m)); [|apply hcube_continuous].
  apply (continuous_opp (V := R_NormedModule)). apply continuous_id.
Qed.

(** ** Inverses *)
Lemma Rpower_sqrt3 y : 0 < y -> sqrt (Rpower y (2 / 3)) ^ 3 = y.
Proof.
  intros Hy. rewrite <- Rpower_sqrt by (unfold Rpower; apply exp_pos).
  rewrite Rpower_mult, <- Rpower_pow by (unfold Rpower; apply exp_pos). rewrite Rpower_mult.
  simpl INR. replace (2 / 3 * / 2 * (1 + 1 + 1)) with 1 by field. now apply Rpower_1.
Qed.
Lemma Rpower_cube23 k : 0 < k -> Rpower (k ^ 3) (2 / 3) = k * k.
Proof.
  intros Hk. rewrite <- Rpower_pow by auto. rewrite Rpower_mult. simpl INR.
  replace ((1 + 1 + 1) * (2 / 3)) with (INR 2) by (simpl; field). rewrite Rpower_pow by auto. ring.
Qed.

Lemma Rpower_pos x y : 0 < Rpower x y.
Proof. unfold Rpower. apply exp_pos. Qed.

Lemma sgn_abs x : x <> 0 -> sgn x * Rabs x = x.
Proof. intros. unfold sgn. destruct (Rlt_dec 0 x); rabs. Qed.
Lemma sgn_cases x : sgn x = 1 \/ sgn x = -1.
Proof. unfold sgn. destruct (Rlt_dec 0 x); auto. Qed.
Lemma sgn_mult_pos s x : 0 < x -> (s = 1 \/ s = -1) -> sgn (s * x) = s.
Proof. intros. unfold sgn. destruct H0 as [->| ->]; destruct (Rlt_dec 0 _); lra. Qed.

Lemma density_of_chempot nc m n : (0 < nc)%nat ->
  charge_density_zero_temp nc m (chemical_potential_zero_temp nc m n) = n.
Proof.
  intros Hc. apply lt_0_INR in Hc. pose proof PI2_pos as HP. unfold chemical_potential_zero_temp.
  destruct (Req_EM_T n 0) as [->|Hn].
  - rewrite cd_zt_R, Rabs_R0. destruct (Rle_dec 0 (Rabs m)); auto. pose proof (Rabs_pos m). lra.
  - unfold PI2q. set (y := 3 * (PI * PI) * Rabs n / INR nc).
    assert (Hy : 0 < y).
    { unfold y. apply Rmult_lt_0_compat; [|now apply Rinv_0_lt_compat]. pose proof (Rabs_pos_lt n Hn). nra. }
    fold (sgn n). set (a := Rpower y (2 / 3)). assert (Ha : 0 < a) by apply Rpower_pos.
    assert (Hs : 0 < sqrt (m * m + a)) by (apply sqrt_lt_R0; nra).
    assert (E2 : (sgn n * sqrt (m * m + a)) * (sgn n * sqrt (m * m + a)) = m * m + a).
    { pose proof (sqrt_def (m * m + a) ltac:(nra)). destruct (sgn_cases n) as [->| ->]; nra. }
    rewrite cd_zt_R, kF_R, E2. destruct (Rle_dec _ _) as [L|L].
    + exfalso. apply Rabs_le_sqr in L. rewrite E2 in L. lra.
    + rewrite sgn_mult_pos by (auto using sgn_cases). replace (m * m + a - m * m) with a by ring.
      unfold a. rewrite Rpower_sqrt3 by auto. unfold y.
      rewrite <- (sgn_abs n Hn) at 3. field. split; [lra|]. apply PI_nz.
Qed.

Lemma chempot_of_density nc m mu : (0 < nc)%nat -> Rabs m < Rabs mu ->
  chemical_potential_zero_temp nc m (charge_density_zero_temp nc m mu) = mu.
Proof.
  intros Hc Hm. apply lt_0_INR in Hc. pose proof PI2_pos as HP. rewrite cd_zt_R.
  destruct (Rle_dec (Rabs mu) (Rabs m)); [lra|]. pose proof (kF_strict m mu Hm) as K.
  pose proof (kF_sqr m mu ltac:(lra)) as KS. set (k := fermi_momentum m mu) in *.
  assert (K3 : 0 < k ^ 3) by (apply pow_lt; auto).
  assert (X : 0 < INR nc * k ^ 3 / (3 * (PI * PI))).
  { apply Rmult_lt_0_compat; [apply Rmult_lt_0_compat; auto|]. apply Rinv_0_lt_compat. lra. }
  replace (INR nc * sgn mu * k ^ 3 / (3 * (PI * PI))) with (sgn mu * (INR nc * k ^ 3 / (3 * (PI * PI)))) by (field; apply PI_nz).
  set (x := INR nc * k ^ 3 / (3 * (PI * PI))) in *.
  assert (S : sgn mu * x <> 0) by (destruct (sgn_cases mu) as [->| ->]; lra).
  unfold chemical_potential_zero_temp. destruct (Req_EM_T (sgn mu * x) 0) as [E|_]; [contradiction|].
  unfold PI2q. fold (sgn (sgn mu * x)). rewrite sgn_mult_pos by auto using sgn_cases.
  assert (A : Rabs (sgn mu * x) = x) by (destruct (sgn_cases mu) as [->| ->]; rabs).
  rewrite A. replace (3 * (PI * PI) * x / INR nc) with (k ^ 3) by (unfold x; field; split; [apply PI_nz|lra]).
  rewrite Rpower_cube23 by auto. rewrite KS. replace (m * m + (mu * mu - m * m)) with (Rsqr mu) by (unfold Rsqr; ring).
  rewrite sqrt_Rsqr_abs. apply sgn_abs. intros ->. rewrite Rabs_R0 in Hm. pose proof (Rabs_pos m). lra.
Qed.

Lemma chempot_in_gap nc m mu : Rabs mu <= Rabs m ->
  chemical_potential_zero_temp nc m (charge_density_zero_temp nc m mu) = 0.
Proof.
  intros H. rewrite cd_zt_R. destruct (Rle_dec (Rabs mu) (Rabs m)); [|lra].
  unfold chemical_potential_zero_temp. destruct (Req_EM_T 0 0); lra.
Qed.

(** ** Finite-temperature chemical potential *)
Lemma chempot_within_tol J g m beta n I mu :
  chemical_potential_with_method J g m beta n I = Ret mu ->
  (n = 0 /\ mu = 0) \/ (n <> 0 /\ Rabs (n - charge_density_with_method J g m beta mu I) < get_tol I).
Proof.
  unfold chemical_potential_with_method. destruct (Req_EM_T n 0); [intros E; injection E; auto|].
  generalize 1000%nat. intros N. destruct (find_root _ _ _ _ _) as [|[[z w]|]] eqn:E; try discriminate.
  intros R. injection R as <-. right. split; auto.
  apply find_root_sound in E as (Ew & _ & Hs). simpl in *. subst w.
  destruct (Rlt_dec _ _); [auto|discriminate].
Qed.

Lemma chempot_panic J g m beta n I :
  chemical_potential_with_method J g m beta n I = Panic <->
  n <> 0 /\ (~ 0 < get_tol I \/
    forall k, (1 <= k <= 1000)%nat ->
      get_tol I <= Rabs (n - charge_density_with_method J g m beta
         (secant RootOpsR (fun mu => n - charge_density_with_method J g m beta mu I) (n / 2) n k) I)).
Proof.
  unfold chemical_potential_with_method. replace (5 / 10 * n) with (n / 2) by lra.
  set (f := fun mu => n - charge_density_with_method J g m beta mu I).
  change (forall k, (1 <= k <= 1000)%nat -> get_tol I <= Rabs (n - charge_density_with_method J g m beta
         (secant RootOpsR f (n / 2) n k) I)) with
   (forall k, (1 <= k <= 1000)%nat -> get_tol I <= Rabs (f (secant RootOpsR f (n / 2) n k))).
  generalize 1000%nat. intros N. clearbody f.
  destruct (Req_EM_T n 0) as [->|Hn]; [split; [discriminate|tauto]|].
  assert (Hd : ro_eq RootOpsR (n / 2) n = false) by (simpl; destruct (Req_EM_T (n / 2) n); auto; lra).
  destruct (Rlt_dec 0 (get_tol I)) as [Ht|Ht].
  - assert (Hp : ro_pos RootOpsR (get_tol I) = true) by (simpl; destruct (Rlt_dec 0 (get_tol I)); tauto).
    destruct (find_root RootOpsR f (n / 2, n) (get_tol I) N) as [|[[z w]|]] eqn:E.
    + apply find_root_panic in E. simpl fst in E. simpl snd in E. destruct E; congruence.
    + split; [discriminate|]. intros [_ [H|H]]; [tauto|]. exfalso.
      apply find_root_some in E; auto. destruct E as (k & Hk & -> & Hw & _ & Hs & _).
      specialize (H (S k) ltac:(lia)). rewrite Hw in Hs. cbn [ro_small RootOpsR] in Hs.
      destruct (Rlt_dec _ _) in Hs; [lra|discriminate].
    + split; auto. intros _. split; auto. right. intros [|k] Hk; [lia|].
      assert (S : ro_small RootOpsR (f (secant RootOpsR f (n / 2) n (S k))) (get_tol I) = false).
      { eapply find_root_none; eauto. lia. }
      cbn [ro_small RootOpsR] in S. destruct (Rlt_dec _ _) in S; [discriminate|lra].
  - split; [tauto|]. intros _.
    assert (E : find_root RootOpsR f (n / 2, n) (get_tol I) N = Panic).
    { apply find_root_panic. right. simpl. destruct (Rlt_dec 0 (get_tol I)); tauto. }
    now rewrite E.
Qed.

(** ** The integrand *)
Lemma cdi_R nc q m beta mu : charge_density_i nc q m beta mu =
  INR nc * (q * q) / (PI * PI) * (fermi_distribution (T := R) (energy q m) beta mu - fermi_distribution (T := R) (energy q m) beta (- mu)).
Proof. unfold charge_density_i, PI2q. field. apply PI_nz. Qed.

Lemma cdi_odd nc q m beta mu : charge_density_i nc q m beta (- mu) = - charge_density_i nc q m beta mu.
Proof. rewrite !cdi_R, Ropp_involutive. ring. Qed.

Lemma cdi_weight nc q : (0 < nc)%nat -> q <> 0 -> 0 < INR nc * (q * q) / (PI * PI).
Proof.
  intros H Hq. apply lt_0_INR in H. pose proof PI2_pos. apply Rmult_lt_0_compat; [|now apply Rinv_0_lt_compat].
  apply Rmult_lt_0_compat; auto. nra.
Qed.

Lemma cdi_increasing nc q m beta mu1 mu2 : (0 < nc)%nat -> q <> 0 -> 0 < beta -> mu1 < mu2 ->
  charge_density_i nc q m beta mu1 < charge_density_i nc q m beta mu2.
Proof.
  intros. rewrite !cdi_R. apply Rmult_lt_compat_l; [now apply cdi_weight|].
  pose proof (fermi_increasing_mu beta (energy q m) mu1 mu2 H1 H2).
  pose proof (fermi_increasing_mu beta (energy q m) (- mu2) (- mu1) H1 ltac:(lra)). lra.
Qed.

Lemma cdi_sign nc q m beta mu : (0 < nc)%nat -> q <> 0 -> 0 < beta ->
  (0 < charge_density_i nc q m beta mu <-> 0 < mu) /\ (charge_density_i nc q m beta mu < 0 <-> mu < 0).
Proof.
  intros Hn Hq Hb. assert (Z : charge_density_i nc q m beta 0 = 0) by (rewrite cdi_R, Ropp_0; ring).
  pose proof (fun a b H => cdi_increasing nc q m beta a b Hn Hq Hb H) as I.
  destruct (Rtotal_order mu 0) as [L|[->|L]].
  - specialize (I _ _ L). lra.
  - lra.
  - specialize (I _ _ L). lra.
Qed.

Lemma cdi_lim nc q m mu : energy (T := R) q m <> Rabs mu ->
  is_lim (fun beta => charge_density_i nc q m beta mu) p_infty (charge_integrand_zt nc m mu q).
Proof.
  intros H. pose proof (energy_pos q m) as He.
  assert (H1 : energy (T := R) q m <> mu) by rabs. assert (H2 : energy (T := R) q m <> - mu) by rabs.
  apply is_lim_ext with (fun beta => INR nc * (q * q) / (PI * PI) * (fermi_distribution (T := R) (energy q m) beta mu - fermi_distribution (T := R) (energy q m) beta (- mu))).
  { intros; now rewrite cdi_R. }
  replace (Finite (charge_integrand_zt nc m mu q)) with
    (Rbar_mult (INR nc * (q * q) / (PI * PI)) (Finite (fermi_distribution_zero_temp (T := R) (energy q m) mu - fermi_distribution_zero_temp (T := R) (energy q m) (- mu)))).
  2:{ cbn [Rbar_mult Rbar_mult']. f_equal. rewrite charge_integrand_zt_R. field. apply PI_nz. }
  apply is_lim_scal_l. apply (is_lim_minus _ _ p_infty _ _ _ (fermi_lim _ _ H1) (fermi_lim _ _ H2)). reflexivity.
Qed.

Lemma distr_values en beta mu :
  fermi_distribution (T := R) en beta mu * (exp (beta * (en - mu)) + 1) = 1 /\
  (beta <> 0 -> en <> mu -> bose_distribution (T := R) en beta mu * (exp (beta * (en - mu)) - 1) = 1).
Proof.
  rewrite fermi_R, bose_R, (Rmult_comm beta). pose proof (exp_pos ((en - mu) * beta)). split.
  - apply Rinv_l. lra.
  - intros Hb He. apply Rinv_l. assert ((en - mu) * beta <> 0) by (apply Rmult_integral_contrapositive; split; auto; lra).
    pose proof (exp_neq_1 _ H0). lra.
Qed.

(** ** Concrete cases *)
Lemma ex_fermi : fermi_distribution (T := R) (1 + ln 3) 1 1 = / 4.
Proof.
  rewrite fermi_R. replace ((1 + ln 3 - 1) * 1) with (ln 3) by ring. rewrite exp_ln by lra. f_equal. ring.
Qed.
Lemma ex_kF : fermi_momentum 3 (-5) = 4.
Proof. rewrite kF_R. replace (-5 * -5 - 3 * 3) with (Rsqr 4) by (unfold Rsqr; ring). apply sqrt_Rsqr. lra. Qed.
Lemma ex_density : charge_density_zero_temp 3 3 (-5) = - (64 / PI ^ 2).
Proof.
  rewrite cd_zt_R, ex_kF. destruct (Rle_dec _ _); [rabs|]. unfold sgn. destruct (Rlt_dec 0 (-5)); [lra|].
  simpl. field. apply PI_nz.
Qed.
Lemma ex_chempot : chemical_potential_zero_temp 3 3 (- (64 / PI ^ 2)) = -5.
Proof. rewrite <- ex_density. apply chempot_of_density; [lia|rabs]. Qed.
Lemma ex_cdi : charge_integrand_zt 3 3 (-6) 4 = - (48 / PI ^ 2).
Proof.
  unfold charge_integrand_zt, occupied. replace (4 ^ 2 + 3 ^ 2) with (Rsqr 5) by (unfold Rsqr; ring).
  rewrite sqrt_Rsqr by lra. destruct (Rle_dec 5 (-6)); [lra|]. destruct (Rle_dec 5 (- -6)); [|lra].
  simpl. field. apply PI_nz.
Qed.
Lemma ex_chempot_found : exists J, forall g m beta I, 0 < get_tol I -> get_tol I < 1 ->
  chemical_potential_with_method J g m beta 6 I <> Panic.
Proof.
  exists {| integrateC := fun _ _ _ _ => RtoC 0; integrateR := fun _ _ _ _ => 6 |}.
  intros g m beta I Ht _ E. apply chempot_panic in E as [_ [E|E]]; [tauto|].
  specialize (E 1%nat ltac:(lia)). unfold charge_density_with_method in E. simpl in E.
  rewrite Rminus_diag_eq, Rabs_R0 in E by auto. lra.
Qed.
