(** * The charge density at finite temperature is the smeared density at zero temperature *)
From Coq Require Import Reals Psatz Lia.
From Coquelicot Require Import Coquelicot.
From Verif Require Import Num MCommon MConsts MThermal MDress MQuark MUtils SpecInt SpecLim SpecSmear PDistr PDistr2 PVac PLim PInt PCold PBasel PWeights PWeights2 PBound PColdG PColdI PFermi PColdQ PColdFin PDensity.
Open Scope R_scope.

Lemma smear_pos y : 0 < smear y.
Proof. unfold smear. pose proof (exp_pos y). pose proof (exp_pos (- y)). apply Rinv_0_lt_compat. lra. Qed.
Lemma smear_even y : smear (- y) = smear y.
Proof. unfold smear. rewrite Ropp_involutive. f_equal. ring. Qed.
Lemma smear_c y : continuous smear y.
Proof. apply (ex_derive_continuous (K := R_AbsRing) (V := R_NormedModule)). unfold smear. pose proof (exp_pos y). pose proof (exp_pos (- y)). auto_derive. lra. Qed.
Lemma smear_F y : exp y / ((exp y + 1) * (exp y + 1)) = smear y.
Proof. unfold smear. rewrite exp_Ropp. pose proof (exp_pos y). field. repeat split; nra. Qed.

(** ** One species: integration by parts and substitution of the energy *)
Section One.
Variables (nc : nat) (m beta mu : R) (e de : R -> R).
Hypothesis Hb : 0 < beta.
Hypothesis He : forall q, is_derive e q (de q).
Hypothesis Cd : forall q, continuous de q.
Hypothesis Ee : forall q, 0 <= q -> e q = energy (T := R) q m.
Definition cc : R := INR nc / (3 * (PI * PI)).
Definition GG (y : R) : R := smear y * (cc * hcube m (mu + y / beta)).
Lemma GG_c y : continuous GG y.
Proof.
  unfold GG. apply (continuous_mult (K := R_AbsRing)); [apply smear_c|]. apply (continuous_mult (K := R_AbsRing)); [apply continuous_const|].
  apply (continuous_comp (fun y => mu + y / beta) (hcube m)); [|apply hcube_continuous].
  apply (ex_derive_continuous (K := R_AbsRing) (V := R_NormedModule)). auto_derive. lra.
Qed.
Lemma GG_is a b : is_RInt GG a b (RInt GG a b).
Proof. apply (RInt_correct (V := R_CompleteNormedModule)), (ex_RInt_continuous (V := R_CompleteNormedModule)). intros; apply GG_c. Qed.
Lemma hcube_e q : 0 <= q -> hcube m (e q) = q * q * q.
Proof.
  intros Hq. rewrite Ee, hcube_high by (auto; apply energy_ge_mass). rewrite kF_R, energy_R, sqrt_sqrt by nra.
  replace (m * m + q * q - m * m) with (q * q) by ring. rewrite sqrt_square by auto. ring.
Qed.
Definition yy (q : R) : R := (e q - mu) * beta.
Definition FF (q : R) : R := cc * (q * q * q) * / (exp (yy q) + 1).
Lemma parts Q : 0 <= Q -> RInt (fT m mu (wc nc) beta) 0 Q = FF Q + RInt GG ((Rabs m - mu) * beta) (yy Q).
Proof.
  intros HQ. set (d := fun q => INR nc * q * q / PI2q * / (exp (yy q) + 1) - cc * (q * q * q) * (smear (yy q) * (beta * de q))).
  assert (Dy : forall q, is_derive yy q (beta * de q)).
  { intros q. unfold yy. pose proof (He q) as H. auto_derive; [eexists; exact H|]. change (Derive (fun x => e x) q) with (Derive e q). rewrite (is_derive_unique _ _ _ H). ring. }
  assert (Cy : forall q, continuous yy q) by (intros q; apply (ex_derive_continuous (K := R_AbsRing) (V := R_NormedModule)); eexists; apply Dy).
  assert (PP : PI <> 0) by apply PI_neq0.
  assert (DF : forall q, is_derive FF q (d q)).
  { intros q. unfold FF, d. pose proof (Dy q) as H. pose proof (exp_pos (yy q)). auto_derive; [split; [eexists; exact H|split; [lra|auto]]|].
    change (Derive (fun x => yy x) q) with (Derive yy q). rewrite (is_derive_unique _ _ _ H). rewrite <- smear_F. unfold cc, PI2q. field. repeat split; auto; lra. }
  assert (Ci1 : forall q, continuous (fun q => / (exp (yy q) + 1)) q).
  { intros q. apply (continuous_comp yy (fun y => / (exp y + 1))); [apply Cy|]. apply (ex_derive_continuous (K := R_AbsRing) (V := R_NormedModule)). pose proof (exp_pos (yy q)). auto_derive. lra. }
  assert (Cp : forall q, continuous (fun q => INR nc * q * q / PI2q) q).
  { intros q. apply (ex_derive_continuous (K := R_AbsRing) (V := R_NormedModule)). unfold PI2q. auto_derive. auto. }
  assert (Cp3 : forall q, continuous (fun q => cc * (q * q * q)) q).
  { intros q. apply (ex_derive_continuous (K := R_AbsRing) (V := R_NormedModule)). auto_derive. auto. }
  assert (Cw : forall q, continuous (fun q => cc * (q * q * q) * (smear (yy q) * (beta * de q))) q).
  { intros q. apply (continuous_mult (K := R_AbsRing)); [apply Cp3|]. apply (continuous_mult (K := R_AbsRing)); [apply (continuous_comp yy smear); [apply Cy|apply smear_c]|].
    apply (continuous_mult (K := R_AbsRing)); [apply continuous_const|apply Cd]. }
  assert (Cdd : forall q, continuous d q).
  { intros q. unfold d. apply (continuous_minus (V := R_NormedModule)); [|apply Cw]. apply (continuous_mult (K := R_AbsRing)); [apply Cp|apply Ci1]. }
  assert (E0 : e 0 = Rabs m) by (rewrite Ee, energy_R by lra; rewrite Rmult_0_l, Rplus_0_r; apply sqrt_Rsqr_abs).
  pose proof (ftc FF d 0 Q DF Cdd) as H1.
  pose proof (is_RInt_comp (V := R_CompleteNormedModule) GG yy (fun q => beta * de q) 0 Q (fun x _ => GG_c (yy x))
    (fun x _ => conj (Dy x) (continuous_mult (K := R_AbsRing) (fun _ => beta) de x (continuous_const _ _) (Cd x)))) as H2.
  pose proof (is_RInt_plus (V := R_NormedModule) _ _ _ _ _ _ H1 H2) as H3.
  replace (yy 0) with ((Rabs m - mu) * beta) in H3 by (unfold yy; rewrite E0; reflexivity).
  replace (FF Q) with (FF Q - FF 0) by (unfold FF; ring). apply is_RInt_unique. eapply is_RInt_ext; [|exact H3].
  rewrite Rmin_left, Rmax_right by auto. intros q Hq. unfold plus, scal; simpl; unfold mult; simpl. unfold GG, d, fT, wc. rewrite fermi_R.
  replace (mu + yy q / beta) with (e q) by (unfold yy; field; lra). rewrite hcube_e by lra. unfold yy. rewrite <- Ee by lra. ring.
Qed.
Lemma FF_0 : tends INF FF 0.
Proof.
  apply (tends_squeeze0 _ (fun Q => (cc * exp (mu * beta) * 256 / beta ^ 4) * / Q)).
  - exists 1. intros Q HQ. assert (C0 : 0 <= cc) by (unfold cc; pose proof (pos_INR nc); pose proof PI_RGT_0; apply Rdiv_le_0_compat; nra).
    pose proof (exp_pos (yy Q)) as EP. unfold FF. assert (Q3 : 0 < Q * Q * Q) by (repeat apply Rmult_lt_0_compat; lra).
    rewrite Rabs_pos_eq by (apply Rmult_le_pos; [apply Rmult_le_pos; lra|left; apply Rinv_0_lt_compat; lra]).
    assert (EQ : Q <= e Q). { rewrite Ee, energy_R by lra. rewrite <- (sqrt_square Q) at 1 by lra. apply sqrt_le_1_alt. nra. }
    assert (B : (beta * Q) ^ 4 / 256 <= exp (Q * beta)).
    { pose proof (exp_ge_sq (Q * beta / 2) ltac:(nra)) as T. replace (exp (Q * beta)) with (exp (Q * beta / 2) * exp (Q * beta / 2)) by (rewrite <- exp_plus; f_equal; field).
      set (z := Q * beta / 2 * (Q * beta / 2) / 4) in *. assert (0 <= z) by (unfold z; nra). replace ((beta * Q) ^ 4 / 256) with (z * z) by (unfold z; field). apply Rmult_le_compat; lra. }
    assert (B2 : exp (Q * beta) <= exp (yy Q) * exp (mu * beta)).
    { rewrite <- exp_plus. unfold yy. replace ((e Q - mu) * beta + mu * beta) with (e Q * beta) by ring. assert (L : Q * beta <= e Q * beta) by nra. destruct L as [L|L]; [left; now apply exp_increasing|right; now rewrite L]. }
    pose proof (exp_pos (mu * beta)) as EM. assert (B4 : 0 < beta ^ 4) by (apply pow_lt; lra).
    replace (cc * exp (mu * beta) * 256 / beta ^ 4 * / Q) with (cc * (Q * Q * Q) * (exp (mu * beta) / ((beta * Q) ^ 4 / 256))) by (field; split; lra).
    apply Rmult_le_compat_l; [apply Rmult_le_pos; lra|].
    assert (X : 0 < (beta * Q) ^ 4 / 256) by (apply Rdiv_lt_0_compat; [apply pow_lt; nra|lra]).
    apply Rmult_le_reg_r with (exp (yy Q) + 1); [lra|]. rewrite Rinv_l by lra.
    apply Rmult_le_reg_r with ((beta * Q) ^ 4 / 256); [auto|]. replace (exp (mu * beta) / ((beta * Q) ^ 4 / 256) * (exp (yy Q) + 1) * ((beta * Q) ^ 4 / 256)) with (exp (yy Q) * exp (mu * beta) + exp (mu * beta)) by (field; lra). lra.
  - eapply tends_eq; [|apply tends_mult; [apply tends_const|apply tends_inv_infty]]. ring.
Qed.
Lemma fT_c x : continuous (fT m mu (wc nc) beta) x.
Proof.
  unfold fT. apply (continuous_mult (K := R_AbsRing)).
  - apply (ex_derive_continuous (K := R_AbsRing) (V := R_NormedModule)). unfold wc, PI2q. auto_derive. auto.
  - apply continuous_ext with (fun q => / (exp ((sqrt (m * m + q * q) - mu) * beta) + 1)); [intros q; now rewrite fermi_R, energy_R|].
    apply (continuous_comp (fun q => sqrt (m * m + q * q)) (fun s => / (exp ((s - mu) * beta) + 1))).
    + apply (continuous_comp (fun q => m * m + q * q) sqrt); [apply (ex_derive_continuous (K := R_AbsRing) (V := R_NormedModule)); auto_derive; auto|].
      apply continuity_pt_filterlim. apply continuity_pt_sqrt. nra.
    + apply (ex_derive_continuous (K := R_AbsRing) (V := R_NormedModule)). pose proof (exp_pos ((sqrt (m * m + x * x) - mu) * beta)). auto_derive. unfold Rminus in *. lra.
Qed.
Lemma one_lim v : is_RInt (compact_R (fT m mu (wc nc) beta)) 0 1 v -> tends INF (fun b => RInt GG ((Rabs m - mu) * beta) b) v.
Proof.
  intros Hv. pose proof (half_of_compact _ _ (fun x _ => fT_c x) Hv) as H.
  assert (H1 : tends INF (fun Q => RInt GG ((Rabs m - mu) * beta) (yy Q)) v).
  { eapply tends_ext; [|eapply tends_eq; [|exact (tends_minus _ _ _ _ H FF_0)]]; [|ring]. exists 0. intros Q HQ. rewrite parts by lra. ring. }
  set (qq := fun b => sqrt ((mu + b / beta) * (mu + b / beta) - m * m)).
  assert (L : filterlim qq (Rbar_locally p_infty) (Rbar_locally p_infty)).
  { intros P [M HM]. exists (Rmax ((M + 1 + Rabs m - mu) * beta) ((Rabs m - mu) * beta)). intros b Hb'. apply HM.
    pose proof (Rmax_l ((M + 1 + Rabs m - mu) * beta) ((Rabs m - mu) * beta)). pose proof (Rmax_r ((M + 1 + Rabs m - mu) * beta) ((Rabs m - mu) * beta)).
    assert (B : forall z, z * beta < b -> z < b / beta) by (intros z Hz; apply Rmult_lt_reg_r with beta; [lra|]; unfold Rdiv; rewrite Rmult_assoc, Rinv_l; lra).
    pose proof (B (M + 1 + Rabs m - mu) ltac:(lra)). pose proof (B (Rabs m - mu) ltac:(lra)). pose proof (Rabs_pos m).
    apply Rlt_le_trans with (mu + b / beta - Rabs m); [lra|]. unfold qq. rewrite <- (sqrt_square (mu + b / beta - Rabs m)) by lra. apply sqrt_le_1_alt. pose proof (sqr_Rabs m). nra. }
  eapply tends_ext; [|exact (filterlim_comp _ _ _ qq _ _ _ _ L H1)].
  exists ((Rabs m - mu) * beta). intros b Hb'. cbn beta. f_equal. unfold yy, qq.
  assert (B : Rabs m - mu < b / beta) by (apply Rmult_lt_reg_r with beta; [lra|]; unfold Rdiv; rewrite Rmult_assoc, Rinv_l; lra).
  pose proof (sqr_Rabs m). pose proof (Rabs_pos m).
  rewrite Ee by apply sqrt_pos. rewrite energy_R, sqrt_sqrt by nra. replace (m * m + ((mu + b / beta) * (mu + b / beta) - m * m)) with ((mu + b / beta) * (mu + b / beta)) by ring.
  rewrite sqrt_square by lra. field. lra.
Qed.
Lemma low_zero a : a <= (Rabs m - mu) * beta -> RInt GG a ((Rabs m - mu) * beta) = 0.
Proof.
  intros Ha. apply is_RInt_unique. eapply is_RInt_ext; [|apply (is_RInt_zero a)]. rewrite Rmin_left, Rmax_right by auto. intros y Hy. unfold GG. cbn beta.
  change (0 = smear y * (cc * hcube m (mu + y / beta)))%R. rewrite hcube_low; [ring|]. assert (B : y / beta < Rabs m - mu) by (apply Rmult_lt_reg_r with beta; [lra|]; unfold Rdiv; rewrite Rmult_assoc, Rinv_l; lra). lra.
Qed.
Lemma from_low a b : a <= (Rabs m - mu) * beta -> RInt GG a b = RInt GG ((Rabs m - mu) * beta) b.
Proof.
  intros Ha. pose proof (is_RInt_Chasles (V := R_NormedModule) _ _ _ _ _ _ (GG_is a ((Rabs m - mu) * beta)) (GG_is ((Rabs m - mu) * beta) b)) as H.
  rewrite low_zero in H by auto. unfold plus in H; simpl in H. rewrite Rplus_0_l in H. apply (is_RInt_unique (V := R_CompleteNormedModule)). exact H.
Qed.
End One.

(** ** Both species *)
Lemma energy_smooth m : exists e de : R -> R, (forall q, is_derive e q (de q)) /\ (forall q, continuous de q) /\ (forall q, 0 <= q -> e q = energy (T := R) q m).
Proof.
  destruct (Req_dec m 0) as [->|Hm].
  - exists (fun q => q), (fun _ => 1). split; [|split].
    + intros q. apply (is_derive_id (K := R_AbsRing)).
    + intros q. apply continuous_const.
    + intros q Hq. rewrite energy_R, Rmult_0_l, Rplus_0_l. now rewrite sqrt_square.
  - assert (P : forall q, 0 < m * m + q * q) by (intros q; assert (0 < m * m) by nra; nra).
    exists (fun q => sqrt (m * m + q * q)), (fun q => q * / sqrt (m * m + q * q)). split; [|split].
    + intros q. pose proof (P q) as H. pose proof (sqrt_lt_R0 _ H). auto_derive; [auto|]. field. lra.
    + intros q. apply (ex_derive_continuous (K := R_AbsRing) (V := R_NormedModule)). pose proof (P q) as H. pose proof (sqrt_lt_R0 _ H). auto_derive. repeat split; auto; lra.
    + intros q Hq. now rewrite energy_R.
Qed.
Section Two.
Variables (J : Integrator) (g : globals R) (beta m mu : R) (I : Integral R).
Hypothesis HJ : exact_integrator J.
Hypothesis Hb : 0 < beta.
Notation n0 := (charge_density_zero_temp (g_nc g) m).
Definition ff (y : R) : R := smear y * n0 (mu + y / beta).
Lemma ff_GG y : ff y = GG (g_nc g) m beta mu y - GG (g_nc g) m beta (- mu) (- y).
Proof.
  unfold ff, GG, cc. rewrite density_closed, smear_even. replace (- mu + - y / beta) with (- (mu + y / beta)) by (field; lra). ring.
Qed.
Lemma ff_is a b : is_RInt ff a b (RInt (GG (g_nc g) m beta mu) a b - RInt (GG (g_nc g) m beta (- mu)) (- b) (- a)).
Proof.
  pose proof (GG_is (g_nc g) m beta mu a b) as H1. pose proof (GG_is (g_nc g) m beta (- mu) (- a) (- b)) as H2.
  apply (is_RInt_comp_opp (V := R_NormedModule)) in H2. apply (is_RInt_opp (V := R_NormedModule)) in H2. 
  pose proof (is_RInt_minus (V := R_NormedModule) _ _ _ _ _ _ H1 H2) as H.
  replace (RInt (GG (g_nc g) m beta (- mu)) (- b) (- a)) with (opp (RInt (GG (g_nc g) m beta (- mu)) (- a) (- b))).
  2:{ apply (opp_RInt_swap (V := R_CompleteNormedModule)). eexists. apply GG_is. }
  eapply is_RInt_ext; [|exact H]. intros y _. rewrite ff_GG. unfold minus, plus, opp; simpl. ring.
Qed.
Lemma smeared : is_RInt_gen ff (Rbar_locally m_infty) (Rbar_locally p_infty) (charge_density_with_method J g m beta mu I).
Proof.
  destruct (energy_smooth m) as (e & de & D1 & D2 & D3).
  pose proof (fun v => one_lim (g_nc g) m beta mu e de Hb D1 D2 D3 v) as L1. pose proof (fun v => one_lim (g_nc g) m beta (- mu) e de Hb D1 D2 D3 v) as L2.
  specialize (L1 _ (Nb_is g beta Hb m mu)). specialize (L2 _ (Nb_is g beta Hb m (- mu))). rewrite (cd_Nb J g beta I HJ Hb).
  intros P [eps HP]. 
  pose proof (L1 _ (locally_ball (Nb g beta m mu) (pos_div_2 eps))) as [K1 B1]. pose proof (L2 _ (locally_ball (Nb g beta m (- mu)) (pos_div_2 eps))) as [K2 B2].
  apply (Filter_prod _ _ _ (fun a => a < Rmin (- K2) ((Rabs m - mu) * beta)) (fun b => Rmax K1 (- ((Rabs m - - mu) * beta)) < b)); [eexists; intros x Hx; exact Hx|eexists; intros x Hx; exact Hx|].
  intros a b Ha Hb'. cbn [fst snd]. eexists. split; [apply ff_is|]. apply HP.
  pose proof (Rmin_l (- K2) ((Rabs m - mu) * beta)). pose proof (Rmin_r (- K2) ((Rabs m - mu) * beta)). pose proof (Rmax_l K1 (- ((Rabs m - - mu) * beta))). pose proof (Rmax_r K1 (- ((Rabs m - - mu) * beta))).
  rewrite (from_low (g_nc g) m beta mu Hb a b) by lra. rewrite (from_low (g_nc g) m beta (- mu) Hb (- b) (- a)) by lra. specialize (B1 b ltac:(lra)). specialize (B2 (- a) ltac:(lra)).
  unfold ball in *; simpl in *; unfold AbsRing_ball, abs, minus, plus, opp in *; simpl in *.
  apply Rabs_def2 in B1 as [B1 B1'], B2 as [B2 B2']. apply Rabs_def1; lra.
Qed.
End Two.
