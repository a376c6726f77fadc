(** * Below the mass the density is exponentially small at low temperature *)
From Coq Require Import Reals List Psatz Lia.
From Coquelicot Require Import Coquelicot.
From Verif Require Import Num MCommon MConsts MThermal MDress MQuark SpecInt SpecLim PDistr PDistr2 PVac PLim PInt PDensity PBasel.
Open Scope R_scope.

Section D.
Variables (b : R).
Hypothesis Hb0 : 0 < b.
Definition gam (q : R) : R := - (q * q / b + 2 * q / (b * b) + 2 / (b * b * b)) * exp (- (b * q)).
Lemma gam_d q : is_derive gam q (q * q * exp (- (b * q))).
Proof. unfold gam. auto_derive; [auto|]. unfold Rminus, Rdiv. field. lra. Qed.
Lemma gam_int Q : 0 <= Q -> is_RInt (fun q => q * q * exp (- (b * q))) 0 Q (gam Q - gam 0).
Proof. intros HQ. apply (is_RInt_derive gam). { intros; apply gam_d. } intros x _. apply (ex_derive_continuous (V := R_NormedModule)). auto_derive; auto. Qed.
Lemma gam_le Q : 0 <= Q -> gam Q - gam 0 <= 2 / (b * b * b).
Proof.
  intros HQ. unfold gam. replace (- (b * 0)) with 0 by ring. rewrite exp_0. pose proof (exp_pos (- (b * Q))).
  assert (0 <= Q * Q / b + 2 * Q / (b * b) + 2 / (b * b * b)).
  { assert (0 < / b) by now apply Rinv_0_lt_compat. unfold Rdiv. rewrite !Rinv_mult_distr by (try apply Rgt_not_eq; try nra). assert (0 <= Q * Q) by nra. assert (0 < / b * / b) by nra. assert (0 < / b * / b * / b) by nra. nra. }
  replace (0 * 0 / b + 2 * 0 / (b * b) + 2 / (b * b * b)) with (2 / (b * b * b)) by (field; lra). nra.
Qed.
End D.

Section G.
Variables (J : Integrator) (g : globals R) (m : R) (I : Integral R).
Hypothesis HJ : exact_integrator J.
Lemma dilute_i nc b beta q mu : 0 < b <= beta -> 0 <= q -> charge_density_i nc q m beta mu <= INR nc / (PI * PI) * exp (b * Rabs m) * exp (- (beta * (Rabs m - mu))) * (q * q * exp (- (b * q))).
Proof.
  intros Hb Hq. rewrite cdi_R, !fermi_R, energy_R. set (e := sqrt _).
  assert (E1 : Rabs m <= e). { unfold e. rewrite <- sqrt_Rsqr_abs. apply sqrt_le_1_alt. unfold Rsqr. nra. }
  assert (E2 : q <= e). { unfold e. rewrite <- (sqrt_square q) at 1 by auto. apply sqrt_le_1_alt. nra. }
  assert (P1 := exp_pos ((e - mu) * beta)). assert (P2 := exp_pos ((e - - mu) * beta)).
  assert (F : / (exp ((e - mu) * beta) + 1) - / (exp ((e - - mu) * beta) + 1) <= exp (b * Rabs m) * exp (- (beta * (Rabs m - mu))) * exp (- (b * q))).
  { rewrite <- !exp_plus. apply Rle_trans with (exp (- ((e - mu) * beta))).
    - assert (0 < / (exp ((e - - mu) * beta) + 1)) by (apply Rinv_0_lt_compat; lra). assert (/ (exp ((e - mu) * beta) + 1) <= / exp ((e - mu) * beta)) by (apply Rinv_le_contravar; lra). rewrite exp_Ropp. lra.
    - destruct (Rle_lt_or_eq_dec (- ((e - mu) * beta)) (b * Rabs m + - (beta * (Rabs m - mu)) + - (b * q))) as [L|L]; [nra|left; now apply exp_increasing|rewrite L; lra]. }
  assert (W : 0 <= INR nc / (PI * PI) * (q * q)). { pose proof (pos_INR nc). pose proof PI_RGT_0. apply Rmult_le_pos; [|nra]. apply Rmult_le_pos; auto. left. apply Rinv_0_lt_compat. nra. }
  apply Rmult_le_compat_l with (r := INR nc / (PI * PI) * (q * q)) in F; auto.
  eapply Rle_trans; [|eapply Rle_trans; [exact F|]]; right; unfold PI2q, Rdiv; ring.
Qed.
Lemma dilute_pos b beta mu : 0 < b <= beta -> charge_density_with_method J g m beta mu I <= 2 * INR (g_nc g) * exp (b * Rabs m) / (PI * PI * (b * b * b)) * exp (- (beta * (Rabs m - mu))).
Proof.
  intros Hb. assert (Hbe : 0 < beta) by lra. pose proof (cdi_is J g beta I HJ Hbe m mu) as D.
  assert (Cn : forall x, 0 <= x -> continuous (fun q => charge_density_i (g_nc g) q m beta mu) x).
  { intros x _. assert (A : forall e, exp ((e - mu) * beta) + 1 <> 0 /\ exp ((e - - mu) * beta) + 1 <> 0) by (intros e; pose proof (exp_pos ((e - mu) * beta)); pose proof (exp_pos ((e - - mu) * beta)); lra).
    apply (continuous_ext (fun q => INR (g_nc g) / (PI * PI) * ((q * q) * (/ (exp ((energy q m - mu) * beta) + 1) - / (exp ((energy q m - - mu) * beta) + 1))))).
    { intros t. rewrite cdi_R, !fermi_R. unfold PI2q, Rdiv. match goal with |- ?a = ?c => change (@eq R a c) end. ring. }
    assert (Ce : continuous (fun q => energy q m) x). { apply (continuous_ext (fun q => sqrt (q * q + m * m))). { intros t. rewrite energy_R. f_equal. ring. } apply continuous_comp; [apply (ex_derive_continuous (V := R_NormedModule)); auto_derive; auto|apply continuous_sqrt]. }
    assert (Cf : forall s, continuous (fun q => / (exp ((energy q m - s) * beta) + 1)) x). { intros s. apply (continuous_comp (fun q => energy q m) (fun e => / (exp ((e - s) * beta) + 1))); auto. apply (ex_derive_continuous (V := R_NormedModule)). auto_derive. pose proof (exp_pos ((energy x m + - s) * beta)). lra. }
    apply (continuous_mult (K := R_AbsRing)); [apply continuous_const|]. apply (continuous_mult (K := R_AbsRing)); [apply (ex_derive_continuous (V := R_NormedModule)); auto_derive; auto|]. apply (continuous_minus (V := R_NormedModule)); apply Cf. }
  pose proof (half_of_compact _ _ Cn D) as L.
  set (K := INR (g_nc g) / (PI * PI) * exp (b * Rabs m) * exp (- (beta * (Rabs m - mu)))).
  assert (HK : 0 <= K). { unfold K. pose proof (pos_INR (g_nc g)). pose proof PI_RGT_0. pose proof (exp_pos (b * Rabs m)). pose proof (exp_pos (- (beta * (Rabs m - mu)))). assert (0 < / (PI * PI)) by (apply Rinv_0_lt_compat; nra). unfold Rdiv. apply Rmult_le_pos; [|lra]. apply Rmult_le_pos; [|lra]. apply Rmult_le_pos; lra. }
  replace (2 * INR (g_nc g) * exp (b * Rabs m) / (PI * PI * (b * b * b)) * exp (- (beta * (Rabs m - mu)))) with (K * (2 / (b * b * b))) by (unfold K; pose proof PI_RGT_0; field; lra).
  apply (filterlim_le (F := Rbar_locally p_infty) (fun Q => RInt (fun q => charge_density_i (g_nc g) q m beta mu) 0 Q) (fun _ => K * (2 / (b * b * b))) (charge_density_with_method J g m beta mu I) (K * (2 / (b * b * b)))); [|exact L|apply tends_const].
  exists 0. intros Q HQ. apply Rle_trans with (K * (gam b Q - gam b 0)); [|apply Rmult_le_compat_l; auto; apply gam_le; lra].
  assert (X : is_RInt (fun q => K * (q * q * exp (- (b * q)))) 0 Q (K * (gam b Q - gam b 0))) by (apply (is_RInt_scal (V := R_NormedModule)), gam_int; lra).
  rewrite <- (is_RInt_unique _ _ _ _ X). apply RInt_le; [lra| |eexists; exact X|].
  - apply (ex_RInt_continuous (V := R_CompleteNormedModule)). intros z Hz. rewrite Rmin_left, Rmax_right in Hz by lra. apply Cn; lra.
  - intros q Hq. unfold K. apply dilute_i; lra.
Qed.
Lemma dilute b beta mu : 0 < b <= beta -> Rabs (charge_density_with_method J g m beta mu I) <= 2 * INR (g_nc g) * exp (b * Rabs m) / (PI * PI * (b * b * b)) * exp (- (beta * (Rabs m - Rabs mu))).
Proof.
  intros Hb. assert (Hbe : 0 < beta) by lra.
  assert (M : forall s, s <= Rabs mu -> 2 * INR (g_nc g) * exp (b * Rabs m) / (PI * PI * (b * b * b)) * exp (- (beta * (Rabs m - s))) <= 2 * INR (g_nc g) * exp (b * Rabs m) / (PI * PI * (b * b * b)) * exp (- (beta * (Rabs m - Rabs mu)))).
  { intros s Hs. apply Rmult_le_compat_l. { pose proof (pos_INR (g_nc g)). pose proof PI_RGT_0. pose proof (exp_pos (b * Rabs m)). assert (0 < PI * PI) by nra. assert (0 < b * b) by nra. assert (0 < b * b * b) by nra. assert (0 < / (PI * PI * (b * b * b))) by (apply Rinv_0_lt_compat; nra). unfold Rdiv. apply Rmult_le_pos; [|lra]. apply Rmult_le_pos; lra. }
    destruct (Rle_lt_or_eq_dec s (Rabs mu) Hs) as [L|L]; [left; apply exp_increasing; nra|subst; lra]. }
  apply Rabs_le. split.
  - pose proof (dilute_pos b beta (- mu) Hb) as D. rewrite (cd_odd J g beta I HJ Hbe m) in D. pose proof (M (- mu) ltac:(rewrite <- Rabs_Ropp; apply Rle_abs)). lra.
  - eapply Rle_trans; [apply dilute_pos; exact Hb|]. apply M, Rle_abs.
Qed.
End G.
