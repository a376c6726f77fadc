(** * The interpolated critical temperature in binary64 *)
From Coq Require Import ZArith Reals Psatz Lia List Bool.
From Flocq Require Import Core IEEE754.BinarySingleNaN IEEE754.Binary IEEE754.Bits.
From Verif Require Import MFloat MGrid MUtils MFermi MTc MTc64 SpecGrid SpecTc SpecTc64 PGrid PGrid2 PGrid3 PFerm64 PDistr64.
Import ListNotations.
Open Scope R_scope.

Lemma abs2 x b : Rabs x <= b -> - b <= x <= b. Proof. apply Rabs_le_inv. Qed.
Lemma mul_abs a b x y : Rabs x <= a -> Rabs y <= b -> Rabs (x * y) <= a * b.
Proof. intros. rewrite Rabs_mult. apply Rmult_le_compat; auto using Rabs_pos. Qed.

Section Interp.
Variables B G H D t0 d g k q h p s : R.
Hypotheses (HG : 0 < G) (HH : 0 <= H <= G) (HD : Rabs D <= B) (Ht0 : Rabs t0 <= B) (Heta : eta <= u * G)
  (Ed : Rabs (d - D) <= u * Rabs D + eta) (Eg : Rabs (g - G) <= u * Rabs G + eta)
  (Eq : Rabs (q - d / g) <= u * Rabs (d / g) + eta) (Eh : Rabs (h - H) <= u * Rabs H + eta)
  (Ep : Rabs (p - q * h) <= u * Rabs (q * h) + eta) (Es : Rabs (s - (t0 + p)) <= u * Rabs (t0 + p) + eta).

Lemma B0 : 0 <= B. Proof. pose proof (Rabs_pos D). lra. Qed.
Lemma uB : 0 <= u * B. Proof. pose proof B0. pose proof u_pos. apply Rmult_le_pos; lra. Qed.
Lemma us x : 0 <= x -> 0 <= u * x <= / 1000 * x.
Proof. intros Hx. pose proof u_pos. pose proof u_small as (_ & _ & U). split; [apply Rmult_le_pos; lra|apply Rmult_le_compat_r; lra]. Qed.
Lemma gG : Rabs (g - G) <= 2 * (u * G). Proof. rewrite (Rabs_pos_eq G) in Eg by lra. lra. Qed.
Lemma g_lo : 99 / 100 * G <= g. Proof. pose proof (abs2 _ _ gG). pose proof (us G ltac:(lra)). lra. Qed.
Lemma d1 : Rabs (d - D) <= u * B + eta.
Proof. pose proof u_pos. assert (u * Rabs D <= u * B) by (apply Rmult_le_compat_l; lra). lra. Qed.
(** the slope times the width *)
Lemma slope : Rabs (d / g * G - D) <= 31 / 10 * (u * B) + 11 / 10 * eta.
Proof.
  pose proof g_lo as GL. pose proof eta_pos. pose proof uB. assert (g0 : 0 < g) by lra.
  replace (d / g * G - D) with (((d - D) * G - D * (g - G)) / g) by (field; lra).
  unfold Rdiv. rewrite Rabs_mult, (Rabs_pos_eq (/ g)) by (left; now apply Rinv_0_lt_compat).
  apply Rmult_le_reg_r with g; [auto|]. rewrite Rmult_assoc, Rinv_l, Rmult_1_r by lra.
  apply Rle_trans with ((u * B + eta) * G + B * (2 * (u * G))).
  - apply Rle_trans with (1 := Rabs_triang _ _). rewrite Rabs_Ropp. apply Rplus_le_compat; apply mul_abs; auto using d1, gG. rewrite Rabs_pos_eq; lra.
  - apply Rle_trans with ((31 / 10 * (u * B) + 11 / 10 * eta) * (99 / 100 * G)); [|apply Rmult_le_compat_l; lra].
    assert (0 <= u * B * G) by (apply Rmult_le_pos; lra). assert (0 <= eta * G) by (apply Rmult_le_pos; lra). lra.
Qed.
Lemma dg : Rabs (d / g * G) <= 101 / 100 * B + 11 / 10 * eta.
Proof.
  pose proof slope. pose proof (us B B0). replace (d / g * G) with (D + (d / g * G - D)) by ring. apply Rle_trans with (1 := Rabs_triang _ _). lra.
Qed.
Lemma slopeq : Rabs (q * G - D) <= 42 / 10 * (u * B) + 12 / 10 * eta + eta * G.
Proof.
  pose proof slope. pose proof dg. pose proof eta_pos. pose proof u_pos. pose proof u_small as (_ & _ & U). pose proof uB.
  replace (q * G - D) with ((q - d / g) * G + (d / g * G - D)) by ring. apply Rle_trans with (1 := Rabs_triang _ _).
  assert (E : Rabs ((q - d / g) * G) <= u * (101 / 100 * B + 11 / 10 * eta) + eta * G).
  { rewrite Rabs_mult, (Rabs_pos_eq G) by lra. apply Rle_trans with ((u * Rabs (d / g) + eta) * G); [apply Rmult_le_compat_r; lra|].
    rewrite Rmult_plus_distr_r. apply Rplus_le_compat_r. rewrite Rmult_assoc. apply Rmult_le_compat_l; [lra|]. rewrite <- (Rabs_pos_eq G) at 1 by lra. rewrite <- Rabs_mult. lra. }
  pose proof (us eta ltac:(lra)). lra.
Qed.
Lemma hw : Rabs (h / G - H / G) <= 2 * u.
Proof.
  replace (h / G - H / G) with ((h - H) / G) by (field; lra). unfold Rdiv. rewrite Rabs_mult, (Rabs_pos_eq (/ G)) by (left; now apply Rinv_0_lt_compat).
  apply Rmult_le_reg_r with G; [auto|]. rewrite Rmult_assoc, Rinv_l, Rmult_1_r by lra. rewrite (Rabs_pos_eq H) in Eh by lra.
  pose proof u_pos. assert (u * H <= u * G) by (apply Rmult_le_compat_l; lra). lra.
Qed.
Lemma w01 : 0 <= H / G <= 1.
Proof. split; [apply Rmult_le_pos; [lra|left; now apply Rinv_0_lt_compat]|]. apply Rmult_le_reg_r with G; [auto|]. unfold Rdiv. rewrite Rmult_assoc, Rinv_l; lra. Qed.
Lemma wabs : Rabs (h / G) <= 101 / 100.
Proof. pose proof (abs2 _ _ hw). pose proof w01. pose proof u_small as (_ & _ & U). apply Rabs_le. lra. Qed.
Lemma prod : Rabs (q * h - D * (H / G)) <= 63 / 10 * (u * B) + 13 / 10 * eta + 11 / 10 * (eta * G).
Proof.
  pose proof eta_pos. pose proof uB. assert (0 <= eta * G) by (apply Rmult_le_pos; lra).
  replace (q * h - D * (H / G)) with ((q * G - D) * (h / G) + D * (h / G - H / G)) by (field; lra). apply Rle_trans with (1 := Rabs_triang _ _).
  pose proof (mul_abs _ _ _ _ slopeq wabs). pose proof (mul_abs _ _ _ _ HD hw). lra.
Qed.
Lemma DHG : Rabs (D * (H / G)) <= B.
Proof. pose proof w01. rewrite <- (Rmult_1_r B). apply mul_abs; auto. rewrite Rabs_pos_eq; lra. Qed.
Lemma qh : Rabs (q * h) <= 102 / 100 * B + 13 / 10 * eta + 11 / 10 * (eta * G).
Proof.
  pose proof prod. pose proof DHG. pose proof (us B B0). replace (q * h) with (D * (H / G) + (q * h - D * (H / G))) by ring. apply Rle_trans with (1 := Rabs_triang _ _). lra.
Qed.
Lemma perr : Rabs (p - D * (H / G)) <= 74 / 10 * (u * B) + 24 / 10 * eta + 12 / 10 * (eta * G).
Proof.
  pose proof prod. pose proof qh as Q. pose proof eta_pos. pose proof uB. assert (Z : 0 <= eta * G) by (apply Rmult_le_pos; lra). pose proof (us _ Z). pose proof (us eta ltac:(lra)).
  replace (p - D * (H / G)) with ((p - q * h) + (q * h - D * (H / G))) by ring. apply Rle_trans with (1 := Rabs_triang _ _).
  pose proof u_pos. assert (u * Rabs (q * h) <= u * (102 / 100 * B + 13 / 10 * eta + 11 / 10 * (eta * G))) by (apply Rmult_le_compat_l; lra). lra.
Qed.
Lemma serr : Rabs (s - (t0 + D * (H / G))) <= 10 * (u * B) + 4 * eta + 2 * (eta * G).
Proof.
  pose proof perr. pose proof DHG. pose proof eta_pos. pose proof uB. assert (Z : 0 <= eta * G) by (apply Rmult_le_pos; lra). pose proof (us _ Z). pose proof (us eta ltac:(lra)). pose proof (us B B0).
  assert (T : Rabs (t0 + p) <= 202 / 100 * B + 24 / 10 * eta + 12 / 10 * (eta * G)).
  { replace (t0 + p) with (t0 + (D * (H / G) + (p - D * (H / G)))) by ring. pose proof (Rabs_triang t0 (D * (H / G) + (p - D * (H / G)))). pose proof (Rabs_triang (D * (H / G)) (p - D * (H / G))). lra. }
  replace (s - (t0 + D * (H / G))) with ((s - (t0 + p)) + (p - D * (H / G))) by ring. apply Rle_trans with (1 := Rabs_triang _ _).
  pose proof u_pos. assert (u * Rabs (t0 + p) <= u * (202 / 100 * B + 24 / 10 * eta + 12 / 10 * (eta * G))) by (apply Rmult_le_compat_l; lra). lra.
Qed.
End Interp.

Lemma bp a b : (a <= b)%Z -> bpow radix2 a <= bpow radix2 b. Proof. intros. now apply bpow_le. Qed.
Lemma interpolate_ok mu0 t0 mmu tb mu : fin mu0 -> fin t0 -> fin mmu -> fin tb -> fin mu ->
  Rabs (val mu0) <= bpow radix2 100 -> Rabs (val t0) <= bpow radix2 100 -> Rabs (val mmu) <= bpow radix2 100 -> Rabs (val tb) <= bpow radix2 100 ->
  val mu0 + bpow radix2 (-100) <= val mmu -> val mu0 < val mu < val mmu ->
  fin (interpolate_f64 mu0 t0 mmu tb mu) /\
  Rabs (val (interpolate_f64 mu0 t0 mmu tb mu) - (val t0 + (val tb - val t0) / (val mmu - val mu0) * (val mu - val mu0)))
    <= 10 * (u * (Rabs (val t0) + Rabs (val tb))) + bpow radix2 (-900).
Proof.
  intros F1 F2 F3 F4 F5 B1 B2 B3 B4 Sp Mu. unfold interpolate_f64.
  assert (B101 : forall x y, Rabs x <= bpow radix2 100 -> Rabs y <= bpow radix2 100 -> Rabs (x - y) <= bpow radix2 101).
  { intros x y Hx Hy. apply Rle_trans with (1 := Rabs_triang _ _). rewrite Rabs_Ropp. change (bpow radix2 101) with (bpow radix2 (1 + 100)). rewrite bpow_plus. change (bpow radix2 1) with 2. lra. }
  destruct (minus_ok tb t0 101 F4 F2 ltac:(lia) (B101 _ _ B4 B2)) as (Fd & Vd).
  destruct (minus_ok mmu mu0 101 F3 F1 ltac:(lia) (B101 _ _ B3 B1)) as (Fg & Vg).
  assert (Bh : Rabs (val mu - val mu0) <= bpow radix2 101). { apply Rle_trans with (2 := B101 _ _ B3 B1). rewrite !Rabs_pos_eq; lra. }
  destruct (minus_ok mu mu0 101 F5 F1 ltac:(lia) Bh) as (Fh & Vh).
  assert (HG : 0 < val mmu - val mu0) by lra.
  assert (Heta : eta <= u * (val mmu - val mu0)).
  { apply Rle_trans with (u * bpow radix2 (-100)); [|apply Rmult_le_compat_l; [left; apply u_pos|lra]]. unfold u, eta. rewrite <- bpow_plus. apply bp. lia. }
  pose proof (rnd_err' (val tb - val t0)) as Ed. rewrite <- Vd in Ed.
  pose proof (rnd_err' (val mmu - val mu0)) as Eg. rewrite <- Vg in Eg.
  pose proof (rnd_err' (val mu - val mu0)) as Eh. rewrite <- Vh in Eh.
  assert (GL : bpow radix2 (-101) <= val (mmu [-] mu0)).
  { pose proof (g_lo (val mmu - val mu0) (val (mmu [-] mu0)) HG Heta Eg). change (-101)%Z with (-1 + -100)%Z. rewrite bpow_plus. change (bpow radix2 (-1)) with (/ 2). pose proof (bpow_gt_0 radix2 (-100)). lra. }
  pose proof (bpow_gt_0 radix2 (-101)) as P101.
  assert (Bd : Rabs (val (tb [-] t0)) <= bpow radix2 101) by (rewrite Vd; apply rnd_big; [lia|auto]).
  assert (Bq : Rabs (val (tb [-] t0) / val (mmu [-] mu0)) <= bpow radix2 202).
  { unfold Rdiv. rewrite Rabs_mult. change 202%Z with (101 + 101)%Z. rewrite bpow_plus. apply Rmult_le_compat; auto using Rabs_pos.
    rewrite Rabs_pos_eq by (left; apply Rinv_0_lt_compat; lra). change (bpow radix2 101) with (bpow radix2 (- -101)). rewrite bpow_opp. apply Rinv_le_contravar; auto. }
  destruct (div_ok (tb [-] t0) (mmu [-] mu0) 202 Fd ltac:(lra) ltac:(lia) Bq) as (Fq & Vq).
  pose proof (rnd_err' (val (tb [-] t0) / val (mmu [-] mu0))) as Eq. rewrite <- Vq in Eq.
  assert (Bq' : Rabs (val ((tb [-] t0) [/] (mmu [-] mu0))) <= bpow radix2 202) by (rewrite Vq; apply rnd_big; [lia|auto]).
  assert (Bh' : Rabs (val (mu [-] mu0)) <= bpow radix2 101) by (rewrite Vh; apply rnd_big; [lia|auto]).
  assert (Bp : Rabs (val ((tb [-] t0) [/] (mmu [-] mu0)) * val (mu [-] mu0)) <= bpow radix2 303).
  { change 303%Z with (202 + 101)%Z. rewrite bpow_plus. now apply mul_abs. }
  destruct (mult_ok _ _ 303 Fq Fh ltac:(lia) Bp) as (Fp & Vp).
  pose proof (rnd_err' (val ((tb [-] t0) [/] (mmu [-] mu0)) * val (mu [-] mu0))) as Ep. rewrite <- Vp in Ep.
  assert (Bp' : Rabs (val ((tb [-] t0) [/] (mmu [-] mu0) [*] (mu [-] mu0))) <= bpow radix2 303) by (rewrite Vp; apply rnd_big; [lia|auto]).
  assert (Bs : Rabs (val t0 + val ((tb [-] t0) [/] (mmu [-] mu0) [*] (mu [-] mu0))) <= bpow radix2 304).
  { apply Rle_trans with (1 := Rabs_triang _ _). change (bpow radix2 304) with (bpow radix2 (1 + 303)). rewrite bpow_plus. change (bpow radix2 1) with 2. pose proof (bp 100 303 ltac:(lia)). lra. }
  destruct (plus_ok t0 _ 304 F2 Fp ltac:(lia) Bs) as (Fs & Vs).
  pose proof (rnd_err' (val t0 + val ((tb [-] t0) [/] (mmu [-] mu0) [*] (mu [-] mu0)))) as Es. rewrite <- Vs in Es.
  split; [exact Fs|].
  assert (HD : Rabs (val tb - val t0) <= Rabs (val t0) + Rabs (val tb)). { apply Rle_trans with (1 := Rabs_triang _ _). rewrite Rabs_Ropp. lra. }
  assert (Ht : Rabs (val t0) <= Rabs (val t0) + Rabs (val tb)) by (pose proof (Rabs_pos (val tb)); lra).
  assert (HH : 0 <= val mu - val mu0 <= val mmu - val mu0) by lra.
  pose proof (serr _ (val mmu - val mu0) (val mu - val mu0) _ (val t0) _ _ _ _ _ _ HG HH HD Ht Heta Ed Eg Eq Eh Ep Es) as S.
  replace ((val tb - val t0) / (val mmu - val mu0) * (val mu - val mu0)) with ((val tb - val t0) * ((val mu - val mu0) / (val mmu - val mu0))) by (field; lra).
  apply Rle_trans with (1 := S).
  assert (E : 4 * eta + 2 * (eta * (val mmu - val mu0)) <= bpow radix2 (-900)).
  { assert (E1 : eta * (val mmu - val mu0) <= bpow radix2 (-974)).
    { unfold eta. change (-974)%Z with (-1075 + 101)%Z. rewrite bpow_plus. apply Rmult_le_compat_l; [apply bpow_ge_0|]. pose proof (B101 _ _ B3 B1) as X. rewrite Rabs_pos_eq in X; lra. }
    assert (E2 : eta <= bpow radix2 (-974)) by (apply bp; lia). assert (E3 : 8 * bpow radix2 (-974) <= bpow radix2 (-900)).
    { change 8 with (bpow radix2 3). rewrite <- bpow_plus. apply bp. lia. } pose proof (bpow_gt_0 radix2 (-974)). lra. }
  lra.
Qed.
