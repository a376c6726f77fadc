(** * Accuracy of the numerical residue of a simple pole at complex points in binary64 *)
From Coq Require Import ZArith Reals Psatz Lia List Bool.
From Flocq Require Import Core IEEE754.BinarySingleNaN IEEE754.Binary IEEE754.Bits.
From Verif Require Import MFloat MGrid MFermi MDistr64 MRes64 SpecGrid PGrid PGrid2 PDistr64 PFerm64b PRes64 PRes64b.
Open Scope R_scope.

Lemma A_comp y a b p q : A y a q -> A a b p -> 1 <= p -> 1 <= q -> A y b (p * q).
Proof.
  intros (L & U) (L' & U') Hp Hq. split.
  - apply Rle_trans with (2 := L). replace (b / (p * q)) with (b / p * / q) by (field; lra). apply Rmult_le_compat_r; [apply Rlt_le, Rinv_0_lt_compat; lra|exact L'].
  - apply Rle_trans with (1 := U). rewrite <- Rmult_assoc. apply Rmult_le_compat_r; [lra|exact U'].
Qed.
Definition isz (x : F64) := fin x /\ val x = 0.
Lemma isz_mul x y : isz x -> fin y -> isz (x [*] y).
Proof. intros (F & V) Fy. destruct (mult_ok x y 0 F Fy ltac:(lia)) as (G & W); [rewrite V, Rmult_0_l, Rabs_R0; apply bpow_ge_0|]. split; [exact G|]. rewrite W, V, Rmult_0_l. apply rnd_0. Qed.
Lemma isz_mul_r x y : fin x -> isz y -> isz (x [*] y).
Proof. intros Fx (F & V). destruct (mult_ok x y 0 Fx F ltac:(lia)) as (G & W); [rewrite V, Rmult_0_r, Rabs_R0; apply bpow_ge_0|]. split; [exact G|]. rewrite W, V, Rmult_0_r. apply rnd_0. Qed.
Lemma isz_sub x y : isz x -> isz y -> isz (x [-] y).
Proof. intros (F & V) (G & W). destruct (minus_ok x y 0 F G ltac:(lia)) as (Q & T); [rewrite V, W, Rminus_0_r, Rabs_R0; apply bpow_ge_0|]. split; [exact Q|]. rewrite T, V, W, Rminus_0_r. apply rnd_0. Qed.
Lemma isz_self x : fin x -> isz (x [-] x).
Proof. intros F. destruct (minus_ok x x 0 F F ltac:(lia)) as (Q & T); [rewrite Rminus_diag_eq, Rabs_R0 by auto; apply bpow_ge_0|]. split; [exact Q|]. rewrite T, Rminus_diag_eq by auto. apply rnd_0. Qed.
Lemma isz_div x y : isz x -> val y <> 0 -> isz (x [/] y).
Proof. intros (F & V) N. destruct (div_ok x y 0 F N ltac:(lia)) as (G & W); [rewrite V; unfold Rdiv; rewrite Rmult_0_l, Rabs_R0; apply bpow_ge_0|]. split; [exact G|]. rewrite W, V. unfold Rdiv. rewrite Rmult_0_l. apply rnd_0. Qed.
Lemma c_inv_A s (z : C64) c p : s = 1 \/ s = -1 -> fin (fst z) -> isz (snd z) -> A (s * val (fst z)) c p -> 1 <= p <= 6 / 5 * (1 + / 10 ^ 13) -> bpow radix2 (-41) <= c <= bpow radix2 41 ->
  fin (fst (c64_inv z)) /\ isz (snd (c64_inv z)) /\ A (s * val (fst (c64_inv z))) (1 / c) (p * k ^ 2).
Proof.
  destruct z as (x, y). unfold c64_inv. cbn [fst snd]. intros Hs F Y H Hp Hc. pose proof k_b as K. pose proof (bpow_gt_0 radix2 (-41)) as P0.
  assert (B41 : bpow radix2 (-41) = / 2199023255552 /\ bpow radix2 41 = 2199023255552) by (split; reflexivity). destruct B41 as (B1 & B2).
  set (X := s * val x) in *. assert (XX : val x * val x = X * X) by (unfold X; destruct Hs as [->| ->]; ring).
  assert (RX : / 5000000000000 <= X <= 5000000000000).
  { destruct H as (L & U). split.
    - apply Rle_trans with (2 := L). apply Rle_trans with (c / 2); [rewrite B1 in Hc; lra|]. unfold Rdiv. apply Rmult_le_compat_l; [lra|]. apply Rinv_le_contravar; lra.
    - apply Rle_trans with (1 := U). apply Rle_trans with (c * 2); [apply Rmult_le_compat_l; lra|]. rewrite B2 in Hc. lra. }
  assert (RQ : / 25000000000000000000000000 <= X * X <= 25000000000000000000000000) by (split; nra).
  assert (Q90 : bpow radix2 (-90) <= X * X). { apply Rle_trans with (2 := proj1 RQ). change (bpow radix2 (-90)) with (/ IZR (2 ^ 90)). apply Rinv_le_contravar; [lra|]. apply IZR_le. vm_compute. discriminate. }
  assert (Q90' : X * X <= bpow radix2 90). { apply Rle_trans with (1 := proj2 RQ). change (bpow radix2 90) with (IZR (2 ^ 90)). apply IZR_le. vm_compute. discriminate. }
  destruct (mult_ok x x 90 F F ltac:(lia)) as (F1 & V1). { rewrite XX, Rabs_pos_eq by lra. exact Q90'. }
  pose proof (isz_mul y y Y (proj1 Y)) as (F2 & V2).
  destruct (plus_ok (x [*] x) (y [*] y) 90 F1 F2 ltac:(lia)) as (F3 & V3).
  { rewrite V2, Rplus_0_r, V1. apply rnd_big; [lia|]. rewrite XX, Rabs_pos_eq by lra. exact Q90'. }
  rewrite V2, Rplus_0_r, rnd_val, V1, XX in V3.
  assert (A3 : A (rnd (X * X)) (X * X) (1 * k)). { apply A_rnd; [split; lra|lra|exact Q90]. } rewrite Rmult_1_l in A3.
  set (n := x [*] x [+] y [*] y) in *. rewrite <- V3 in A3. clearbody n.
  assert (Pn : 0 < val n). { destruct A3 as (L & _). assert (0 < X * X / k) by (apply Rdiv_lt_0_compat; nra). lra. } assert (Nn : val n <> 0) by lra.
  destruct one_val as (Fo & Vo), zero_val as (Fz & Vz).
  assert (O1 : fin (f64_one [*] x) /\ val (f64_one [*] x) = val x).
  { destruct (mult_ok f64_one x 60 Fo F ltac:(lia)) as (G & V). - rewrite Vo, Rmult_1_l, <- (sgn_abs s _ Hs). fold X. rewrite Rabs_pos_eq by lra. apply Rle_trans with (1 := proj2 RX). change (bpow radix2 60) with (IZR (2 ^ 60)). apply IZR_le. vm_compute. discriminate.
    - split; [exact G|]. rewrite V, Vo, Rmult_1_l. apply rnd_val. }
  destruct O1 as (FO & VO).
  assert (A4 : A (s * (val x / val n)) (1 / X) k).
  { pose proof (A_inv _ _ _ A3 (proj1 K) ltac:(lra)) as A5. pose proof (A_mul _ _ _ X A5 ltac:(lra) (proj1 K)) as A6.
    replace (1 / (X * X) * X) with (1 / X) in A6 by (field; lra). replace (s * (val x / val n)) with (1 / val n * X); [exact A6|]. unfold X. field. exact Nn. }
  assert (A7 : A (1 / X) (1 / c) p) by (apply A_inv; [exact H|lra|lra]).
  pose proof (A_comp _ _ _ _ _ A4 A7 (proj1 Hp) (proj1 K)) as A8.
  assert (Ic : / 2199023255552 <= 1 / c <= 2199023255552).
  { rewrite B1, B2 in Hc. split; (apply Rmult_le_reg_r with c; [lra|]); replace (1 / c * c) with 1 by (field; lra); lra. }
  destruct (div_ok (f64_one [*] x) n 61 FO Nn ltac:(lia)) as (FD & VD).
  { rewrite VO, <- (sgn_abs s _ Hs). apply (A_big _ (1 / c) (p * k) A8); [nra|]. split; [lra|]. apply Rle_trans with (1 := proj2 Ic). change (bpow radix2 60) with (IZR (2 ^ 60)). apply IZR_le. vm_compute. discriminate. }
  split; [exact FD|]. split.
  - apply isz_sub; [split; [exact Fz|exact Vz]|]. apply isz_div; [apply isz_mul_r; [exact Fo|exact Y]|exact Nn].
  - rewrite VD, VO, rnd_sgn by auto. replace (p * k ^ 2) with (p * k * k) by ring. apply A_rnd; [exact A8|nra|]. apply Rle_trans with (2 := proj1 Ic). rewrite <- B1. apply bpow_le. lia.
Qed.
Definition complex_pole_f64 (z : C64) : C64 -> C64 := fun w => c64_inv (c64_minus w z).
Lemma c_side s (z w : C64) : s = 1 \/ s = -1 -> fin (fst z) -> fin (snd z) -> Rabs (val (fst z)) <= 1000 -> fin (fst w) -> snd w = snd z -> val (fst w) = rnd (val (fst z) + s * val residue_eps) ->
  let p := / (1 - (Rabs (val (fst z)) + 1) * (12 / 100000)) in
  let v := c64_inv (complex_pole_f64 z w) in fin (fst v) /\ isz (snd v) /\ A (s * val (fst v)) (val residue_eps) (p * k ^ 5).
Proof.
  intros Hs Fz Fy Bz Fa Sw Va p. destruct eps_small as (_ & HE). apply Rabs_le_inv in HE. set (E := val residue_eps) in *.
  pose proof (shift s (val (fst z)) E Hs Bz ltac:(lra)) as H0. cbv zeta in H0. fold p in H0. rewrite <- Va in H0.
  assert (Hp : 1 <= p <= 6 / 5).
  { pose proof (Rabs_pos (val (fst z))). unfold p. split.
    - rewrite <- Rinv_1 at 1. apply Rinv_le_contravar; lra.
    - replace (6 / 5) with (/ (5 / 6)) by lra. apply Rinv_le_contravar; lra. }
  assert (B41 : bpow radix2 (-41) = / 2199023255552 /\ bpow radix2 41 = 2199023255552) by (split; reflexivity). destruct B41 as (B1 & B2).
  assert (C0 : bpow radix2 (-41) <= E <= bpow radix2 41) by (rewrite B1, B2; lra).
  assert (C1 : bpow radix2 (-41) <= 1 / E <= bpow radix2 41).
  { rewrite B1, B2. split; (apply Rmult_le_reg_r with E; [lra|]); replace (1 / E * E) with 1 by (field; lra); lra. }
  assert (KC : forall n, (n <= 16)%nat -> 1 <= p * k ^ n <= 6 / 5 * (1 + / 10 ^ 13)). { intros n Hn. destruct (k_chain p n Hp Hn) as (Q & _). nra. }
  destruct (minus_ok (fst w) (fst z) 61 Fa Fz ltac:(lia)) as (F1 & V1).
  { rewrite <- (sgn_abs s _ Hs). apply (A_big _ E p); auto; [lra|]. split; [lra|]. apply Rle_trans with (1 := proj2 C0). apply bpow_le. lia. }
  assert (H1 : A (s * val (fst (c64_minus w z))) E (p * k ^ 1)).
  { change (fst (c64_minus w z)) with (fst w [-] fst z). rewrite V1, rnd_sgn, pow_1 by auto. apply A_rnd; auto; [lra|]. apply Rle_trans with (2 := proj1 C0). apply bpow_le. lia. }
  assert (I1 : isz (snd (c64_minus w z))). { change (snd (c64_minus w z)) with (snd w [-] snd z). rewrite Sw. apply isz_self, Fy. }
  destruct (c_inv_A s (c64_minus w z) E (p * k ^ 1) Hs F1 I1 H1 (KC 1%nat ltac:(lia)) C0) as (F2 & I2 & H2). replace (p * k ^ 1 * k ^ 2) with (p * k ^ 3) in H2 by ring.
  destruct (c_inv_A s _ (1 / E) (p * k ^ 3) Hs F2 I2 H2 (KC 3%nat ltac:(lia)) C1) as (F3 & I3 & H3). replace (p * k ^ 3 * k ^ 2) with (p * k ^ 5) in H3 by ring. replace (1 / (1 / E)) with E in H3 by (field; lra).
  split; [exact F3|]. split; [exact I3|exact H3].
Qed.
Lemma residue_near_c z : fin (fst z) -> fin (snd z) -> Rabs (val (fst z)) <= 1000 ->
  let r := compute_residue_c64 (complex_pole_f64 z) z in
  fin (fst r) /\ fin (snd r) /\ val (snd r) = 0 /\ Rabs (val (fst r) - 1) <= (Rabs (val (fst z)) + 1) / 4000.
Proof.
  intros Fz Fy Bz. cbv zeta. destruct eps_small as (Fe & HE). apply Rabs_le_inv in HE. set (E := val residue_eps) in *.
  assert (SB : forall s, s = 1 \/ s = -1 -> Rabs (val (fst z) + s * E) <= bpow radix2 20).
  { intros s Hs. apply Rle_trans with (1 := Rabs_triang _ _). rewrite (sgn_abs s E Hs), (Rabs_pos_eq E) by lra. change (bpow radix2 20) with 1048576. lra. }
  destruct (plus_ok (fst z) residue_eps 20 Fz Fe ltac:(lia)) as (Fa & Va). { fold E. rewrite <- (Rmult_1_l E). apply SB. now left. }
  destruct (minus_ok (fst z) residue_eps 20 Fz Fe ltac:(lia)) as (Fb & Vb). { fold E. replace (val (fst z) - E) with (val (fst z) + -1 * E) by ring. apply SB. now right. }
  set (p := / (1 - (Rabs (val (fst z)) + 1) * (12 / 100000))).
  destruct (c_side 1 z (c64_plus_re z residue_eps) (or_introl eq_refl) Fz Fy Bz Fa eq_refl) as (F1 & I1 & H1). { apply (eq_trans Va). apply (f_equal rnd). change (val (fst z) + E = val (fst z) + 1 * E). ring. }
  destruct (c_side (-1) z (c64_minus_re z residue_eps) (or_intror eq_refl) Fz Fy Bz Fb eq_refl) as (F2 & I2 & H2). { apply (eq_trans Vb). apply (f_equal rnd). change (val (fst z) - E = val (fst z) + -1 * E). ring. }
  fold p E in H1, H2. unfold compute_residue_c64, compute_residue_with_eps_c64.
  set (x := c64_inv (complex_pole_f64 z (c64_plus_re z residue_eps))) in *. set (y := c64_inv (complex_pole_f64 z (c64_minus_re z residue_eps))) in *. clearbody x y.
  pose proof (Rabs_pos (val (fst z))) as Zp.
  assert (Hp : 1 <= p <= 6 / 5).
  { unfold p. split.
    - rewrite <- Rinv_1 at 1. apply Rinv_le_contravar; lra.
    - replace (6 / 5) with (/ (5 / 6)) by lra. apply Rinv_le_contravar; lra. }
  assert (B41 : bpow radix2 (-41) = / 2199023255552 /\ bpow radix2 41 = 2199023255552) by (split; reflexivity). destruct B41 as (B1 & B2).
  assert (B60 : bpow radix2 (-60) = / 1152921504606846976 /\ bpow radix2 60 = 1152921504606846976) by (split; reflexivity). destruct B60 as (B3 & B4).
  assert (KC : forall n, (n <= 16)%nat -> 1 <= p * k ^ n <= 6 / 5 * (1 + / 10 ^ 13)). { intros n Hn. destruct (k_chain p n Hp Hn) as (Q & _). nra. }
  assert (H3 : A (val (fst x) - val (fst y)) (2 * E) (p * k ^ 5)).
  { replace (val (fst x) - val (fst y)) with (1 * val (fst x) + -1 * val (fst y)) by ring. apply A_add; auto. }
  pose proof (KC 5%nat ltac:(lia)) as K5. pose proof (KC 6%nat ltac:(lia)) as K6. pose proof (KC 8%nat ltac:(lia)) as K8. pose proof (KC 9%nat ltac:(lia)) as K9. destruct (k_chain p 10 Hp ltac:(lia)) as (K10 & _).
  destruct (minus_ok (fst x) (fst y) 61 F1 F2 ltac:(lia)) as (F4 & V4). { apply (A_big _ (2 * E) (p * k ^ 5)); auto; [lra|rewrite B4; lra]. }
  assert (H4 : A (1 * val (fst (c64_minus x y))) (2 * E) (p * k ^ 6)).
  { change (fst (c64_minus x y)) with (fst x [-] fst y). rewrite Rmult_1_l, V4. replace (p * k ^ 6) with (p * k ^ 5 * k) by ring. apply A_rnd; auto; [lra|]. apply Rle_trans with (bpow radix2 (-41)); [apply bpow_le; lia|rewrite B1; lra]. }
  assert (I4 : isz (snd (c64_minus x y))) by exact (isz_sub _ _ I1 I2).
  destruct (c_inv_A 1 (c64_minus x y) (2 * E) (p * k ^ 6) (or_introl eq_refl) F4 I4 H4 K6) as (F5 & I5 & H5). { rewrite B1, B2. lra. }
  replace (p * k ^ 6 * k ^ 2) with (p * k ^ 8) in H5 by ring. rewrite Rmult_1_l in H5. set (v := c64_inv (c64_minus x y)) in *. clearbody v.
  assert (Ie : forall c, 0 < c -> c / E * E = c) by (intros; field; lra).
  destruct (lit_int 2 ltac:(simpl; lia)) as (Ft & Vt). change (val (f64_lit 2 1) = 2) in Vt.
  assert (C6 : 1 / (2 * E) * 2 = 1 / E) by (field; lra).
  destruct (mul_A (fst v) (f64_lit 2 1) 2 (1 / (2 * E)) (p * k ^ 8) F5 Ft Vt ltac:(lra) H5 ltac:(lra)) as (F6 & H6).
  { rewrite C6, B3, B4. split; apply Rmult_le_reg_r with E; try lra; rewrite (Ie 1) by lra; lra. }
  replace (p * k ^ 8 * k) with (p * k ^ 9) in H6 by ring. rewrite C6 in H6.
  destruct (mul_A (fst v [*] f64_lit 2 1) residue_eps E (1 / E) (p * k ^ 9) F6 Fe eq_refl ltac:(lra) H6 ltac:(lra)) as (F7 & H7).
  { rewrite (Ie 1), B3, B4 by lra. lra. }
  replace (p * k ^ 9 * k) with (p * k ^ 10) in H7 by ring. rewrite (Ie 1) in H7 by lra.
  pose proof (isz_mul _ residue_eps (isz_mul _ (f64_lit 2 1) I5 Ft) Fe) as (F8 & V8).
  split; [exact F7|]. split; [exact F8|]. split; [exact V8|]. change (fst (c64_times (c64_times v (f64_lit 2 1)) residue_eps)) with (fst v [*] f64_lit 2 1 [*] residue_eps).
  destruct H7 as (L & U). set (r := val (fst v [*] f64_lit 2 1 [*] residue_eps)) in *. set (q := p * k ^ 10) in *. set (t := Rabs (val (fst z)) + 1) in *.
  assert (T : 1 <= t <= 1001) by (unfold t; lra).
  assert (Q : q <= 1 + t / 4000).
  { apply Rle_trans with (1 := proj2 K10). assert (G : p <= 1 + t * (14 / 100000)).
    - unfold p. apply Rmult_le_reg_r with (1 - t * (12 / 100000)); [lra|]. rewrite Rinv_l by lra. nra.
    - apply Rle_trans with (p + 6 / 5 * / 10 ^ 13); [nra|lra]. }
  assert (Lq : 1 - t / 4000 <= 1 / q). { apply Rmult_le_reg_r with q; [lra|]. replace (1 / q * q) with 1 by (field; lra). nra. }
  apply Rabs_le. lra.
Qed.
