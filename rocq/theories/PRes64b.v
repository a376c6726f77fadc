(** * Accuracy of the numerical residue of a simple pole in binary64 *)
From Coq Require Import ZArith Reals Psatz Lia List Bool.
From Flocq Require Import Core IEEE754.BinarySingleNaN IEEE754.Binary IEEE754.Bits.
From Verif Require Import MFloat MGrid MFermi MDistr64 MRes64 SpecGrid PGrid PGrid2 PDistr64 PRes64 PFerm64b.
Open Scope R_scope.

Definition A (x c p : R) := c / p <= x <= c * p.
Definition k : R := 1 + 4 * u.
Lemma u_b : u <= / 9000000000000000.
Proof. unfold u. change (bpow radix2 (-53)) with (/ IZR (2 ^ 53)). apply Rinv_le_contravar; [lra|apply IZR_le; lia]. Qed.
Lemma k_b : 1 <= k <= 1 + / 1000000000000000.
Proof. pose proof u_b. pose proof u_pos. unfold k. lra. Qed.
Lemma rnd_sgn s x : s = 1 \/ s = -1 -> s * rnd x = rnd (s * x).
Proof. intros [->| ->]; [now rewrite !Rmult_1_l|]. replace (-1 * x) with (- x) by ring. unfold rnd. rewrite round_NE_opp. ring. Qed.
Lemma eta_rel x : bpow radix2 (-100) <= x -> eta <= u * x.
Proof.
  intros H. apply Rle_trans with (u * bpow radix2 (-100)); [|apply Rmult_le_compat_l; [apply Rlt_le, u_pos|exact H]].
  unfold eta, u. rewrite <- bpow_plus. apply bpow_le. lia.
Qed.
Lemma A_rnd x c p : A x c p -> 1 <= p <= 2 -> bpow radix2 (-90) <= c -> A (rnd x) c (p * k).
Proof.
  intros (L & U) Hp Hc. pose proof k_b as K. pose proof u_pos as UP. pose proof u_b as UB. pose proof (bpow_gt_0 radix2 (-90)) as P0.
  assert (Pc : 0 < c) by lra. assert (Cp : 0 < c / p) by (apply Rdiv_lt_0_compat; lra).
  assert (Hh : c / 2 <= c / p). { unfold Rdiv. apply Rmult_le_compat_l; [lra|]. apply Rinv_le_contravar; lra. }
  assert (B : bpow radix2 (-100) <= x). { assert (2 * bpow radix2 (-100) <= bpow radix2 (-90)); [|lra]. change 2 with (bpow radix2 1). rewrite <- bpow_plus. apply bpow_le. lia. }
  pose proof (rnd_err' x) as E. pose proof (eta_rel x B) as T. rewrite (Rabs_pos_eq x) in E by lra. apply Rabs_le_inv in E.
  assert (Q : x * (1 - 2 * u) <= rnd x <= x * (1 + 2 * u)) by lra. split.
  - apply Rle_trans with (2 := proj1 Q). apply Rle_trans with (c / p * (1 - 2 * u)); [|apply Rmult_le_compat_r; lra].
    unfold Rdiv. rewrite Rinv_mult_distr by lra. rewrite <- Rmult_assoc. apply Rmult_le_compat_l; [exact (Rlt_le _ _ Cp)|].
    apply Rmult_le_reg_r with k; [lra|]. rewrite Rinv_l by lra. unfold k. nra.
  - apply Rle_trans with (1 := proj2 Q). rewrite <- Rmult_assoc. apply Rle_trans with (c * p * (1 + 2 * u)); [apply Rmult_le_compat_r; lra|apply Rmult_le_compat_l; [nra|unfold k; lra]].
Qed.
Lemma A_inv x c p : A x c p -> 1 <= p -> 0 < c -> A (1 / x) (1 / c) p.
Proof.
  intros (L & U) Hp Hc. assert (P : 0 < c / p) by (apply Rdiv_lt_0_compat; lra). split.
  - replace (1 / c / p) with (1 * / (c * p)) by (field; lra). apply Rmult_le_compat_l; [lra|]. apply Rinv_le_contravar; lra.
  - replace (1 / c * p) with (1 * / (c / p)) by (field; lra). apply Rmult_le_compat_l; [lra|]. apply Rinv_le_contravar; lra.
Qed.
Lemma A_mul x c p b : A x c p -> 0 < b -> 1 <= p -> A (x * b) (c * b) p.
Proof. intros (L & U) Hb Hp. split; [replace (c * b / p) with (c / p * b) by (field; lra)|replace (c * b * p) with (c * p * b) by ring]; apply Rmult_le_compat_r; lra. Qed.
Lemma A_add x y c p : A x c p -> A y c p -> A (x + y) (2 * c) p.
Proof. intros (L & U) (L' & U'). unfold A. unfold Rdiv in *. split; lra. Qed.
Lemma A_big x c p : A x c p -> 1 <= p <= 2 -> 0 < c <= bpow radix2 60 -> Rabs x <= bpow radix2 61.
Proof.
  intros (L & U) Hp Hc. assert (0 < c / p) by (apply Rdiv_lt_0_compat; lra). rewrite Rabs_pos_eq by lra.
  change 61%Z with (1 + 60)%Z. rewrite bpow_plus. change (bpow radix2 1) with 2. nra.
Qed.
Lemma sgn_abs s x : s = 1 \/ s = -1 -> Rabs (s * x) = Rabs x.
Proof. intros [->| ->]; [now rewrite Rmult_1_l|]. replace (-1 * x) with (- x) by ring. apply Rabs_Ropp. Qed.
Lemma inv_A s x c p : s = 1 \/ s = -1 -> fin x -> A (s * val x) c p -> 1 <= p <= 2 -> bpow radix2 (-60) <= c <= bpow radix2 60 ->
  fin (f64_inv x) /\ A (s * val (f64_inv x)) (1 / c) (p * k).
Proof.
  intros Hs F H Hp Hc. pose proof (bpow_gt_0 radix2 (-60)) as P. destruct one_val as (F1 & V1).
  assert (N : val x <> 0). { intros Z. destruct H as (L & _). rewrite Z, Rmult_0_r in L. assert (0 < c / p) by (apply Rdiv_lt_0_compat; lra). lra. }
  assert (I : s * (1 / val x) = 1 / (s * val x)) by (destruct Hs as [->| ->]; field; auto).
  assert (Ci : bpow radix2 (-60) <= 1 / c <= bpow radix2 60).
  { unfold Rdiv. rewrite Rmult_1_l. change (-60)%Z with (- (60))%Z in *. rewrite bpow_opp in *. split; [apply Rinv_le_contravar; lra|]. rewrite <- (Rinv_involutive (bpow radix2 60)) by (pose proof (bpow_gt_0 radix2 60); lra). apply Rinv_le_contravar; lra. }
  assert (HA : A (s * (1 / val x)) (1 / c) p) by (rewrite I; apply A_inv; [exact H|lra|lra]).
  assert (HB : Rabs (val f64_one / val x) <= bpow radix2 61). { rewrite V1, <- (sgn_abs s _ Hs). apply (A_big _ (1 / c) p); auto; lra. }
  destruct (div_ok f64_one x 61 F1 N ltac:(lia) HB) as (F2 & V2). split; [exact F2|].
  apply (eq_ind_r (fun w => A (s * w) (1 / c) (p * k)) (x := rnd (1 / val x))); [|rewrite <- V1; exact V2].
  rewrite rnd_sgn by auto. apply A_rnd; auto. apply Rle_trans with (2 := proj1 Ci). apply bpow_le. lia.
Qed.
Lemma mul_A x y b c p : fin x -> fin y -> val y = b -> 0 < b -> A (val x) c p -> 1 <= p <= 2 -> bpow radix2 (-60) <= c * b <= bpow radix2 60 ->
  fin (x [*] y) /\ A (val (x [*] y)) (c * b) (p * k).
Proof.
  intros Fx Fy Vy Hb H Hp Hc. pose proof (bpow_gt_0 radix2 (-60)) as P. pose proof (A_mul _ _ _ _ H Hb (proj1 Hp)) as HA. rewrite <- Vy in HA at 1.
  destruct (mult_ok x y 61 Fx Fy ltac:(lia)) as (F & V); [apply (A_big _ (c * b) p); auto; lra|]. split; [exact F|]. rewrite V. apply A_rnd; auto. apply Rle_trans with (2 := proj1 Hc). apply bpow_le. lia.
Qed.
(** the shifted argument minus the pole *)
Lemma shift s z E : s = 1 \/ s = -1 -> Rabs z <= 1000 -> / 10 ^ 12 - / 10 ^ 27 <= E <= / 10 ^ 12 + / 10 ^ 27 ->
  let t := (Rabs z + 1) * (12 / 100000) in A (s * (rnd (z + s * E) - z)) E (/ (1 - t)).
Proof.
  intros Hs Hz HE t. pose proof u_b as UB. pose proof u_pos as UP. pose proof (Rabs_pos z) as Zp.
  assert (Ht : 0 <= t <= 121 / 1000) by (unfold t; lra).
  assert (Ep : 0 < E) by lra.
  pose proof (rnd_err' (z + s * E)) as R0.
  assert (T : Rabs (z + s * E) <= Rabs z + E). { apply Rle_trans with (1 := Rabs_triang _ _). rewrite (sgn_abs s E Hs), (Rabs_pos_eq E) by lra. lra. }
  assert (Q : Rabs (s * (rnd (z + s * E) - z) - E) <= E * t).
  { replace (s * (rnd (z + s * E) - z) - E) with (s * (rnd (z + s * E) - (z + s * E))) by (destruct Hs as [->| ->]; ring). rewrite (sgn_abs s _ Hs).
    apply Rle_trans with (1 := R0).
    assert (eta <= u * / 10 ^ 13). { pose proof (eta_rel (/ 10 ^ 13)) as G. apply G. apply Rle_trans with (bpow radix2 (-50)); [apply bpow_le; lia|]. change (bpow radix2 (-50)) with (/ IZR (2 ^ 50)). apply Rinv_le_contravar; [lra|]. rewrite pow_IZR. apply IZR_le. vm_compute. discriminate. }
    assert (u * Rabs (z + s * E) <= u * (Rabs z + E)) by (apply Rmult_le_compat_l; lra).
    apply Rle_trans with (u * (Rabs z + 1)); [nra|]. unfold t.
    assert (u <= E * (12 / 100000)) by lra. nra. }
  apply Rabs_le_inv in Q. unfold A. unfold Rdiv. rewrite Rinv_involutive by lra. split; [lra|].
  apply Rle_trans with (E * (1 + t)); [lra|]. apply Rmult_le_compat_l; [lra|]. apply Rmult_le_reg_r with (1 - t); [lra|]. rewrite Rinv_l by lra. nra.
Qed.
Definition simple_pole_f64 (z : F64) : F64 -> F64 := fun x => f64_inv (x [-] z).
Lemma k_chain p n : 1 <= p <= 6 / 5 -> (n <= 16)%nat -> 1 <= p * k ^ n <= p * (1 + / 10 ^ 13) /\ p * k ^ n <= 2.
Proof.
  intros Hp Hn. pose proof k_b as K. assert (Q : 1 <= k ^ n <= 1 + / 10 ^ 13).
  { split; [apply pow_R1_Rle; lra|]. apply Rle_trans with (k ^ 16); [apply Rle_pow; lra || lia|].
    assert (k ^ 2 <= 1 + 3 / 10 ^ 15) by (simpl; nra). assert (k ^ 4 <= 1 + 7 / 10 ^ 15). { replace (k ^ 4) with (k ^ 2 * k ^ 2) by ring. assert (0 <= k ^ 2) by (apply pow_le; lra). nra. }
    assert (k ^ 8 <= 1 + 15 / 10 ^ 15). { replace (k ^ 8) with (k ^ 4 * k ^ 4) by ring. assert (0 <= k ^ 4) by (apply pow_le; lra). nra. }
    replace (k ^ 16) with (k ^ 8 * k ^ 8) by ring. assert (0 <= k ^ 8) by (apply pow_le; lra). nra. }
  split; [split; nra|nra].
Qed.
Lemma side s z a : s = 1 \/ s = -1 -> fin z -> Rabs (val z) <= 1000 -> fin a -> val a = rnd (val z + s * val residue_eps) ->
  let p := / (1 - (Rabs (val z) + 1) * (12 / 100000)) in
  fin (f64_inv (simple_pole_f64 z a)) /\ A (s * val (f64_inv (simple_pole_f64 z a))) (val residue_eps) (p * k ^ 3).
Proof.
  intros Hs Fz Bz Fa Va p. destruct eps_small as (_ & HE). apply Rabs_le_inv in HE. set (E := val residue_eps) in *.
  pose proof (shift s (val z) E Hs Bz ltac:(lra)) as H0. cbv zeta in H0. fold p in H0. rewrite <- Va in H0.
  assert (Hp : 1 <= p <= 6 / 5).
  { pose proof (Rabs_pos (val z)). unfold p. split.
    - rewrite <- Rinv_1 at 1. apply Rinv_le_contravar; lra.
    - replace (6 / 5) with (/ (5 / 6)) by lra. apply Rinv_le_contravar; lra. }
  assert (C0 : bpow radix2 (-60) <= E <= bpow radix2 60).
  { change (bpow radix2 (-60)) with (/ IZR (2 ^ 60)). change (2 ^ 60)%Z with 1152921504606846976%Z. assert (1 <= bpow radix2 60) by (change 1 with (bpow radix2 0); apply bpow_le; lia). lra. }
  assert (C1 : bpow radix2 (-60) <= 1 / E <= bpow radix2 60).
  { change (bpow radix2 (-60)) with (/ IZR (2 ^ 60)). change (bpow radix2 60) with (IZR (2 ^ 60)). change (2 ^ 60)%Z with 1152921504606846976%Z. split.
    - apply Rmult_le_reg_r with E; [lra|]. replace (1 / E * E) with 1 by (field; lra). lra.
    - apply Rmult_le_reg_r with E; [lra|]. replace (1 / E * E) with 1 by (field; lra). lra. }
  destruct (k_chain p 1 Hp ltac:(lia)) as (K1 & K1'). destruct (k_chain p 2 Hp ltac:(lia)) as (K2 & K2').
  destruct (minus_ok a z 61 Fa Fz ltac:(lia)) as (F1 & V1).
  { rewrite <- (sgn_abs s _ Hs). apply (A_big _ E p); auto; lra. }
  assert (H1 : A (s * val (a [-] z)) E (p * k ^ 1)).
  { rewrite V1, rnd_sgn, pow_1 by auto. apply A_rnd; auto; [lra|]. apply Rle_trans with (2 := proj1 C0). apply bpow_le. lia. }
  destruct (inv_A s (a [-] z) E (p * k ^ 1) Hs F1 H1 ltac:(lra) C0) as (F2 & H2). replace (p * k ^ 1 * k) with (p * k ^ 2) in H2 by ring.
  destruct (inv_A s _ (1 / E) (p * k ^ 2) Hs F2 H2 ltac:(lra) C1) as (F3 & H3). replace (p * k ^ 2 * k) with (p * k ^ 3) in H3 by ring. replace (1 / (1 / E)) with E in H3 by (field; lra).
  split; [exact F3|exact H3].
Qed.
Lemma residue_near z : fin z -> Rabs (val z) <= 1000 ->
  fin (compute_residue_f64 (simple_pole_f64 z) z) /\ Rabs (val (compute_residue_f64 (simple_pole_f64 z) z) - 1) <= (Rabs (val z) + 1) / 4000.
Proof.
  intros Fz Bz. destruct eps_small as (Fe & HE). apply Rabs_le_inv in HE. set (E := val residue_eps) in *.
  assert (SB : forall s, s = 1 \/ s = -1 -> Rabs (val z + s * E) <= bpow radix2 20).
  { intros s Hs. apply Rle_trans with (1 := Rabs_triang _ _). rewrite (sgn_abs s E Hs), (Rabs_pos_eq E) by lra. change (bpow radix2 20) with 1048576. lra. }
  destruct (plus_ok z residue_eps 20 Fz Fe ltac:(lia)) as (Fa & Va). { fold E. rewrite <- (Rmult_1_l E). apply SB. now left. }
  destruct (minus_ok z residue_eps 20 Fz Fe ltac:(lia)) as (Fb & Vb). { fold E. replace (val z - E) with (val z + -1 * E) by ring. apply SB. now right. }
  set (p := / (1 - (Rabs (val z) + 1) * (12 / 100000))).
  destruct (side 1 z (z [+] residue_eps) (or_introl eq_refl) Fz Bz Fa) as (F1 & H1). { rewrite Va. f_equal. ring. }
  destruct (side (-1) z (z [-] residue_eps) (or_intror eq_refl) Fz Bz Fb) as (F2 & H2). { rewrite Vb. f_equal. ring. }
  fold p E in H1, H2. set (x := f64_inv (simple_pole_f64 z (z [+] residue_eps))) in *. set (y := f64_inv (simple_pole_f64 z (z [-] residue_eps))) in *.
  pose proof (Rabs_pos (val z)) as Zp.
  assert (Hp : 1 <= p <= 6 / 5).
  { unfold p. split.
    - rewrite <- Rinv_1 at 1. apply Rinv_le_contravar; lra.
    - replace (6 / 5) with (/ (5 / 6)) by lra. apply Rinv_le_contravar; lra. }
  assert (B60 : bpow radix2 (-60) = / 1152921504606846976 /\ bpow radix2 60 = 1152921504606846976) by (split; reflexivity). destruct B60 as (B1 & B2).
  assert (H3 : A (val x - val y) (2 * E) (p * k ^ 3)).
  { replace (val x - val y) with (1 * val x + -1 * val y) by ring. apply A_add; auto. }
  destruct (k_chain p 3 Hp ltac:(lia)) as (K3 & K3'). destruct (k_chain p 4 Hp ltac:(lia)) as (K4 & K4'). destruct (k_chain p 5 Hp ltac:(lia)) as (K5 & K5'). destruct (k_chain p 6 Hp ltac:(lia)) as (K6 & K6'). destruct (k_chain p 7 Hp ltac:(lia)) as (K7 & K7').
  destruct (minus_ok x y 61 F1 F2 ltac:(lia)) as (F4 & V4). { apply (A_big _ (2 * E) (p * k ^ 3)); auto; [lra|rewrite B2; lra]. }
  assert (H4 : A (1 * val (x [-] y)) (2 * E) (p * k ^ 4)).
  { rewrite Rmult_1_l, V4. replace (p * k ^ 4) with (p * k ^ 3 * k) by ring. apply A_rnd; auto; [lra|]. apply Rle_trans with (bpow radix2 (-60)); [apply bpow_le; lia|rewrite B1; lra]. }
  assert (Ie : forall c, 0 < c -> c / E * E = c) by (intros; field; lra).
  destruct (inv_A 1 (x [-] y) (2 * E) (p * k ^ 4) (or_introl eq_refl) F4 H4 ltac:(lra)) as (F5 & H5). { rewrite B1, B2. lra. }
  replace (p * k ^ 4 * k) with (p * k ^ 5) in H5 by ring. rewrite Rmult_1_l in H5.
  destruct (lit_int 2 ltac:(simpl; lia)) as (Ft & Vt). change (val (f64_lit 2 1) = 2) in Vt.
  assert (C6 : 1 / (2 * E) * 2 = 1 / E) by (field; lra).
  destruct (mul_A (f64_inv (x [-] y)) (f64_lit 2 1) 2 (1 / (2 * E)) (p * k ^ 5) F5 Ft Vt ltac:(lra) H5 ltac:(lra)) as (F6 & H6).
  { rewrite C6, B1, B2. split; apply Rmult_le_reg_r with E; try lra; rewrite (Ie 1) by lra; lra. }
  replace (p * k ^ 5 * k) with (p * k ^ 6) in H6 by ring. rewrite C6 in H6.
  destruct (mul_A (f64_inv (x [-] y) [*] f64_lit 2 1) residue_eps E (1 / E) (p * k ^ 6) F6 Fe eq_refl ltac:(lra) H6 ltac:(lra)) as (F7 & H7).
  { rewrite (Ie 1), B1, B2 by lra. lra. }
  replace (p * k ^ 6 * k) with (p * k ^ 7) in H7 by ring. rewrite (Ie 1) in H7 by lra.
  split; [exact F7|]. change (compute_residue_f64 (simple_pole_f64 z) z) with (f64_inv (x [-] y) [*] f64_lit 2 1 [*] residue_eps).
  destruct H7 as (L & U). set (r := val (f64_inv (x [-] y) [*] f64_lit 2 1 [*] residue_eps)) in *. set (q := p * k ^ 7) in *. set (t := Rabs (val z) + 1) in *.
  assert (T : 1 <= t <= 1001) by (unfold t; lra).
  assert (Q : q <= 1 + t / 4000).
  { apply Rle_trans with (1 := proj2 K7). assert (G : p <= 1 + t * (14 / 100000)).
    - unfold p. apply Rmult_le_reg_r with (1 - t * (12 / 100000)); [lra|]. rewrite Rinv_l by lra. nra.
    - apply Rle_trans with (p + 6 / 5 * / 10 ^ 13); [nra|lra]. }
  assert (Lq : 1 - t / 4000 <= 1 / q). { apply Rmult_le_reg_r with q; [lra|]. replace (1 / q * q) with 1 by (field; lra). assert (1 <= t <= 1001) by (unfold t; lra). nra. }
  apply Rabs_le. lra.
Qed.
