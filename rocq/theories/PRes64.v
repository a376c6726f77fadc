(** * Numerical residues in binary64 *)
From Coq Require Import ZArith Reals Psatz Lia List Bool.
From Flocq Require Import Core IEEE754.BinarySingleNaN IEEE754.Binary IEEE754.Bits.
From Verif Require Import MFloat MGrid MFermi MDistr64 MRes64 SpecGrid PGrid PGrid2 PDistr64.
Open Scope R_scope.

Notation fx := (FLT_exp (-1074) 53).
Lemma fmt_val x : generic_format radix2 fx (val x).
Proof. exact (generic_format_B2R 53 1024 x). Qed.
Lemma fmt_14 : generic_format radix2 fx (bpow radix2 14).
Proof. apply generic_format_bpow. unfold FLT_exp. lia. Qed.
Lemma ulp_14 x : bpow radix2 14 <= x -> bpow radix2 (-38) <= ulp radix2 fx x.
Proof.
  intros H. replace (bpow radix2 (-38)) with (ulp radix2 fx (bpow radix2 14)) by (rewrite ulp_bpow; reflexivity).
  apply ulp_le_pos; auto; [apply FLT_exp_valid; reflexivity|apply FLT_exp_monotone|apply bpow_ge_0].
Qed.
Lemma half_38 : bpow radix2 (-38) = 2 * bpow radix2 (-39).
Proof. change 2 with (bpow radix2 1). rewrite <- bpow_plus. reflexivity. Qed.
Lemma absorb_pos v e : generic_format radix2 fx v -> bpow radix2 15 <= v -> Rabs e < bpow radix2 (-39) -> rnd (v + e) = v.
Proof.
  intros F H B. apply Rabs_lt_inv in B. change (rnd (v + e)) with (round radix2 fx ZnearestE (v + e)).
  assert (V : Valid_exp fx) by (apply FLT_exp_valid; reflexivity).
  assert (L : bpow radix2 14 < v). { apply Rlt_le_trans with (2 := H). apply bpow_lt. lia. }
  pose proof (bpow_gt_0 radix2 14) as P. pose proof half_38 as Q. apply Rle_antisym.
  - apply round_N_le_midp; auto. rewrite succ_eq_pos by lra. pose proof (ulp_14 v ltac:(lra)). lra.
  - apply round_N_ge_midp; auto. pose proof (pred_ge_gt radix2 fx _ _ fmt_14 F L) as G. pose proof (pred_plus_ulp radix2 fx v ltac:(lra) F) as E. pose proof (ulp_14 _ G). lra.
Qed.
Lemma absorb v e : generic_format radix2 fx v -> bpow radix2 15 <= Rabs v -> Rabs e < bpow radix2 (-39) -> rnd (v + e) = v.
Proof.
  intros F H B. destruct (Rle_lt_dec 0 v) as [L|L].
  - rewrite (Rabs_pos_eq v L) in H. now apply absorb_pos.
  - rewrite (Rabs_left v L) in H. replace (v + e) with (- (- v + - e)) by ring. unfold rnd. rewrite round_NE_opp. fold (rnd (- v + - e)). rewrite absorb_pos; [ring|now apply generic_format_opp|auto|now rewrite Rabs_Ropp].
Qed.
Lemma val_inj x y : fin x -> fin y -> val x = val y -> val x <> 0 -> x = y.
Proof.
  intros Fx Fy E N. assert (S : forall w, fin w -> val w <> 0 -> is_finite_strict 53 1024 w = true).
  { intros [s|s|s pl e|s m e H] F Nz; try discriminate F; [now elim Nz|reflexivity]. }
  apply (B2R_inj 53 1024); [apply S|apply S|]; auto. rewrite <- E; auto.
Qed.
Definition big (z : F64) : Prop := fin z /\ bpow radix2 15 <= Rabs (val z) <= bpow radix2 1000.
Lemma nz_big z : big z -> val z <> 0.
Proof. intros (_ & H & _) E. rewrite E, Rabs_R0 in H. pose proof (bpow_gt_0 radix2 15). lra. Qed.
Lemma step_lost z eps : big z -> fin eps -> Rabs (val eps) < bpow radix2 (-39) -> z [+] eps = z /\ z [-] eps = z.
Proof.
  intros HB Fe B. pose proof (nz_big z HB) as N. destruct HB as (F & L & U).
  assert (S : forall e, Rabs e < bpow radix2 (-39) -> Rabs (val z + e) <= bpow radix2 1001).
  { intros e He. replace (bpow radix2 1001) with (bpow radix2 1000 + bpow radix2 1000) by (change 1001%Z with (1 + 1000)%Z; rewrite bpow_plus; change (bpow radix2 1) with 2; ring).
    pose proof (Rabs_triang (val z) e). assert (bpow radix2 (-39) <= bpow radix2 1000) by (apply bpow_le; lia). lra. }
  destruct (plus_ok z eps 1001 F Fe ltac:(lia) (S _ B)) as (F1 & V1).
  assert (B' : Rabs (- val eps) < bpow radix2 (-39)) by now rewrite Rabs_Ropp.
  destruct (minus_ok z eps 1001 F Fe ltac:(lia) (S _ B')) as (F2 & V2). unfold Rminus in V2.
  rewrite absorb in V1 by (auto; apply fmt_val). rewrite absorb in V2 by (auto; apply fmt_val).
  split; apply val_inj; auto; [rewrite V1|rewrite V2]; auto.
Qed.
(** x - x is +0 or NaN *)
Lemma self_minus (x : F64) : x [-] x = B754_zero 53 1024 false \/ f64_isnan (x [-] x) = true.
Proof.
  destruct (is_finite 53 1024 x) eqn:F.
  - left. pose proof (Bminus_correct 53 1024 eq_refl eq_refl binop_nan_pl64 mode_NE x x F F) as C. rewrite Rminus_diag_eq, round_0, Rabs_R0 in C by (auto; apply valid_rnd_N).
    rewrite Rlt_bool_true in C by apply bpow_gt_0. destruct C as (C1 & C2 & C3). rewrite Rcompare_Eq in C3 by auto.
    assert (S : Bsign 53 1024 (x [-] x) = false). { unfold b64_minus. rewrite C3. destruct (Bsign 53 1024 x); reflexivity. }
    change (x [-] x) with (Bminus 53 1024 eq_refl eq_refl binop_nan_pl64 mode_NE x x) in *. destruct (Bminus 53 1024 eq_refl eq_refl binop_nan_pl64 mode_NE x x) as [s|s|s pl e|s m e H]; try discriminate C2.
    + cbn [Bsign] in S. now rewrite S.
    + exfalso. cbn [B2R] in C1. destruct s; [apply (F2R_lt_0 radix2 (Float radix2 (Zneg m) e)) in C1 || (pose proof (F2R_lt_0 radix2 (Float radix2 (Zneg m) e) ltac:(reflexivity)) as Q; cbn [cond_Zopp] in C1; simpl in C1; simpl in Q; lra)|pose proof (F2R_gt_0 radix2 (Float radix2 (Zpos m) e) ltac:(reflexivity)) as Q; cbn [cond_Zopp] in C1; lra].
  - right. destruct x as [s|s|s pl e|s m e H]; try discriminate F; [destruct s|]; reflexivity.
Qed.
Lemma notfin_mult x y : is_finite 53 1024 x = false -> is_finite 53 1024 (x [*] y) = false.
Proof. destruct x as [s|s|s pl e|s m e H], y as [s'|s'|s' pl' e'|s' m' e' H']; intros Q; try discriminate Q; reflexivity. Qed.
Lemma inv_zero : is_finite 53 1024 (f64_inv (B754_zero 53 1024 false)) = false.
Proof. vm_compute. reflexivity. Qed.
Lemma inv_nan x : f64_isnan x = true -> is_finite 53 1024 (f64_inv x) = false.
Proof. unfold f64_inv. destruct one_fin as (m & e & H & ->). destruct x; intros Q; try discriminate Q; reflexivity. Qed.
Lemma residue_lost f z eps : big z -> fin eps -> Rabs (val eps) < bpow radix2 (-39) -> ~ fin (compute_residue_with_eps_f64 f z eps).
Proof.
  intros HB Fe B. destruct (step_lost z eps HB Fe B) as (E1 & E2). unfold compute_residue_with_eps_f64. unfold F64 in *. rewrite E1, E2.
  assert (Q : is_finite 53 1024 (f64_inv (f64_inv (f z) [-] f64_inv (f z))) = false).
  { destruct (self_minus (f64_inv (f z))) as [H|H]; [|exact (inv_nan _ H)]. apply (eq_trans (f_equal (fun w => is_finite 53 1024 (f64_inv w)) H)). exact inv_zero. }
  unfold fin. intros H. pose proof (notfin_mult _ eps (notfin_mult _ (f64_lit 2 1) Q)) as W. rewrite W in H. discriminate H.
Qed.
Definition zn (x : F64) := x = B754_zero 53 1024 false \/ f64_isnan x = true.
Lemma nan_div_l x y : f64_isnan x = true -> f64_isnan (x [/] y) = true. Proof. destruct x, y; intros H; try discriminate H; reflexivity. Qed.
Lemma nan_div_r x y : f64_isnan y = true -> f64_isnan (x [/] y) = true. Proof. destruct x as [[]|[]| |[]], y; intros H; try discriminate H; reflexivity. Qed.
Lemma nan_mul_r x y : f64_isnan y = true -> f64_isnan (x [*] y) = true. Proof. destruct x as [[]|[]| |[]], y; intros H; try discriminate H; reflexivity. Qed.
Lemma nan_mul_l x y : f64_isnan x = true -> f64_isnan (x [*] y) = true. Proof. destruct x, y; intros H; try discriminate H; reflexivity. Qed.
Lemma nan_add_l x y : f64_isnan x = true -> f64_isnan (x [+] y) = true. Proof. destruct x, y; intros H; try discriminate H; reflexivity. Qed.
Lemma nan_add_r x y : f64_isnan y = true -> f64_isnan (x [+] y) = true. Proof. destruct x as [[]|[]| |[]], y; intros H; try discriminate H; reflexivity. Qed.
Lemma nan_sub_r x y : f64_isnan y = true -> f64_isnan (x [-] y) = true. Proof. destruct x as [[]|[]| |[]], y; intros H; try discriminate H; reflexivity. Qed.
Definition nan2 (z : C64) := f64_isnan (fst z) = true /\ f64_isnan (snd z) = true.
Lemma c_inv_lost a b : zn a -> zn b -> nan2 (c64_inv (a, b)).
Proof.
  intros Ha Hb. unfold nan2, c64_inv. cbn [fst snd].
  assert (D : (a = B754_zero 53 1024 false /\ b = B754_zero 53 1024 false) \/ f64_isnan (a [*] a [+] b [*] b) = true).
  { destruct Ha as [Ha|Ha]; [destruct Hb as [Hb|Hb]; [now left|right]|right]; [apply nan_add_r, nan_mul_l, Hb|apply nan_add_l, nan_mul_l, Ha]. }
  destruct D as [(-> & ->)|D]; [split; vm_compute; reflexivity|]. split; [apply nan_div_r, D|apply nan_sub_r, nan_div_r, D].
Qed.
Lemma residue_lost_c f z eps : big (fst z) -> fin eps -> Rabs (val eps) < bpow radix2 (-39) -> nan2 (compute_residue_with_eps_c64 f z eps).
Proof.
  intros HB Fe B. destruct z as (x, y). cbn [fst] in HB. destruct (step_lost x eps HB Fe B) as (E1 & E2).
  assert (P1 : c64_plus_re (x, y) eps = (x, y)) by exact (f_equal (fun w => (w, y)) E1).
  assert (P2 : c64_minus_re (x, y) eps = (x, y)) by exact (f_equal (fun w => (w, y)) E2).
  unfold compute_residue_with_eps_c64. rewrite P1, P2. unfold c64_minus.
  destruct (c_inv_lost (fst (c64_inv (f (x, y))) [-] fst (c64_inv (f (x, y)))) (snd (c64_inv (f (x, y))) [-] snd (c64_inv (f (x, y))))) as (N1 & N2); [apply self_minus..|].
  split; apply nan_mul_l, nan_mul_l; assumption.
Qed.
Lemma eps_small : fin residue_eps /\ Rabs (val residue_eps - / 10 ^ 12) <= / 10 ^ 27.
Proof.
  destruct (lit_ok 1 1000000000000 ltac:(lia) ltac:(lia)) as (F & V). split; [exact F|]. unfold residue_eps. rewrite V. change (round radix2 fx ZnearestE (1 / 1000000000000)) with (rnd (1 / 1000000000000)).
  pose proof (rnd_err' (1 / 1000000000000)) as E. rewrite (Rabs_pos_eq (1 / 1000000000000)) in E by lra.
  assert (U : u <= / 9000000000000000). { unfold u. change (bpow radix2 (-53)) with (/ IZR (2 ^ 53)). apply Rinv_le_contravar; [lra|apply IZR_le; lia]. }
  assert (H : eta <= / 10 ^ 29). { unfold eta. apply Rle_trans with (bpow radix2 (-100)); [apply bpow_le; lia|]. change (bpow radix2 (-100)) with (/ IZR (2 ^ 100)). apply Rinv_le_contravar; [lra|]. rewrite pow_IZR. apply IZR_le. vm_compute. discriminate. }
  replace (/ 10 ^ 12) with (1 / 1000000000000) by (simpl; field). lra.
Qed.
Lemma eps_ok : fin residue_eps /\ Rabs (val residue_eps) < bpow radix2 (-39).
Proof.
  destruct eps_small as (F & E). split; [exact F|]. apply Rabs_le_inv in E. change (bpow radix2 (-39)) with (/ IZR (2 ^ 39)). change (2 ^ 39)%Z with 549755813888%Z. apply Rabs_def1; lra.
Qed.
