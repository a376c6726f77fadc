(** * The Fermi momentum in binary64 *)
From Coq Require Import ZArith Reals Psatz Lia List Bool.
From Flocq Require Import Core IEEE754.BinarySingleNaN IEEE754.Binary IEEE754.Bits Relative Mult_error.
From Verif Require Import MFloat MGrid MUtils MTc MFermi SpecGrid PGrid PGrid2.
Import ListNotations.
Open Scope R_scope.

Lemma rnd_FLT x : rnd x = round radix2 (FLT_exp (-1074) 53) ZnearestE x. Proof. reflexivity. Qed.
Lemma half_u : / 2 * bpow radix2 (- (53) + 1) = u. Proof. unfold u. change (- (53) + 1)%Z with (-52)%Z. change (-53)%Z with (-1 + -52)%Z. rewrite (bpow_plus radix2 (-1) (-52)). reflexivity. Qed.
Lemma half_eta : / 2 * bpow radix2 (-1074) = eta. Proof. unfold eta. change (-1075)%Z with (-1 + -1074)%Z. rewrite (bpow_plus radix2 (-1) (-1074)). reflexivity. Qed.
Lemma rnd_split x : exists e h, Rabs e <= u /\ Rabs h <= eta /\ e * h = 0 /\ rnd x = x * (1 + e) + h.
Proof.
  destruct (error_N_FLT radix2 (-1074) 53 ltac:(lia) (fun z => negb (Z.even z)) x) as (e & h & He & Hh & P & E).
  exists e, h. rewrite half_u in He. rewrite half_eta in Hh. auto.
Qed.
(** what is smaller than half of the smallest number rounds to zero *)
Lemma rnd_tiny x : Rabs x < eta -> rnd x = 0.
Proof.
  intros H. unfold rnd. destruct (Req_dec x 0) as [->|N]; [apply rnd_0|].
  apply (round_N_small radix2 (FLT_exp (-1074) 53) (fun z => negb (Z.even z)) x (mag radix2 x)).
  - destruct (mag radix2 x) as (ex & Hx). simpl. auto.
  - assert (M : (mag radix2 x <= -1075)%Z).
    { apply mag_le_bpow; auto. }
    unfold FLT_exp. lia.
Qed.
(** the gap above a binary64 number *)
Lemma gap_rel x y : fin x -> fin y -> 0 <= val x < val y -> val x * (1 + u) < val y.
Proof.
  intros Fx Fy (H0 & H). destruct (Req_dec (val x) 0) as [E|N]; [rewrite E; lra|].
  assert (S : succ radix2 (FLT_exp (-1074) 53) (val x) <= val y).
  { apply succ_le_lt; auto; [apply FLT_exp_valid; reflexivity| |]; apply (generic_format_B2R 53 1024). }
  apply Rlt_le_trans with (2 := S). rewrite succ_eq_pos by lra.
  assert (U : val x * u < ulp radix2 (FLT_exp (-1074) 53) (val x)).
  { rewrite ulp_neq_0 by auto. unfold cexp. destruct (mag radix2 (val x)) as (ex & Hx). simpl. specialize (Hx N). rewrite Rabs_pos_eq in Hx by lra.
    apply Rlt_le_trans with (bpow radix2 (ex - 53)).
    - replace (ex - 53)%Z with (ex + -53)%Z by lia. rewrite bpow_plus. apply Rmult_lt_compat_r; [apply u_pos|apply Hx].
    - apply bpow_le. unfold FLT_exp. lia. }
  lra.
Qed.

Definition small (x : F64) : Prop := Rabs (val x) <= bpow radix2 500.
Lemma sq_small x : small x -> val x * val x <= bpow radix2 1000.
Proof.
  unfold small. intros H. change 1000%Z with (500 + 500)%Z. rewrite bpow_plus. rewrite <- (Rabs_pos_eq (val x * val x)) by nra. rewrite Rabs_mult.
  pose proof (Rabs_pos (val x)). apply Rmult_le_compat; auto.
Qed.
Definition radicand (m mu : F64) : F64 := b64_fma mode_NE mu mu (b64_opp (m [*] m)).
Lemma sq_ok m : fin m -> small m -> fin (m [*] m) /\ val (m [*] m) = rnd (val m * val m).
Proof. intros F S. apply (mult_ok m m 1000); auto; [lia|]. rewrite Rabs_pos_eq by nra. now apply sq_small. Qed.
Lemma radicand_ok m mu : fin m -> fin mu -> small m -> small mu ->
  fin (radicand m mu) /\ val (radicand m mu) = rnd (val mu * val mu - rnd (val m * val m)).
Proof.
  intros Fm Fmu Sm Smu. destruct (sq_ok m Fm Sm) as (Fs & Vs).
  assert (Fo : is_finite 53 1024 (b64_opp (m [*] m)) = true). { unfold b64_opp. rewrite is_finite_Bopp. exact Fs. }
  pose proof (Bfma_correct 53 1024 eq_refl eq_refl ternop_nan_pl64 mode_NE mu mu (b64_opp (m [*] m)) Fmu Fmu Fo) as C. cbv zeta in C.
  assert (Vo : B2R 53 1024 (b64_opp (m [*] m)) = - rnd (val m * val m)). { unfold b64_opp. rewrite B2R_Bopp. f_equal. exact Vs. }
  rewrite Vo in C. fold (val mu) in C.
  replace (val mu * val mu + - rnd (val m * val m)) with (val mu * val mu - rnd (val m * val m)) in C by ring.
  change (round radix2 fexp64 (round_mode mode_NE) (val mu * val mu - rnd (val m * val m))) with (rnd (val mu * val mu - rnd (val m * val m))) in C.
  assert (B : Rabs (val mu * val mu - rnd (val m * val m)) <= bpow radix2 1001).
  { change 1001%Z with (1 + 1000)%Z. rewrite bpow_plus. change (bpow radix2 1) with 2. pose proof (sq_small _ Smu). pose proof (sq_small _ Sm).
    assert (0 <= rnd (val m * val m)) by (apply rnd_nonneg; nra).
    assert (rnd (val m * val m) <= bpow radix2 1000). { rewrite <- (Rabs_pos_eq (rnd (val m * val m))) by auto. apply rnd_big; [lia|]. rewrite Rabs_pos_eq; auto. nra. }
    apply Rabs_le. pose proof (bpow_gt_0 radix2 1000). nra. }
  rewrite (big_ok _ 1001 ltac:(lia) B) in C. destruct C as (C1 & C2 & _). split; auto.
Qed.
(** the square root of a finite number *)
Lemma sqrt_nan x : fin x -> (f64_isnan (b64_sqrt mode_NE x) = true <-> val x < 0).
Proof.
  intros F. unfold fin in F. destruct x as [s|s|s pl Hp|s mm e He]; try discriminate F.
  - split; intros H; [discriminate H|]. unfold val in H. simpl in H. lra.
  - pose proof (Bsqrt_correct 53 1024 eq_refl eq_refl unop_nan_pl64 mode_NE (Binary.B754_finite 53 1024 s mm e He)) as (C1 & C2 & C3).
    fold (b64_sqrt mode_NE (Binary.B754_finite 53 1024 s mm e He)) in *. destruct s.
    + split; intros _; [|].
      * unfold val. simpl. apply F2R_lt_0. reflexivity.
      * reflexivity.
    + split; intros H.
      * exfalso. unfold f64_isnan in H. change (Bsqrt 53 1024 eq_refl eq_refl unop_nan_pl64 mode_NE (Binary.B754_finite 53 1024 false mm e He)) with (b64_sqrt mode_NE (Binary.B754_finite 53 1024 false mm e He)) in C2. destruct (b64_sqrt mode_NE (Binary.B754_finite 53 1024 false mm e He)); discriminate.
      * exfalso. unfold val in H. simpl in H. apply (Rlt_irrefl 0). apply Rlt_trans with (2 := H). apply F2R_gt_0. reflexivity.
Qed.
Lemma sqrt_ok x : fin x -> 0 <= val x -> fin (b64_sqrt mode_NE x) /\ val (b64_sqrt mode_NE x) = rnd (sqrt (val x)).
Proof.
  intros F H. pose proof (Bsqrt_correct 53 1024 eq_refl eq_refl unop_nan_pl64 mode_NE x) as (C1 & C2 & _). split; [|exact C1].
  unfold fin in *. change (is_finite 53 1024 (Bsqrt 53 1024 eq_refl eq_refl unop_nan_pl64 mode_NE x) = true). rewrite C2.
  destruct x as [s|s|s pl Hp|s mm e He]; try discriminate F; auto. destruct s; auto. exfalso. unfold val in H. simpl in H. apply (Rlt_irrefl 0). apply Rle_lt_trans with (1 := H). apply F2R_lt_0. reflexivity.
Qed.

Lemma abs_ok x : fin x -> fin (b64_abs x) /\ val (b64_abs x) = Rabs (val x).
Proof. intros F. split; [unfold fin, b64_abs; now rewrite is_finite_Babs|unfold val, b64_abs; now rewrite B2R_Babs]. Qed.
Lemma sqr_abs x : x * x = Rabs x * Rabs x. Proof. rewrite <- Rabs_mult. symmetry. apply Rabs_pos_eq. nra. Qed.
Lemma gap_sq m mu : fin m -> fin mu -> Rabs (val m) < Rabs (val mu) -> val m * val m * (1 + u) * (1 + u) <= val mu * val mu.
Proof.
  intros Fm Fmu H. destruct (abs_ok m Fm) as (F1 & V1), (abs_ok mu Fmu) as (F2 & V2).
  assert (G : Rabs (val m) * (1 + u) < Rabs (val mu)). { rewrite <- V1, <- V2. apply gap_rel; auto. rewrite V1, V2. split; auto. apply Rabs_pos. }
  rewrite (sqr_abs (val m)), (sqr_abs (val mu)). pose proof (Rabs_pos (val m)). pose proof u_pos.
  replace (Rabs (val m) * Rabs (val m) * (1 + u) * (1 + u)) with ((Rabs (val m) * (1 + u)) * (Rabs (val m) * (1 + u))) by ring.
  assert (0 <= Rabs (val m) * (1 + u)) by (apply Rmult_le_pos; lra). apply Rmult_le_compat; lra.
Qed.
Lemma rad_above m mu : fin m -> fin mu -> Rabs (val m) < Rabs (val mu) -> 0 <= rnd (val mu * val mu - rnd (val m * val m)).
Proof.
  intros Fm Fmu H. pose proof (gap_sq m mu Fm Fmu H) as G. pose proof u_pos. assert (P : 0 <= val m * val m) by nra.
  destruct (rnd_split (val m * val m)) as (e & h & He & Hh & Z & E). rewrite E. apply Rabs_le_inv in He.
  destruct (Rmult_integral _ _ Z) as [->| ->].
  - destruct (Rle_lt_dec 0 (val mu * val mu - (val m * val m * (1 + 0) + h))) as [L|L]; [now apply rnd_nonneg|].
    rewrite rnd_tiny; [lra|]. rewrite Rabs_left by auto. apply Rabs_le_inv in Hh.
    assert (val m * val m < val mu * val mu) by (rewrite (sqr_abs (val m)), (sqr_abs (val mu)); pose proof (Rabs_pos (val m)); nra). lra.
  - apply rnd_nonneg. assert (val m * val m * (1 + e) <= val m * val m * (1 + u)) by (apply Rmult_le_compat_l; lra).
    assert (val m * val m * (1 + u) * 1 <= val m * val m * (1 + u) * (1 + u)) by (apply Rmult_le_compat_l; [apply Rmult_le_pos|]; lra). lra.
Qed.
Lemma rad_below m mu : fin m -> fin mu -> Rabs (val mu) < Rabs (val m) -> rnd (val mu * val mu - rnd (val m * val m)) <= 0.
Proof.
  intros Fm Fmu H. pose proof (gap_sq mu m Fmu Fm H) as G. pose proof u_pos. destruct u_small as (_ & _ & US). assert (P : 0 <= val mu * val mu) by nra. assert (P' : 0 <= val m * val m) by nra.
  destruct (rnd_split (val m * val m)) as (e & h & He & Hh & Z & E). rewrite E. apply Rabs_le_inv in He.
  destruct (Rmult_integral _ _ Z) as [->| ->].
  - destruct (Rle_lt_dec (val mu * val mu - (val m * val m * (1 + 0) + h)) 0) as [L|L]; [apply Rle_trans with (rnd 0); [now apply rnd_mono|rewrite rnd_0; lra]|].
    rewrite rnd_tiny; [lra|]. rewrite Rabs_pos_eq by lra. apply Rabs_le_inv in Hh.
    assert (val mu * val mu < val m * val m) by (rewrite (sqr_abs (val m)), (sqr_abs (val mu)); pose proof (Rabs_pos (val mu)); nra). lra.
  - apply Rle_trans with (rnd 0); [apply rnd_mono|rewrite rnd_0; lra]. assert (val m * val m * (1 - u) <= val m * val m * (1 + e)) by (apply Rmult_le_compat_l; lra).
    assert (U : 1 <= (1 + u) * (1 + u) * (1 - u)) by nra.
    assert (val mu * val mu * 1 <= val mu * val mu * ((1 + u) * (1 + u) * (1 - u))) by (apply Rmult_le_compat_l; lra).
    assert (val mu * val mu * (1 + u) * (1 + u) * (1 - u) <= val m * val m * (1 - u)) by (apply Rmult_le_compat_r; lra). lra.
Qed.
Lemma sqrt_rel x : fin x -> 0 <= val x -> exists e, Rabs e <= u /\ rnd (sqrt (val x)) = sqrt (val x) * (1 + e).
Proof.
  intros F H. destruct (Req_dec (val x) 0) as [E|N].
  - exists 0. rewrite E, sqrt_0, rnd_0, Rabs_R0. pose proof u_pos. split; lra.
  - assert (L : bpow radix2 (-1074) <= val x).
    { rewrite <- (Rabs_pos_eq (val x)) by auto. apply (abs_B2R_ge_emin 53 1024 x). unfold fin, val in *. destruct x; try discriminate F; auto; simpl in N; lra. }
    destruct (relative_error_N_FLT_ex radix2 (-1074) 53 eq_refl (fun z => negb (Z.even z)) (sqrt (val x))) as (e & He & E).
    + rewrite Rabs_pos_eq by apply sqrt_pos. apply Rle_trans with (bpow radix2 (-537)); [apply bpow_le; lia|].
      apply Rsqr_incr_0; [|apply bpow_ge_0|apply sqrt_pos]. rewrite Rsqr_sqrt by auto. unfold Rsqr. rewrite <- bpow_plus. exact L.
    + exists e. rewrite half_u in He. split; auto.
Qed.

(** above the threshold *)
Lemma fm_above m mu : fin m -> fin mu -> small m -> small mu -> Rabs (val m) < Rabs (val mu) ->
  fin (fermi_momentum_f64 m mu) /\ 0 <= val (fermi_momentum_f64 m mu) /\
  exists e1 h1 e2 h2 e3, Rabs e1 <= u /\ Rabs e2 <= u /\ Rabs e3 <= u /\ Rabs h1 <= eta /\ Rabs h2 <= eta /\
    0 <= (val mu * val mu - (val m * val m * (1 + e1) + h1)) * (1 + e2) + h2 /\
    val (fermi_momentum_f64 m mu) = sqrt ((val mu * val mu - (val m * val m * (1 + e1) + h1)) * (1 + e2) + h2) * (1 + e3).
Proof.
  intros Fm Fmu Sm Smu H. destruct (radicand_ok m mu Fm Fmu Sm Smu) as (Fr & Vr). pose proof (rad_above m mu Fm Fmu H) as P. rewrite <- Vr in P.
  destruct (sqrt_ok _ Fr P) as (Fs & Vs). change (b64_sqrt mode_NE (radicand m mu)) with (fermi_momentum_f64 m mu) in *.
  split; [exact Fs|split]. { rewrite Vs. apply rnd_nonneg, sqrt_pos. }
  destruct (rnd_split (val m * val m)) as (e1 & h1 & H1 & H2 & _ & E1).
  destruct (rnd_split (val mu * val mu - rnd (val m * val m))) as (e2 & h2 & H3 & H4 & _ & E2).
  destruct (sqrt_rel _ Fr P) as (e3 & H5 & E3). exists e1, h1, e2, h2, e3. rewrite <- E1, <- E2, <- Vr. repeat (split; auto). rewrite Vs. exact E3.
Qed.
(** below *)
Lemma fm_below m mu : fin m -> fin mu -> small m -> small mu -> Rabs (val mu) < Rabs (val m) ->
  f64_isnan (fermi_momentum_f64 m mu) = true \/ fin (fermi_momentum_f64 m mu) /\ val (fermi_momentum_f64 m mu) = 0.
Proof.
  intros Fm Fmu Sm Smu H. destruct (radicand_ok m mu Fm Fmu Sm Smu) as (Fr & Vr). pose proof (rad_below m mu Fm Fmu H) as P. rewrite <- Vr in P.
  destruct (Rle_lt_or_eq_dec _ _ P) as [L|E].
  - left. apply (sqrt_nan _ Fr). exact L.
  - right. destruct (sqrt_ok _ Fr) as (Fs & Vs); [lra|]. split; [exact Fs|]. rewrite E, sqrt_0, rnd_0 in Vs. exact Vs.
Qed.
(** at the threshold *)
Lemma rad_at m mu : fin m -> fin mu -> Rabs (val mu) = Rabs (val m) -> bpow radix2 (-484) <= Rabs (val m) ->
  rnd (val mu * val mu - rnd (val m * val m)) = val m * val m - rnd (val m * val m).
Proof.
  intros Fm Fmu H L. assert (E : val mu * val mu = val m * val m) by (rewrite (sqr_abs (val m)), (sqr_abs (val mu)), H; reflexivity). rewrite E.
  apply round_generic; [apply valid_rnd_N|]. replace (val m * val m - rnd (val m * val m)) with (- (rnd (val m * val m) - val m * val m)) by ring. apply generic_format_opp.
  assert (P53 : Prec_gt_0 53) by reflexivity. apply (mult_error_FLT radix2 (-1074) 53 ZnearestE); try (apply (generic_format_B2R 53 1024)).
  intros _. rewrite Rabs_mult. apply Rle_trans with (bpow radix2 (-484 + -484)); [apply bpow_le; lia|]. rewrite bpow_plus. apply Rmult_le_compat; auto; apply bpow_ge_0.
Qed.
Lemma fm_at m mu : fin m -> fin mu -> small m -> Rabs (val mu) = Rabs (val m) -> bpow radix2 (-484) <= Rabs (val m) ->
  (f64_isnan (fermi_momentum_f64 m mu) = true <-> val m * val m < rnd (val m * val m)) /\
  (rnd (val m * val m) <= val m * val m -> fin (fermi_momentum_f64 m mu) /\ val (fermi_momentum_f64 m mu) = rnd (sqrt (val m * val m - rnd (val m * val m))) /\
     0 <= val (fermi_momentum_f64 m mu) <= bpow radix2 (-26) * Rabs (val m)).
Proof.
  intros Fm Fmu Sm H L. assert (Smu : small mu) by (unfold small; now rewrite H).
  destruct (radicand_ok m mu Fm Fmu Sm Smu) as (Fr & Vr). rewrite (rad_at m mu Fm Fmu H L) in Vr. split.
  - unfold fermi_momentum_f64. fold (radicand m mu). rewrite (sqrt_nan _ Fr), Vr. lra.
  - intros G. assert (P : 0 <= val (radicand m mu)) by lra. destruct (sqrt_ok _ Fr P) as (Fs & Vs). change (b64_sqrt mode_NE (radicand m mu)) with (fermi_momentum_f64 m mu) in *.
    split; [exact Fs|split; [now rewrite Vs, Vr|split]]. { rewrite Vs. apply rnd_nonneg, sqrt_pos. }
    destruct (sqrt_rel _ Fr P) as (e & He & E). rewrite Vs, E. apply Rabs_le_inv in He. pose proof u_pos as U. destruct u_small as (_ & _ & US).
    apply Rsqr_incr_0; [|apply Rmult_le_pos; [apply sqrt_pos|lra]|apply Rmult_le_pos; [apply bpow_ge_0|apply Rabs_pos]].
    unfold Rsqr. replace (sqrt (val (radicand m mu)) * (1 + e) * (sqrt (val (radicand m mu)) * (1 + e))) with ((sqrt (val (radicand m mu)) * sqrt (val (radicand m mu))) * ((1 + e) * (1 + e))) by ring.
    rewrite sqrt_sqrt by auto. replace (bpow radix2 (-26) * Rabs (val m) * (bpow radix2 (-26) * Rabs (val m))) with ((bpow radix2 (-26) * bpow radix2 (-26)) * (Rabs (val m) * Rabs (val m))) by ring.
    rewrite <- bpow_plus, <- sqr_abs. change (bpow radix2 (-26 + -26)) with (bpow radix2 (1 + -53)). rewrite bpow_plus. fold u. change (bpow radix2 1) with 2.
    assert (M0 : 0 < val m * val m). { rewrite sqr_abs. pose proof (bpow_gt_0 radix2 (-484)). apply Rmult_lt_0_compat; lra. }
    assert (B : val (radicand m mu) <= u * (val m * val m)).
    { rewrite Vr. destruct (relative_error_N_FLT_ex radix2 (-1074) 53 eq_refl (fun z => negb (Z.even z)) (val m * val m)) as (e1 & H1 & E1).
      { rewrite Rabs_mult. apply Rle_trans with (bpow radix2 (-484 + -484)); [apply bpow_le; lia|]. rewrite bpow_plus. apply Rmult_le_compat; auto; apply bpow_ge_0. }
      rewrite half_u in H1. rewrite rnd_FLT, E1. apply Rabs_le_inv in H1. nra. }
    assert (Q : 0 <= (1 + e) * (1 + e) <= 2) by nra.
    apply Rle_trans with (u * (val m * val m) * 2); [|right; ring]. apply Rmult_le_compat; lra.
Qed.
Lemma lt_iff x y : fin x -> fin y -> (f64_lt x y = true <-> val x < val y).
Proof. intros Fx Fy. split; [now apply lt_ok|]. intros H. unfold f64_lt, b64_compare. rewrite (Bcompare_correct 53 1024 x y Fx Fy). fold (val x) (val y). now rewrite (Rcompare_Lt _ _ H). Qed.
Lemma guard_iff mq mu : fin mq -> fin mu -> (f64_lt (b64_abs mu) (b64_abs mq) = true <-> Rabs (val mu) < Rabs (val mq)).
Proof. intros F1 F2. destruct (abs_ok mq F1) as (A1 & B1), (abs_ok mu F2) as (A2 & B2). rewrite (lt_iff _ _ A2 A1), B1, B2. tauto. Qed.
