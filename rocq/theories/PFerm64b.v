(** * The users of the Fermi momentum in binary64 *)
From Coq Require Import ZArith Reals Psatz Lia List Bool.
From Flocq Require Import Core IEEE754.BinarySingleNaN IEEE754.Binary IEEE754.Bits.
From Verif Require Import MFloat MGrid MUtils MTc MFermi SpecGrid PGrid PGrid2 PGrid3 PFerm64.
Import List ListNotations.
Open Scope R_scope.

(** the wrappers *)
Lemma wrapper_cases {A} (zero : A) integ mq mu : fin mq -> fin mu -> small mq -> small mu ->
  (Rabs (val mu) < Rabs (val mq) -> zero_temp_wrapper_f64 zero integ mq mu = zero) /\
  (Rabs (val mq) <= Rabs (val mu) -> zero_temp_wrapper_f64 zero integ mq mu = integ (fermi_momentum_f64 mq mu)) /\
  (Rabs (val mq) < Rabs (val mu) -> fin (fermi_momentum_f64 mq mu)) /\
  (Rabs (val mq) <= Rabs (val mu) -> f64_isnan (fermi_momentum_f64 mq mu) = true -> Rabs (val mu) = Rabs (val mq)).
Proof.
  intros Fq Fm Sq Sm. pose proof (guard_iff mq mu Fq Fm) as G. unfold zero_temp_wrapper_f64. destruct (f64_lt (b64_abs mu) (b64_abs mq)).
  - split; [auto|split; [|split]]; intros H; destruct G as (G & _); specialize (G eq_refl); try lra.
  - split; [|split; [auto|split]]; intros H.
    + apply G in H. discriminate.
    + apply (fm_above mq mu Fq Fm Sq Sm H).
    + intros N. destruct (Rle_lt_or_eq_dec _ _ H) as [L|L]; [|auto]. destruct (fm_above mq mu Fq Fm Sq Sm L) as (F & _). exfalso. unfold fin, f64_isnan in *. destruct (fermi_momentum_f64 mq mu); discriminate.
Qed.

(** NaN propagates *)
Notation nan x := (f64_isnan x = true).
Lemma nan_mult_l x y : nan x -> nan (x [*] y). Proof. destruct x, y; intros H; try discriminate H; reflexivity. Qed.
Lemma nan_mult_r x y : nan y -> nan (x [*] y). Proof. destruct x, y; intros H; try discriminate H; reflexivity. Qed.
Lemma nan_plus_l x y : nan x -> nan (x [+] y). Proof. destruct x, y; intros H; try discriminate H; reflexivity. Qed.
Lemma nan_plus_r x y : nan y -> nan (x [+] y). Proof. destruct x, y; intros H; try discriminate H; reflexivity. Qed.
Lemma nan_minus_r x y : nan y -> nan (x [-] y). Proof. destruct x, y; intros H; try discriminate H; reflexivity. Qed.
Lemma nan_div_l x y : nan x -> nan (x [/] y). Proof. destruct x, y; intros H; try discriminate H; reflexivity. Qed.
Lemma nan_div_r x y : nan y -> nan (x [/] y). Proof. destruct x, y; intros H; try discriminate H; reflexivity. Qed.
Lemma nan_gt x y : nan y -> f64_gt x y = false. Proof. destruct x, y; intros H; try discriminate H; reflexivity. Qed.
Lemma fct_nan_first {T} (t0 : T) ts d ds : nan d -> find_critical_temperature_gen f64_gt (t0 :: ts) (d :: ds) = Ret t0.
Proof.
  intros H. unfold find_critical_temperature_gen. f_equal. simpl. generalize (combine ts ds). intros l. induction l as [|(t & x) l IH]; simpl; auto. now rewrite (nan_gt x d H).
Qed.
Lemma sum_nan l z : Exists (fun w => nan (fst w)) l \/ nan (fst z) -> nan (fst (fold_left c64_plus l z)).
Proof.
  revert z. induction l as [|w l IH]; intros z; simpl.
  - intros [H|H]; [inversion H|auto].
  - intros H. apply IH. destruct H as [H|H]; [inversion H; subst; [right; apply nan_plus_r; auto|left; auto]|right; apply nan_plus_l; auto].
Qed.
Section P.
Variable vac : F64 -> F64.
Variable integ : F64 -> F64 -> F64 -> C64.
Variables (mg om mu : F64) (quarks : list (nat * F64)).
Lemma prop_nan p nf mq : In (nf, mq) quarks -> nan (fst (zero_temp_wrapper_f64 c64_zero (integ p mq) mq mu)) ->
  nan (fst (propagator_zero_temp_f64 vac integ mg om mu quarks p)).
Proof.
  intros Hin H. unfold propagator_zero_temp_f64, c64_scale, c64_inv. cbv zeta. cbn [fst]. apply nan_mult_r.
  assert (D : nan (fst (dressing_inv_zero_temp_f64 vac integ mg om mu quarks p))).
  { unfold dressing_inv_zero_temp_f64. cbv zeta. unfold c64_rminus, c64_scale. cbn [fst]. apply nan_minus_r, nan_mult_r, sum_nan. left. apply Exists_exists. eexists. split; [apply in_map, Hin|]. unfold c64_times. cbn [fst snd]. now apply nan_mult_l. }
  apply nan_div_l, nan_mult_r, D.
Qed.
Lemma ir_nan pbase renpoint nf mq : In (nf, mq) quarks -> nan (fst (zero_temp_wrapper_f64 c64_zero (integ (pbase [*] mg) mq) mq mu)) ->
  nan (ir_zero_temp_f64 vac integ mg om mu quarks pbase renpoint).
Proof. intros Hin H. unfold ir_zero_temp_f64. apply nan_div_l. now apply prop_nan with nf mq. Qed.
End P.

(** the density *)
Lemma lit_int z : (Z.abs z <= 2 ^ 53)%Z -> fin (f64_lit z 1) /\ val (f64_lit z 1) = IZR z.
Proof.
  intros H. destruct (of_Z_ok z H) as (F1 & V1), (of_Z_ok 1 ltac:(simpl; lia)) as (F2 & V2). unfold f64_lit.
  assert (B : Rabs (IZR z) <= bpow radix2 53) by (rewrite <- abs_IZR; change (bpow radix2 53) with (IZR (2 ^ 53)); now apply IZR_le).
  destruct (div_ok (f64_of_Z z) (f64_of_Z 1) 53 F1) as (F & V); [rewrite V2; lra|lia|rewrite V1, V2; replace (IZR z / 1) with (IZR z) by field; exact B|].
  split; auto. rewrite V, V1, V2. replace (IZR z / 1) with (IZR z) by field. rewrite <- V1. apply rnd_val.
Qed.
Lemma den_ok : fin (f64_lit 3 1 [*] (f64_PI [*] f64_PI)) /\ 1 <= val (f64_lit 3 1 [*] (f64_PI [*] f64_PI)).
Proof.
  assert (F : fin (f64_lit 3 1 [*] (f64_PI [*] f64_PI))) by (vm_compute; reflexivity). split; auto. destruct (lit_int 1 ltac:(simpl; lia)) as (F1 & V1). rewrite <- V1. left. apply lt_ok; [exact F1|exact F|vm_compute; reflexivity].
Qed.
Lemma fm_le m mu e : fin m -> fin mu -> (0 <= e <= 250)%Z -> Rabs (val m) <= bpow radix2 e -> Rabs (val mu) <= bpow radix2 e -> Rabs (val m) < Rabs (val mu) ->
  fin (fermi_momentum_f64 m mu) /\ 0 <= val (fermi_momentum_f64 m mu) <= bpow radix2 e.
Proof.
  intros Fm Fmu He Bm Bmu H. assert (Sm : small m) by (apply Rle_trans with (1 := Bm), bpow_le; lia). assert (Smu : small mu) by (apply Rle_trans with (1 := Bmu), bpow_le; lia).
  destruct (fm_above m mu Fm Fmu Sm Smu H) as (F & P & _). split; [|split]; auto.
  destruct (radicand_ok m mu Fm Fmu Sm Smu) as (Fr & Vr). pose proof (rad_above m mu Fm Fmu H) as P'. rewrite <- Vr in P'. destruct (sqrt_ok _ Fr P') as (_ & Vs).
  change (b64_sqrt mode_NE (radicand m mu)) with (fermi_momentum_f64 m mu) in Vs. rewrite Vs.
  assert (R : val (radicand m mu) <= bpow radix2 (e + e)).
  { rewrite Vr. apply Rle_trans with (rnd (val mu * val mu)). { apply rnd_mono. pose proof (rnd_nonneg (val m * val m) ltac:(nra)). lra. }
    apply Rle_trans with (1 := Rle_abs _). apply rnd_big; [lia|]. rewrite Rabs_mult, bpow_plus. apply Rmult_le_compat; auto; apply Rabs_pos. }
  apply Rle_trans with (1 := Rle_abs _). apply rnd_big; [lia|]. rewrite Rabs_pos_eq by apply sqrt_pos. rewrite bpow_plus in R.
  rewrite <- (sqrt_square (bpow radix2 e)) by apply bpow_ge_0. now apply sqrt_le_1_alt.
Qed.
Lemma pos_mult x y a b : fin x -> fin y -> 0 <= val x <= bpow radix2 a -> 0 <= val y <= bpow radix2 b -> (-1000 <= a + b <= 1020)%Z -> fin (x [*] y) /\ 0 <= val (x [*] y) <= bpow radix2 (a + b).
Proof.
  intros Fx Fy Hx Hy He. assert (B : 0 <= val x * val y <= bpow radix2 (a + b)). { rewrite bpow_plus. split; [apply Rmult_le_pos; lra|apply Rmult_le_compat; lra]. }
  destruct (mult_ok x y (a + b) Fx Fy He) as (F & V); [rewrite Rabs_pos_eq; lra|]. rewrite V. split; auto. split; [apply rnd_nonneg; lra|]. apply Rle_trans with (1 := Rle_abs _). apply rnd_big; auto. rewrite Rabs_pos_eq; lra.
Qed.
Lemma density_ok nc m mu : fin m -> fin mu -> (Z.of_nat nc <= 2 ^ 32)%Z -> Rabs (val m) <= bpow radix2 250 -> Rabs (val mu) <= bpow radix2 250 ->
  let n := charge_density_zero_temp_f64 nc m mu in
  fin n /\ (0 <= val mu -> 0 <= val n) /\ (val mu <= 0 -> val n <= 0) /\ (Rabs (val mu) <= Rabs (val m) -> val n = 0).
Proof.
  intros Fm Fmu Hn Bm Bmu. cbv zeta. unfold charge_density_zero_temp_f64. destruct (abs_ok m Fm) as (A1 & B1), (abs_ok mu Fmu) as (A2 & B2).
  unfold f64_le, b64_compare. rewrite (Bcompare_correct 53 1024 _ _ A2 A1). fold (val (b64_abs mu)) (val (b64_abs m)). rewrite B1, B2.
  destruct (of_nat_ok 0 ltac:(simpl; lia)) as (F0 & V0). simpl INR in V0.
  destruct (Rcompare_spec (Rabs (val mu)) (Rabs (val m))) as [H|H|H]; [unfold f64_zero; rewrite V0; repeat split; auto; lra|unfold f64_zero; rewrite V0; repeat split; auto; lra|].
  destruct (fm_le m mu 250 Fm Fmu ltac:(lia) Bm Bmu H) as (Ff & Pf).
  destruct (pos_mult _ _ 250 250 Ff Ff Pf Pf ltac:(lia)) as (F2 & P2). destruct (pos_mult _ _ 500 250 F2 Ff P2 Pf ltac:(lia)) as (F3 & P3).
  set (k3 := fermi_momentum_f64 m mu [*] fermi_momentum_f64 m mu [*] fermi_momentum_f64 m mu) in *. change (500 + 250)%Z with 750%Z in P3. destruct den_ok as (Fd & Hd). set (den := f64_lit 3 1 [*] (f64_PI [*] f64_PI)) in *.
  destruct (of_nat_ok nc ltac:(lia)) as (Fn & Vn).
  assert (Bn : 0 <= val (f64_of_nat nc) <= bpow radix2 32). { rewrite Vn. split; [apply pos_INR|]. rewrite INR_IZR_INZ. change (bpow radix2 32) with (IZR (2 ^ 32)). now apply IZR_le. }
  set (s := if f64_gt mu m then f64_one else f64_lit (-1) 1).
  assert (S : fin s /\ (val s = 1 /\ 0 < val mu \/ val s = -1 /\ val mu < 0)).
  { unfold s, f64_gt, b64_compare. rewrite (Bcompare_correct 53 1024 mu m Fmu Fm). fold (val mu) (val m).
    destruct (Rcompare_spec (val mu) (val m)) as [C|C|C].
    - destruct (lit_int (-1) ltac:(simpl; lia)) as (Fo & Vo). split; auto. right. split; auto. destruct (Rle_lt_dec 0 (val mu)) as [Q|Q]; auto. rewrite (Rabs_pos_eq (val mu)), (Rabs_pos_eq (val m)) in H by lra. lra.
    - rewrite C in H. lra.
    - destruct (lit_int 1 ltac:(simpl; lia)) as (Fo & Vo). split; auto. left. split; auto. destruct (Rle_lt_dec (val mu) 0) as [Q|Q]; auto. rewrite (Rabs_left1 (val mu)), (Rabs_left1 (val m)) in H by lra. lra. }
  destruct S as (Fs & Vs).
  assert (T : fin (f64_of_nat nc [*] s) /\ val (f64_of_nat nc [*] s) = val (f64_of_nat nc) * val s).
  { destruct (mult_ok (f64_of_nat nc) s 32 Fn Fs ltac:(lia)) as (F & V).
    { rewrite Rabs_mult, (Rabs_pos_eq (val (f64_of_nat nc))) by lra. destruct Vs as [(E & _)|(E & _)]; rewrite E; [rewrite Rabs_R1|rewrite Rabs_left by lra]; lra. }
    split; auto. rewrite V. destruct Vs as [(E & _)|(E & _)]; rewrite E.
    - rewrite Rmult_1_r. apply rnd_val.
    - replace (val (f64_of_nat nc) * -1) with (- val (f64_of_nat nc)) by ring. apply round_generic; [apply valid_rnd_N|]. apply generic_format_opp, (generic_format_B2R 53 1024). }
  destruct T as (Ft & Vt).
  assert (W : Rabs (val (f64_of_nat nc [*] s) * val k3) <= bpow radix2 782).
  { rewrite Vt, !Rabs_mult, (Rabs_pos_eq (val k3)), (Rabs_pos_eq (val (f64_of_nat nc))) by lra. replace (Rabs (val s)) with 1 by (destruct Vs as [(E & _)|(E & _)]; rewrite E; [rewrite Rabs_R1|rewrite Rabs_left by lra]; lra).
    change 782%Z with (32 + 750)%Z. rewrite bpow_plus, Rmult_1_r. apply Rmult_le_compat; lra. }
  destruct (mult_ok (f64_of_nat nc [*] s) k3 782 Ft F3 ltac:(lia) W) as (Fw & Vw).
  assert (Wr : Rabs (val (f64_of_nat nc [*] s [*] k3)) <= bpow radix2 782) by (rewrite Vw; apply rnd_big; [lia|exact W]).
  destruct (div_ok (f64_of_nat nc [*] s [*] k3) den 782 Fw) as (Fz & Vz); [lra|lia| |].
  { unfold Rdiv. rewrite Rabs_mult, (Rabs_pos_eq (/ val den)) by (left; apply Rinv_0_lt_compat; lra). apply Rle_trans with (Rabs (val (f64_of_nat nc [*] s [*] k3)) * 1); [|lra]. apply Rmult_le_compat_l; [apply Rabs_pos|]. rewrite <- Rinv_1. apply Rinv_le_contravar; lra. }
  split; [exact Fz|]. assert (I : 0 < / val den) by (apply Rinv_0_lt_compat; lra). rewrite Vz.
  assert (N3 : 0 <= val (f64_of_nat nc) * val k3) by (apply Rmult_le_pos; lra).
  assert (Neg : forall x, x <= 0 -> rnd x <= 0) by (intros x Hx; apply Rle_trans with (rnd 0); [now apply rnd_mono|rewrite rnd_0; lra]).
  split; [|split]; [| |intros Q; lra]; intros Q.
  - apply rnd_nonneg. apply Rmult_le_pos; [|lra]. rewrite Vw. apply rnd_nonneg. rewrite Vt. destruct Vs as [(E & _)|(_ & E)]; [rewrite E, Rmult_1_r; exact N3|exfalso; lra].
  - apply Neg. assert (X : val (f64_of_nat nc [*] s [*] k3) <= 0). { rewrite Vw. apply Neg. rewrite Vt. destruct Vs as [(_ & E)|(E & _)]; [exfalso; lra|rewrite E; replace (val (f64_of_nat nc) * -1 * val k3) with (- (val (f64_of_nat nc) * val k3)) by ring; lra]. } unfold Rdiv. nra.
Qed.
