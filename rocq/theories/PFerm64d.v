(** * C94: relative accuracy of the zero-temperature charge density *)
From Coq Require Import ZArith Reals Psatz Lia List Bool QArith Qreals.
From Flocq Require Import Core IEEE754.BinarySingleNaN IEEE754.Binary IEEE754.Bits Relative.
From Verif Require Import MFloat MGrid MUtils MTc MCommon MFermi SpecGrid SpecFermi PGrid PGrid2 PGrid3 PGrid4 PFerm64 PFerm64b.
Import List ListNotations.
Open Scope R_scope.

(** Bounds of pi by Machin's formula, computed in Q. *)
Fixpoint qpow (x : Q) (n : nat) : Q := match n with O => 1%Q | S n => (x * qpow x n)%Q end.
Definition qterm (n : nat) : Q :=
  Qred (qpow (-1 # 1) n * ((2 # 1) * (qpow (1 # 3) (2 * n + 1) * (1 # Pos.of_nat (2 * n + 1))) + qpow (1 # 7) (2 * n + 1) * (1 # Pos.of_nat (2 * n + 1)))).
Fixpoint qsum (n : nat) : Q := match n with O => qterm 0 | S n' => Qred (qsum n' + qterm (S n')) end.
Lemma qpow_R x n : Q2R (qpow x n) = Q2R x ^ n.
Proof. induction n; simpl; [unfold Q2R; simpl; lra|rewrite Q2R_mult, IHn; reflexivity]. Qed.
Lemma qfrac k : (0 < k)%nat -> Q2R (1 # Pos.of_nat k) = / INR k.
Proof. intros H. unfold Q2R. cbn [Qnum Qden]. rewrite Rmult_1_l, INR_IZR_INZ. do 2 f_equal. rewrite <- (Nat2Pos.id k) at 2 by lia. now rewrite positive_nat_Z. Qed.
Lemma q3 : Q2R (1 # 3) = / 3. Proof. unfold Q2R. simpl. lra. Qed.
Lemma q7 : Q2R (1 # 7) = / 7. Proof. unfold Q2R. simpl. lra. Qed.
Lemma qm1 : Q2R (-1 # 1) = -1. Proof. unfold Q2R. simpl. lra. Qed.
Lemma q2 : Q2R (2 # 1) = 2. Proof. unfold Q2R. simpl. lra. Qed.
Lemma qterm_R n : Q2R (qterm n) = tg_alt PI_2_3_7_tg n.
Proof.
  unfold qterm. rewrite (Qeq_eqR _ _ (Qred_correct _)). rewrite Q2R_mult, Q2R_plus, !Q2R_mult, !qpow_R, !qfrac by lia. rewrite q3, q7, qm1, q2. reflexivity.
Qed.
Lemma qsum_R n : Q2R (qsum n) = sum_f_R0 (tg_alt PI_2_3_7_tg) n.
Proof. induction n as [|n IH]; [apply qterm_R|]. cbn [qsum sum_f_R0]. rewrite (Qeq_eqR _ _ (Qred_correct _)), Q2R_plus, IH, qterm_R. reflexivity. Qed.
Definition pi_lo : Q := 314159265358979278 # 100000000000000000.
Definition pi_hi : Q := 314159265358979345 # 100000000000000000.
Lemma PI_near : Q2R pi_lo <= PI <= Q2R pi_hi.
Proof.
  pose proof (PI_2_3_7_ineq 8) as (A & B). rewrite <- qsum_R in A, B.
  assert (L : (pi_lo * (1 # 4) <= qsum (S (2 * 8)))%Q) by (apply Qle_bool_imp_le; vm_compute; reflexivity).
  assert (H : (qsum (2 * 8) <= pi_hi * (1 # 4))%Q) by (apply Qle_bool_imp_le; vm_compute; reflexivity).
  apply Qle_Rle in L, H. rewrite Q2R_mult in L, H. replace (Q2R (1 # 4)) with (/ 4) in L, H by (unfold Q2R; simpl; lra). lra.
Qed.
Definition is_float (x : F64) (m e : Z) : bool :=
  match x with B754_finite s m' e' _ => Z.eqb (if s then Z.neg m' else Z.pos m') m && Z.eqb e' e | _ => false end.
Lemma is_float_ok x m e : is_float x m e = true -> fin x /\ val x = IZR m * bpow radix2 e.
Proof.
  destruct x as [s|s|s p H|s m' e' H]; try discriminate. simpl. intros E. apply andb_true_iff in E. destruct E as (E1 & E2). apply Z.eqb_eq in E1, E2. subst e'. split; [reflexivity|].
  unfold val, B2R, F2R. simpl. rewrite <- E1. destruct s; reflexivity.
Qed.
Lemma PI_val : fin f64_PI /\ val f64_PI = 7074237752028440 * bpow radix2 (-51).
Proof. apply is_float_ok. vm_compute. reflexivity. Qed.

(** [acc n x y]: y is x up to n relative roundings. *)
Definition acc (n : nat) (x y : R) : Prop := exists t, y = x * t /\ (1 - u) ^ n <= t <= / (1 - u) ^ n.
Lemma u_range : 0 < u <= / 1000. Proof. split; [apply u_pos|apply u_small]. Qed.
Lemma pw n : 0 < (1 - u) ^ n <= 1.
Proof. pose proof u_range. split; [apply pow_lt; lra|]. apply Rle_trans with (1 ^ n); [apply pow_incr; lra|rewrite pow1; lra]. Qed.
Lemma acc_refl x : acc 0 x x. Proof. exists 1. simpl. rewrite Rinv_1. lra. Qed.
Lemma acc_mult a b x x' y y' : acc a x y -> acc b x' y' -> acc (a + b) (x * x') (y * y').
Proof.
  intros (t & -> & Ht) (t' & -> & Ht'). exists (t * t'). split; [ring|]. pose proof (pw a). pose proof (pw b). rewrite pow_add, Rinv_mult_distr by lra.
  split; apply Rmult_le_compat; lra.
Qed.
Lemma acc_inv a x y : acc a x y -> x <> 0 -> acc a (/ x) (/ y).
Proof.
  intros (t & -> & Ht) Hx. pose proof (pw a). assert (t <> 0) by lra. exists (/ t). split; [now field|]. split.
  - rewrite <- (Rinv_involutive ((1 - u) ^ a)) by lra. apply Rinv_le_contravar; lra.
  - apply Rinv_le_contravar; lra.
Qed.
Lemma acc_trans a b x y z : acc a x y -> acc b y z -> acc (a + b) x z.
Proof.
  intros (t & -> & Ht) (t' & -> & Ht'). exists (t * t'). split; [ring|]. pose proof (pw a). pose proof (pw b). rewrite pow_add, Rinv_mult_distr by lra.
  split; apply Rmult_le_compat; lra.
Qed.
Lemma acc_rnd x : bpow radix2 (-1022) <= Rabs x -> acc 1 x (rnd x).
Proof.
  intros H. assert (P53 : Prec_gt_0 53) by reflexivity.
  destruct (relative_error_N_FLT_ex radix2 (-1074) 53 eq_refl (fun z => negb (Z.even z)) x H) as (e & He & E).
  assert (Q : Rabs e <= u). { rewrite <- half_u. exact He. }
  exists (1 + e). split; [exact E|]. rewrite pow_1. pose proof u_range. apply Rabs_le_inv in Q. split; [lra|].
  apply Rmult_le_reg_l with (1 - u); [lra|]. rewrite Rinv_r by lra. nra.
Qed.
Lemma acc_final x y : acc 8 x y -> exists d, Rabs d <= bpow radix2 (-49) /\ y = x * (1 + d).
Proof.
  intros (t & -> & Ht). exists (t - 1). split; [|ring]. replace (bpow radix2 (-49)) with (16 * u) by (unfold u; change (-49)%Z with (4 + -53)%Z; rewrite bpow_plus; reflexivity). pose proof u_range as U.
  assert (B : 1 - 8 * u <= (1 - u) ^ 8).
  { assert (Q : forall n, 1 - INR n * u <= (1 - u) ^ n). { induction n as [|n IH]; [simpl; lra|]. rewrite S_INR. simpl pow. pose proof (pos_INR n). pose proof (pw n). nra. } specialize (Q 8%nat). simpl INR in Q. lra. }
  assert (I : / (1 - u) ^ 8 <= 1 + 16 * u). { apply Rmult_le_reg_l with ((1 - u) ^ 8); [apply pw|]. rewrite Rinv_r by (pose proof (pw 8); lra). nra. }
  apply Rabs_le. lra.
Qed.
Lemma acc_PI : acc 1 PI (val f64_PI).
Proof.
  pose proof PI_near as (A & B). destruct PI_val as (_ & V). pose proof PI_RGT_0. exists (val f64_PI / PI). split; [field; lra|]. rewrite pow_1, V. clear V.
  unfold Q2R, pi_lo, pi_hi in A, B. cbn [Qnum Qden] in A, B. assert (U : u = / 9007199254740992) by (unfold u; simpl; lra).
  assert (W : bpow radix2 (-51) = / 2251799813685248) by (simpl; lra). rewrite W, U. split.
  - apply Rmult_le_reg_r with PI; [lra|]. unfold Rdiv. rewrite (Rmult_assoc _ (/ PI)), Rinv_l by lra. lra.
  - apply Rmult_le_reg_r with PI; [lra|]. unfold Rdiv. rewrite (Rmult_assoc _ (/ PI)), Rinv_l by lra.
    replace (/ (1 - / 9007199254740992)) with (9007199254740992 / 9007199254740991) by (field). lra.
Qed.
Lemma acc_ge n x y e : acc n x y -> (n <= 7)%nat -> bpow radix2 e <= Rabs x -> bpow radix2 (e - 1) <= Rabs y.
Proof.
  intros (t & -> & Ht) Hn H. rewrite Rabs_mult. replace (e - 1)%Z with (e + -1)%Z by lia. rewrite bpow_plus. pose proof (pw n) as P.
  apply Rmult_le_compat; auto; try apply bpow_ge_0. rewrite Rabs_pos_eq by lra. apply Rle_trans with (2 := proj1 Ht). simpl (bpow radix2 (-1)).
  assert (Q : forall k, 1 - INR k * u <= (1 - u) ^ k). { pose proof u_range. induction k as [|k IH]; [simpl; lra|]. rewrite S_INR. simpl pow. pose proof (pos_INR k). pose proof (pw k). nra. }
  apply Rle_trans with (2 := Q n). pose proof u_range. assert (INR n <= 7) by (apply (le_INR n 7) in Hn; simpl in Hn; lra). pose proof (pos_INR n). change (Z.pow_pos 2 1) with 2%Z. nra.
Qed.
Lemma acc_mul_f64 a b x y X Y e : fin x -> fin y -> acc a X (val x) -> acc b Y (val y) -> (-1000 <= e <= 1020)%Z -> Rabs (val x * val y) <= bpow radix2 e -> bpow radix2 (-1022) <= Rabs (val x * val y) ->
  fin (x [*] y) /\ acc (a + b + 1) (X * Y) (val (x [*] y)).
Proof. intros Fx Fy A B He H1 H2. destruct (mult_ok x y e Fx Fy He H1) as (F & V). split; auto. rewrite V. eapply acc_trans; [apply acc_mult; eassumption|now apply acc_rnd]. Qed.
Lemma bp2 a b x y : bpow radix2 a <= x -> bpow radix2 b <= y -> bpow radix2 (a + b) <= x * y.
Proof. intros. rewrite bpow_plus. apply Rmult_le_compat; auto; apply bpow_ge_0. Qed.
Lemma bp2' a b x y : 0 <= x <= bpow radix2 a -> 0 <= y <= bpow radix2 b -> x * y <= bpow radix2 (a + b).
Proof. intros. rewrite bpow_plus. apply Rmult_le_compat; lra. Qed.
Lemma fold_sq x : Rabs x * Rabs x = Rabs (x * x). Proof. symmetry. apply Rabs_mult. Qed.

Lemma den_acc : fin (f64_lit 3 1 [*] (f64_PI [*] f64_PI)) /\ 1 <= val (f64_lit 3 1 [*] (f64_PI [*] f64_PI)) <= 64 /\ acc 4 (3 * (PI * PI)) (val (f64_lit 3 1 [*] (f64_PI [*] f64_PI))).
Proof.
  destruct PI_val as (FP & VP), (lit_int 3 ltac:(simpl; lia)) as (F3 & V3), (lit_int 64 ltac:(simpl; lia)) as (F4 & V4). destruct den_ok as (Fd & Hd).
  assert (W : bpow radix2 (-51) = / 2251799813685248) by (simpl; lra). rewrite W in VP.
  assert (P : 3 <= val f64_PI <= 4) by (rewrite VP; lra).
  assert (B1 : Rabs (val f64_PI * val f64_PI) <= bpow radix2 4). { rewrite Rabs_pos_eq by nra. change (bpow radix2 4) with 16. nra. }
  assert (L1 : bpow radix2 (-1022) <= Rabs (val f64_PI * val f64_PI)). { rewrite Rabs_pos_eq by nra. apply Rle_trans with (bpow radix2 0); [apply bpow_le; lia|]. change (bpow radix2 0) with 1. nra. }
  destruct (acc_mul_f64 1 1 _ _ _ _ 4 FP FP acc_PI acc_PI ltac:(lia) B1 L1) as (F2 & A2).
  destruct (mult_ok _ _ 4 FP FP ltac:(lia) B1) as (_ & V2).
  assert (R2 : 1 <= val (f64_PI [*] f64_PI) <= 16).
  { rewrite V2. destruct (lit_int 1 ltac:(simpl; lia)) as (_ & Vo), (lit_int 16 ltac:(simpl; lia)) as (_ & Vs). rewrite <- Vo, <- Vs. rewrite <- (rnd_val (f64_lit 1 1)), <- (rnd_val (f64_lit 16 1)), Vo, Vs. split; apply rnd_mono; nra. }
  assert (B3 : Rabs (val (f64_lit 3 1) * val (f64_PI [*] f64_PI)) <= bpow radix2 6). { rewrite V3, Rabs_pos_eq by nra. change (bpow radix2 6) with 64. nra. }
  assert (L3 : bpow radix2 (-1022) <= Rabs (val (f64_lit 3 1) * val (f64_PI [*] f64_PI))). { rewrite V3, Rabs_pos_eq by nra. apply Rle_trans with (bpow radix2 0); [apply bpow_le; lia|]. change (bpow radix2 0) with 1. nra. }
  destruct (acc_mul_f64 0 3 _ _ 3 _ 6 F3 F2 ltac:(rewrite V3; apply acc_refl) A2 ltac:(lia) B3 L3) as (F5 & A5).
  split; [exact Fd|]. split; [|exact A5]. split; [exact Hd|].
  destruct (mult_ok _ _ 6 F3 F2 ltac:(lia) B3) as (_ & ->). apply Rle_trans with (1 := Rle_abs _). change 64 with (bpow radix2 6). apply rnd_big; [lia|exact B3].
Qed.
Lemma density_acc nc m mu : fin m -> fin mu -> (0 < nc)%nat -> (Z.of_nat nc <= 2 ^ 32)%Z -> Rabs (val m) <= bpow radix2 250 -> Rabs (val mu) <= bpow radix2 250 ->
  Rabs (val m) < Rabs (val mu) -> bpow radix2 (-300) <= val (fermi_momentum_f64 m mu) ->
  exists d, Rabs d <= bpow radix2 (-49) /\
    val (charge_density_zero_temp_f64 nc m mu) = val mu / Rabs (val mu) * INR nc * val (fermi_momentum_f64 m mu) ^ 3 / (3 * PI ^ 2) * (1 + d).
Proof.
  intros Fm Fmu Hp Hn Bm Bmu H L. unfold charge_density_zero_temp_f64. destruct (abs_ok m Fm) as (A1 & B1), (abs_ok mu Fmu) as (A2 & B2).
  unfold f64_le, b64_compare. rewrite (Bcompare_correct 53 1024 _ _ A2 A1). fold (val (b64_abs mu)) (val (b64_abs m)). rewrite B1, B2, (Rcompare_Gt _ _ H).
  destruct (fm_le m mu 250 Fm Fmu ltac:(lia) Bm Bmu H) as (Ff & Pf). set (k := fermi_momentum_f64 m mu) in *. cbv zeta.
  destruct den_acc as (Fd & Hd & Ad). set (den := f64_lit 3 1 [*] (f64_PI [*] f64_PI)) in *.
  assert (Q1 : 0 <= val k * val k <= bpow radix2 500) by (split; [nra|apply (bp2' 250 250); lra]).
  assert (Q2 : bpow radix2 (-600) <= val k * val k) by (apply (bp2 (-300) (-300)); lra).
  destruct (acc_mul_f64 0 0 k k _ _ 500 Ff Ff (acc_refl _) (acc_refl _) ltac:(lia)) as (F2 & C2); [rewrite Rabs_pos_eq; lra|rewrite Rabs_pos_eq by lra; apply Rle_trans with (2 := Q2), bpow_le; lia|].
  destruct (pos_mult _ _ 250 250 Ff Ff Pf Pf ltac:(lia)) as (_ & P2). change (250 + 250)%Z with 500%Z in P2.
  assert (G2 : bpow radix2 (-601) <= val (k [*] k)). { rewrite <- (Rabs_pos_eq (val (k [*] k))) by lra. apply (acc_ge _ _ _ (-600) C2); [lia|rewrite Rabs_pos_eq; lra]. }
  assert (Q3 : 0 <= val (k [*] k) * val k <= bpow radix2 750) by (split; [apply Rmult_le_pos; lra|apply (bp2' 500 250); lra]).
  assert (Q4 : bpow radix2 (-901) <= val (k [*] k) * val k) by (apply (bp2 (-601) (-300)); lra).
  destruct (acc_mul_f64 1 0 (k [*] k) k _ _ 750 F2 Ff C2 (acc_refl _) ltac:(lia)) as (F3 & C3); [rewrite Rabs_pos_eq; lra|rewrite Rabs_pos_eq by lra; apply Rle_trans with (2 := Q4), bpow_le; lia|].
  destruct (pos_mult _ _ 500 250 F2 Ff P2 Pf ltac:(lia)) as (_ & P3). change (500 + 250)%Z with 750%Z in P3. set (k3 := k [*] k [*] k) in *.
  assert (G3 : bpow radix2 (-902) <= val k3).
  { rewrite <- (Rabs_pos_eq (val k3)) by lra. unfold k3. pose proof (acc_rnd (val (k [*] k) * val k)) as C. destruct (mult_ok _ _ 750 F2 Ff ltac:(lia)) as (_ & V); [rewrite Rabs_pos_eq; lra|]. rewrite V.
    apply (acc_ge 1 (val (k [*] k) * val k) _ (-901)); [apply C; rewrite Rabs_pos_eq by lra; apply Rle_trans with (2 := Q4), bpow_le; lia|lia|rewrite Rabs_pos_eq; lra]. }
  destruct (of_nat_ok nc ltac:(lia)) as (Fn & Vn).
  assert (Bn : 1 <= val (f64_of_nat nc) <= bpow radix2 32). { rewrite Vn. split; [apply (le_INR 1 nc); lia|]. rewrite INR_IZR_INZ. change (bpow radix2 32) with (IZR (2 ^ 32)). now apply IZR_le. }
  set (s := if f64_gt mu m then f64_one else f64_lit (-1) 1).
  assert (S : fin s /\ val s = val mu / Rabs (val mu) /\ (val s = 1 \/ val s = -1)).
  { unfold s, f64_gt, b64_compare. rewrite (Bcompare_correct 53 1024 mu m Fmu Fm). fold (val mu) (val m).
    destruct (Rcompare_spec (val mu) (val m)) as [C|C|C].
    - destruct (lit_int (-1) ltac:(simpl; lia)) as (Fo & Vo). split; auto. rewrite Vo. assert (N : val mu < 0). { destruct (Rle_lt_dec 0 (val mu)) as [Q|Q]; auto. rewrite (Rabs_pos_eq (val mu)), (Rabs_pos_eq (val m)) in H by lra. lra. } rewrite Rabs_left by auto. split; [field; lra|auto].
    - rewrite C in H. lra.
    - destruct (lit_int 1 ltac:(simpl; lia)) as (Fo & Vo). split; auto. fold f64_one in Vo. rewrite Vo. assert (N : 0 < val mu). { destruct (Rle_lt_dec (val mu) 0) as [Q|Q]; auto. rewrite (Rabs_left1 (val mu)), (Rabs_left1 (val m)) in H by lra. lra. } rewrite Rabs_pos_eq by lra. split; [field; lra|auto]. }
  destruct S as (Fs & Es & Vs).
  assert (As : Rabs (val s) = 1) by (destruct Vs as [E|E]; rewrite E; [apply Rabs_R1|rewrite Rabs_left; lra]).
  assert (T : fin (f64_of_nat nc [*] s) /\ val (f64_of_nat nc [*] s) = val (f64_of_nat nc) * val s).
  { destruct (mult_ok (f64_of_nat nc) s 32 Fn Fs ltac:(lia)) as (F & V). { rewrite Rabs_mult, (Rabs_pos_eq (val (f64_of_nat nc))), As by lra. lra. }
    split; auto. rewrite V. destruct Vs as [E|E]; rewrite E.
    - rewrite Rmult_1_r. apply rnd_val.
    - replace (val (f64_of_nat nc) * -1) with (- val (f64_of_nat nc)) by ring. apply round_generic; [apply valid_rnd_N|]. apply generic_format_opp, (generic_format_B2R 53 1024). }
  destruct T as (Ft & Vt). assert (At : Rabs (val (f64_of_nat nc [*] s)) = val (f64_of_nat nc)) by (rewrite Vt, Rabs_mult, As, Rabs_pos_eq by lra; ring).
  assert (W : Rabs (val (f64_of_nat nc [*] s) * val k3) <= bpow radix2 782). { rewrite Rabs_mult, At, (Rabs_pos_eq (val k3)) by lra. apply (bp2' 32 750); lra. }
  assert (Wl : bpow radix2 (-902) <= Rabs (val (f64_of_nat nc [*] s) * val k3)). { rewrite Rabs_mult, At, (Rabs_pos_eq (val k3)) by lra. apply (bp2 0 (-902)); [apply Bn|lra]. }
  destruct (acc_mul_f64 0 2 _ k3 _ _ 782 Ft F3 (acc_refl _) C3 ltac:(lia) W) as (F5 & C5); [apply Rle_trans with (2 := Wl), bpow_le; lia|].
  destruct (mult_ok _ k3 782 Ft F3 ltac:(lia) W) as (_ & Vw).
  set (num := f64_of_nat nc [*] s [*] k3) in *.
  assert (Wr : Rabs (val num) <= bpow radix2 782) by (rewrite Vw; apply rnd_big; [lia|exact W]).
  assert (Wq : bpow radix2 (-903) <= Rabs (val num)). { rewrite Vw. apply (acc_ge 1 _ _ (-902) (acc_rnd _ ltac:(apply Rle_trans with (2 := Wl), bpow_le; lia))); [lia|exact Wl]. }
  assert (I : / 64 <= / val den <= 1). { split; [apply Rinv_le_contravar; lra|rewrite <- Rinv_1; apply Rinv_le_contravar; lra]. }
  assert (D : Rabs (val num / val den) = Rabs (val num) * / val den). { unfold Rdiv. rewrite Rabs_mult, (Rabs_pos_eq (/ val den)) by lra. reflexivity. }
  destruct (div_ok num den 782 F5) as (Fz & Vz); [lra|lia|rewrite D; pose proof (Rabs_pos (val num)); nra|].
  change (f64_of_nat nc [*] s [*] (k [*] k [*] k)) with num. fold den. rewrite Vz.
  assert (Z : acc 8 (val (f64_of_nat nc [*] s) * (val k * val k * val k) * / (3 * (PI * PI))) (rnd (val num / val den))).
  { pose proof PI_RGT_0. apply (acc_trans 7 1 _ (val num / val den)).
    - unfold Rdiv. apply (acc_mult 3 4); [exact C5|]. apply acc_inv; [exact Ad|]. apply Rmult_integral_contrapositive; split; [lra|apply Rmult_integral_contrapositive; lra].
    - apply acc_rnd. rewrite D. apply Rle_trans with (bpow radix2 (-903 + -6)); [apply bpow_le; lia|]. apply bp2; [exact Wq|]. change (bpow radix2 (-6)) with (/ 64). apply I. }
  destruct (acc_final _ _ Z) as (d & Hdd & E). exists d. split; [exact Hdd|]. rewrite E, Vt, Vn, Es. unfold Rdiv. simpl pow. pose proof PI_RGT_0. f_equal. rewrite !Rmult_1_r. ring.
Qed.
