(** * C95: accuracy of energies and thermal distributions in binary64 *)
From Coq Require Import ZArith Reals Psatz Lia List Bool.
From Flocq Require Import Core IEEE754.BinarySingleNaN IEEE754.Binary IEEE754.Bits Relative.
From Verif Require Import MFloat MGrid MFermi MDistr64 SpecGrid SpecFermi SpecDistr64 PGrid PGrid2 PGrid3 PFerm64 PFerm64b PFerm64d PDistr64.
Open Scope R_scope.

Lemma w_le a b x y : within a x y -> a <= b -> within b x y.
Proof. unfold within. intros H L. apply Rle_trans with (1 := H). apply Rmult_le_compat_r; [apply Rabs_pos|auto]. Qed.
Lemma w_trans a b x y z : 0 <= b -> within a x y -> within b y z -> within (a + b + a * b) x z.
Proof.
  unfold within. intros Hb H1 H2. replace (z - x) with ((z - y) + (y - x)) by ring. apply Rle_trans with (1 := Rabs_triang _ _).
  assert (Rabs y <= Rabs x + a * Rabs x). { replace y with (x + (y - x)) at 1 by ring. apply Rle_trans with (1 := Rabs_triang _ _). lra. } nra.
Qed.
Lemma w_rnd x : bpow radix2 (-1022) <= Rabs x -> within u x (rnd x).
Proof.
  intros H. assert (P53 : Prec_gt_0 53) by reflexivity.
  destruct (relative_error_N_FLT_ex radix2 (-1074) 53 eq_refl (fun z => negb (Z.even z)) x H) as (e & He & E). rewrite half_u in He.
  unfold within. change (rnd x) with (round radix2 (FLT_exp (-1074) 53) ZnearestE x). rewrite E. replace (x * (1 + e) - x) with (e * x) by ring. rewrite Rabs_mult. apply Rmult_le_compat_r; [apply Rabs_pos|exact He].
Qed.
Lemma w_inv a x y : 0 < x -> 0 <= a <= / 100 -> within a x y -> 0 < y /\ within (a * (1 + 2 * a)) (/ x) (/ y).
Proof.
  unfold within. intros Hx Ha H. rewrite (Rabs_pos_eq x) in H by lra. apply Rabs_le_inv in H as H'. assert (Y : x * (1 - a) <= y) by lra. assert (P : 0 < y) by nra. split; auto.
  replace (/ y - / x) with (- ((y - x) * / x) * / y) by (field; lra). rewrite Rabs_mult, Rabs_Ropp, Rabs_mult, !(Rabs_pos_eq (/ _)) by (left; apply Rinv_0_lt_compat; lra).
  assert (I : 0 < / x) by (apply Rinv_0_lt_compat; lra).
  assert (D : Rabs (y - x) * / x <= a). { apply Rmult_le_reg_r with x; auto. rewrite Rmult_assoc, Rinv_l by lra. lra. }
  assert (J : / y <= (1 + 2 * a) * / x). { apply Rmult_le_reg_l with y; auto. rewrite Rinv_r by lra. apply Rle_trans with (x * (1 - a) * ((1 + 2 * a) * / x)); [replace (x * (1 - a) * ((1 + 2 * a) * / x)) with ((1 - a) * (1 + 2 * a)) by (field; lra); nra|]. apply Rmult_le_compat_r; [apply Rmult_le_pos; lra|auto]. }
  rewrite (Rmult_assoc a). apply Rmult_le_compat; auto; [apply Rmult_le_pos; [apply Rabs_pos|lra]|left; now apply Rinv_0_lt_compat].
Qed.

(** the exponential *)
Lemma exp_ge1 x : 1 + x <= exp x. Proof. destruct (Req_dec x 0) as [->|N]; [rewrite exp_0; lra|left; now apply exp_ineq1]. Qed.
Lemma exp_dev d : Rabs d <= / 2 -> Rabs (exp d - 1) <= 2 * Rabs d.
Proof.
  intros H. destruct (Rle_lt_dec 0 d) as [P|P].
  - rewrite (Rabs_pos_eq d) in * by auto. pose proof (exp_ge1 d). rewrite Rabs_pos_eq by lra. pose proof (exp_ge1 (- d)) as Q. rewrite exp_Ropp in Q. pose proof (exp_pos d) as E.
    assert (exp d * (1 - d) <= 1). { apply Rle_trans with (exp d * / exp d); [apply Rmult_le_compat_l; lra|rewrite Rinv_r; lra]. } nra.
  - rewrite (Rabs_left d) in * by auto. pose proof (exp_ge1 d). assert (exp d <= 1) by (rewrite <- exp_0; left; apply exp_increasing; auto). rewrite Rabs_left1 by lra. lra.
Qed.
Lemma exp3 n : exp (INR n) <= 3 ^ n.
Proof. induction n; [simpl; rewrite exp_0; lra|]. rewrite S_INR, exp_plus. simpl pow. rewrite (Rmult_comm 3). apply Rmult_le_compat; [left; apply exp_pos|left; apply exp_pos|exact IHn|apply exp_le_3]. Qed.
Lemma pow3 : 3 ^ 600 <= bpow radix2 960.
Proof.
  replace (3 ^ 600) with ((3 ^ 5) ^ 120) by (rewrite <- pow_mult; reflexivity). assert (P : bpow radix2 960 = (2 ^ 8) ^ 120). { rewrite <- pow_mult. change (8 * 120)%nat with 960%nat. rewrite bpow_powerRZ. change (IZR radix2) with 2. change 960%Z with (Z.of_nat 960). now rewrite <- pow_powerRZ. }
  rewrite P. apply pow_incr. simpl. lra.
Qed.
Lemma exp_range x : Rabs x <= 600 -> bpow radix2 (-960) <= exp x <= bpow radix2 960.
Proof.
  intros H. apply Rabs_le_inv in H. assert (M : forall y, y <= 600 -> exp y <= bpow radix2 960).
  { intros y Hy. apply Rle_trans with (2 := pow3). apply Rle_trans with (2 := exp3 600). replace (INR 600) with 600 by (rewrite INR_IZR_INZ; reflexivity). destruct Hy as [Hy| ->]; [left; now apply exp_increasing|lra]. }
  split; [|apply M; lra]. pose proof (M (- x) ltac:(lra)) as Q. rewrite exp_Ropp in Q. rewrite <- (Rinv_involutive (exp x)) by (apply Rgt_not_eq, exp_pos).
  change (-960)%Z with (- (960))%Z. rewrite bpow_opp. apply Rinv_le_contravar; auto. apply Rinv_0_lt_compat, exp_pos.
Qed.
(** the exponential of an inexact argument *)
Lemma exp_arg Ex z x d : exp_within (bpow radix2 (-52)) Ex -> fin z -> Rabs x <= 500 -> Rabs (val z - x) <= d -> d <= / 10 ^ 6 ->
  fin (Ex z) /\ within (21 / 10 * u + 21 / 10 * d) (exp x) (val (Ex z)).
Proof.
  intros HE Fz Hx Hd Sd. assert (B : Rabs (val z) <= 600). { replace (val z) with (x + (val z - x)) by ring. apply Rle_trans with (1 := Rabs_triang _ _). simpl in Sd. lra. }
  destruct (HE z Fz B) as (F & V). split; auto. pose proof (Rabs_pos (val z - x)). assert (Q : Rabs (exp (val z - x) - 1) <= 2 * d). { simpl in Sd. assert (S2 : Rabs (val z - x) <= / 2) by lra. pose proof (exp_dev _ S2). lra. }
  assert (W1 : within (2 * d) (exp x) (exp (val z))).
  { unfold within. replace (val z) with (x + (val z - x)) at 1 by ring. rewrite exp_plus. replace (exp x * exp (val z - x) - exp x) with ((exp (val z - x) - 1) * exp x) by ring. rewrite Rabs_mult. apply Rmult_le_compat_r; [apply Rabs_pos|auto]. }
  assert (U2 : bpow radix2 (-52) = 2 * u) by (unfold u; change (-52)%Z with (1 + -53)%Z; rewrite bpow_plus; reflexivity).
  assert (W2 : within (2 * u) (exp (val z)) (val (Ex z))). { unfold within. rewrite (Rabs_pos_eq (exp _)) by (left; apply exp_pos). rewrite <- U2. exact V. }
  pose proof u_range. refine (w_le _ _ _ _ (w_trans _ _ _ _ _ _ W1 W2) _); [lra|]. simpl in Sd. nra.
Qed.
Lemma u_tiny : u <= / 10 ^ 15.
Proof. assert (U : u = / 9007199254740992) by (unfold u; simpl; lra). rewrite U. simpl. lra. Qed.
Lemma bp_lt (a b : Z) : (a <= b)%Z -> bpow radix2 a <= bpow radix2 b. Proof. apply bpow_le. Qed.

Lemma fermi_core Ex z x d : exp_within (bpow radix2 (-52)) Ex -> fin z -> Rabs x <= 500 -> Rabs (val z - x) <= d -> d <= / 10 ^ 6 ->
  within (45 / 10 * u + 3 * d) (/ (exp x + 1)) (val (f64_inv (Ex z [+] f64_one))).
Proof.
  intros HE Fz Hx Hd Sd. destruct (exp_arg Ex z x d HE Fz Hx Hd Sd) as (FE & W). destruct one_val as (F1 & V1). pose proof (exp_pos x) as Px. pose proof (Rabs_pos (val z - x)). assert (D0 : 0 <= d) by lra. pose proof u_range as U. pose proof u_tiny as T. simpl in Sd, T.
  pose proof (exp_range x ltac:(lra)) as (_ & X).
  assert (W1 : within (21 / 10 * u + 21 / 10 * d) (exp x + 1) (val (Ex z) + 1)).
  { unfold within in *. replace (val (Ex z) + 1 - (exp x + 1)) with (val (Ex z) - exp x) by ring. rewrite (Rabs_pos_eq (exp x)) in W by lra. rewrite (Rabs_pos_eq (exp x + 1)) by lra. nra. }
  assert (Y : / 2 <= val (Ex z) + 1 <= bpow radix2 962).
  { unfold within in W1. rewrite (Rabs_pos_eq (exp x + 1)) in W1 by lra. apply Rabs_le_inv in W1. assert (Q : bpow radix2 962 = 4 * bpow radix2 960) by (change 962%Z with (2 + 960)%Z; rewrite bpow_plus; reflexivity).
    assert (1 <= bpow radix2 960) by (apply (bp_lt 0 960); lia). split; [nra|]. rewrite Q. assert (val (Ex z) + 1 <= (exp x + 1) * 2) by nra. lra. }
  destruct (plus_ok (Ex z) f64_one 962 FE F1 ltac:(lia)) as (F2 & V2); [rewrite V1, Rabs_pos_eq by lra; apply Y|]. rewrite V1 in V2.
  assert (W2 : within u (val (Ex z) + 1) (val (Ex z [+] f64_one))).
  { rewrite V2. apply w_rnd. rewrite Rabs_pos_eq by lra. apply Rle_trans with (bpow radix2 (-1)); [apply bp_lt; lia|]. change (bpow radix2 (-1)) with (/ 2). lra. }
  set (a := 32 / 10 * u + 22 / 10 * d). assert (W3 : within a (exp x + 1) (val (Ex z [+] f64_one))).
  { refine (w_le _ _ _ _ (w_trans _ _ _ _ _ _ W1 W2) _); [lra|]. unfold a. nra. }
  assert (A : 0 <= a <= / 100) by (unfold a; lra). assert (Px1 : 0 < exp x + 1) by lra. destruct (w_inv a _ _ Px1 A W3) as (P & W4).
  assert (G : Rabs (val (Ex z [+] f64_one)) <= bpow radix2 962) by (rewrite V2; apply rnd_big; [lia|]; rewrite Rabs_pos_eq by lra; apply Y).
  rewrite Rabs_pos_eq in G by lra. assert (L : bpow radix2 (-962) <= / val (Ex z [+] f64_one)) by (change (-962)%Z with (- (962))%Z; rewrite bpow_opp; apply Rinv_le_contravar; auto).
  assert (K : / 4 <= val (Ex z [+] f64_one)). { unfold within in W2. rewrite (Rabs_pos_eq (val (Ex z) + 1)) in W2 by lra. apply Rabs_le_inv in W2. nra. }
  assert (K' : / val (Ex z [+] f64_one) <= 4). { rewrite <- (Rinv_involutive 4) by lra. apply Rinv_le_contravar; lra. }
  unfold f64_inv. destruct (div_ok f64_one (Ex z [+] f64_one) 2 F1) as (F5 & V5); [lra|lia| |].
  { rewrite V1. unfold Rdiv. rewrite Rmult_1_l, Rabs_pos_eq; [change (bpow radix2 2) with 4; lra|left; apply Rinv_0_lt_compat; lra]. }
  rewrite V5, V1. unfold Rdiv. rewrite Rmult_1_l.
  assert (W5 : within u (/ val (Ex z [+] f64_one)) (rnd (/ val (Ex z [+] f64_one)))). { apply w_rnd. rewrite Rabs_pos_eq by (left; apply Rinv_0_lt_compat; lra). apply Rle_trans with (2 := L). apply bp_lt. lia. }
  refine (w_le _ _ _ _ (w_trans _ _ _ _ _ _ W4 W5) _); [lra|]. unfold a in *. nra.
Qed.

(** the argument of the exponential *)
Lemma arg_ok en beta mu : fin en -> fin beta -> fin mu -> moderate en -> moderate beta -> moderate mu -> let x := val beta * (val en - val mu) in Rabs x <= 500 ->
  fin ((en [-] mu) [*] beta) /\ Rabs (val ((en [-] mu) [*] beta) - x) <= 3 * u * Rabs x + bpow radix2 (-570).
Proof.
  intros Fe Fb Fm Me Mb Mm x Hx. unfold moderate in *. pose proof u_range as U. pose proof eta_pos as Q0.
  assert (B : Rabs (val en - val mu) <= bpow radix2 501). { unfold Rminus. apply Rle_trans with (1 := Rabs_triang _ _). rewrite Rabs_Ropp. change 501%Z with (1 + 500)%Z. rewrite bpow_plus. change (bpow radix2 1) with 2. lra. }
  destruct (minus_ok en mu 501 Fe Fm ltac:(lia) B) as (F1 & V1). set (d := en [-] mu) in *.
  assert (D : Rabs (val d) <= bpow radix2 501) by (rewrite V1; apply rnd_big; [lia|auto]).
  destruct (mult_ok d beta 1001 F1 Fb ltac:(lia)) as (F2 & V2). { rewrite Rabs_mult. change 1001%Z with (501 + 500)%Z. rewrite bpow_plus. apply Rmult_le_compat; auto; apply Rabs_pos. }
  split; auto. rewrite V2. pose proof (rnd_err' (val d * val beta)) as R2. pose proof (rnd_err' (val en - val mu)) as R1. rewrite <- V1 in R1.
  assert (E1 : Rabs (val d * val beta - x) <= u * Rabs x + eta * bpow radix2 500).
  { replace (val d * val beta - x) with ((val d - (val en - val mu)) * val beta) by (unfold x; ring). rewrite Rabs_mult. unfold x. rewrite Rabs_mult. pose proof (Rabs_pos (val beta)). pose proof (Rabs_pos (val d - (val en - val mu))).
    apply Rle_trans with ((u * Rabs (val en - val mu) + eta) * Rabs (val beta)); [apply Rmult_le_compat_r; auto|]. assert (eta * Rabs (val beta) <= eta * bpow radix2 500) by (apply Rmult_le_compat_l; lra). lra. }
  assert (H5 : eta * bpow radix2 500 = bpow radix2 (-575)) by (unfold eta; rewrite <- bpow_plus; reflexivity).
  assert (H6 : bpow radix2 (-570) = 32 * bpow radix2 (-575)) by (change (-570)%Z with (5 + -575)%Z; rewrite bpow_plus; reflexivity).
  assert (H7 : eta <= bpow radix2 (-575)) by (apply bp_lt; lia). pose proof (bpow_gt_0 radix2 (-575)).
  assert (A : Rabs (val d * val beta) <= Rabs x + (u * Rabs x + bpow radix2 (-575))). { replace (val d * val beta) with (x + (val d * val beta - x)) by ring. apply Rle_trans with (1 := Rabs_triang _ _). lra. }
  replace (rnd (val d * val beta) - x) with ((rnd (val d * val beta) - val d * val beta) + (val d * val beta - x)) by ring. apply Rle_trans with (1 := Rabs_triang _ _). pose proof (Rabs_pos x).
  assert (M1 : u * Rabs (val d * val beta) <= u * (Rabs x + (u * Rabs x + bpow radix2 (-575)))) by (apply Rmult_le_compat_l; lra).
  assert (M2 : 0 <= u * Rabs x) by (apply Rmult_le_pos; lra). assert (M3 : u * (u * Rabs x) <= u * Rabs x) by nra. assert (M4 : u * bpow radix2 (-575) <= bpow radix2 (-575)) by nra. lra.
Qed.
Lemma arg_zc en beta : fin en -> fin beta -> moderate en -> moderate beta -> let x := val beta * val en in Rabs x <= 500 ->
  fin (en [*] beta) /\ Rabs (val (en [*] beta) - x) <= 3 * u * Rabs x + bpow radix2 (-570).
Proof.
  intros Fe Fb Me Mb x Hx. unfold moderate in *. pose proof u_range as U.
  destruct (mult_ok en beta 1000 Fe Fb ltac:(lia)) as (F2 & V2). { rewrite Rabs_mult. change 1000%Z with (500 + 500)%Z. rewrite bpow_plus. apply Rmult_le_compat; auto; apply Rabs_pos. }
  split; auto. rewrite V2. pose proof (rnd_err' (val en * val beta)) as R. unfold x. rewrite (Rmult_comm (val beta)). apply Rle_trans with (1 := R). assert (eta <= bpow radix2 (-570)) by (apply bp_lt; lia). assert (0 <= u * Rabs (val en * val beta)) by (apply Rmult_le_pos; [lra|apply Rabs_pos]). lra.
Qed.
Lemma tiny570 : bpow radix2 (-570) <= u / 1000.
Proof. apply Rle_trans with (bpow radix2 (-10 + -53)); [apply bp_lt; lia|]. rewrite bpow_plus. fold u. change (bpow radix2 (-10)) with (/ 1024). pose proof u_range. lra. Qed.
Lemma d_small x : Rabs x <= 500 -> 3 * u * Rabs x + bpow radix2 (-570) <= / 10 ^ 6.
Proof. intros H. pose proof u_range. pose proof u_tiny as T. pose proof tiny570. simpl in *. pose proof (Rabs_pos x). nra. Qed.
Lemma fermi_acc Ex en beta mu : exp_within (bpow radix2 (-52)) Ex -> fin en -> fin beta -> fin mu -> moderate en -> moderate beta -> moderate mu ->
  let x := val beta * (val en - val mu) in Rabs x <= 500 ->
  within ((3 + 5 * Rabs x) * bpow radix2 (-52)) (/ (exp x + 1)) (val (fermi_distribution_f64 Ex en beta mu)).
Proof.
  intros HE Fe Fb Fm Me Mb Mm x Hx. destruct (arg_ok en beta mu Fe Fb Fm Me Mb Mm Hx) as (F & V). fold x in V.
  refine (w_le _ _ _ _ (fermi_core Ex _ x _ HE F Hx V (d_small x Hx)) _). pose proof tiny570. pose proof u_range. pose proof (Rabs_pos x).
  assert (U2 : bpow radix2 (-52) = 2 * u) by (unfold u; change (-52)%Z with (1 + -53)%Z; rewrite bpow_plus; reflexivity). rewrite U2. assert (0 <= u * Rabs x) by (apply Rmult_le_pos; lra). lra.
Qed.
Lemma fermi_zc_acc Ex en beta : exp_within (bpow radix2 (-52)) Ex -> fin en -> fin beta -> moderate en -> moderate beta ->
  let x := val beta * val en in Rabs x <= 500 ->
  within ((3 + 5 * Rabs x) * bpow radix2 (-52)) (/ (exp x + 1)) (val (fermi_distribution_zero_chempot_f64 Ex en beta)).
Proof.
  intros HE Fe Fb Me Mb x Hx. destruct (arg_zc en beta Fe Fb Me Mb Hx) as (F & V). fold x in V.
  refine (w_le _ _ _ _ (fermi_core Ex _ x _ HE F Hx V (d_small x Hx)) _). pose proof tiny570. pose proof u_range. pose proof (Rabs_pos x).
  assert (U2 : bpow radix2 (-52) = 2 * u) by (unfold u; change (-52)%Z with (1 + -53)%Z; rewrite bpow_plus; reflexivity). rewrite U2. assert (0 <= u * Rabs x) by (apply Rmult_le_pos; lra). lra.
Qed.
