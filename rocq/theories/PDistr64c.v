(** * C95: accuracy and overflow of the Bose distribution, energies, existence of a correct exponential *)
From Coq Require Import ZArith Reals Psatz Lia List Bool.
From Flocq Require Import Core IEEE754.BinarySingleNaN IEEE754.Binary IEEE754.Bits Relative.
From Verif Require Import MFloat MGrid MFermi MDistr64 SpecGrid SpecFermi SpecDistr64 PGrid PGrid2 PGrid3 PFerm64 PFerm64b PFerm64d PDistr64 PDistr64b.
Open Scope R_scope.

Lemma two_u : bpow radix2 (-52) = 2 * u. Proof. unfold u. change (-52)%Z with (1 + -53)%Z. rewrite bpow_plus. reflexivity. Qed.
Lemma bose_core Ex z x : exp_within (bpow radix2 (-52)) Ex -> fin z -> bpow radix2 (-40) <= x <= 500 -> Rabs (val z - x) <= 4 * u * x ->
  fin (f64_inv (Ex z [-] f64_one)) /\ within ((3 + 5 * x) * (1 + / x) * bpow radix2 (-52)) (/ (exp x - 1)) (val (f64_inv (Ex z [-] f64_one))).
Proof.
  intros HE Fz Hx Hd. pose proof u_range as U. pose proof u_tiny as T. simpl in T. assert (X0 : 0 < x) by (pose proof (bpow_gt_0 radix2 (-40)); lra).
  assert (Sd : 4 * u * x <= / 10 ^ 6) by (simpl; nra). assert (Ax : Rabs x <= 500) by (rewrite Rabs_pos_eq; lra).
  destruct (exp_arg Ex z x _ HE Fz Ax Hd Sd) as (FE & W). destruct one_val as (F1 & V1). pose proof (exp_pos x) as Px.
  pose proof (exp_range x ltac:(lra)) as (_ & X). set (r := 21 / 10 * u + 21 / 10 * (4 * u * x)) in *.
  assert (G1 : x <= exp x - 1) by (pose proof (exp_ge1 x); lra).
  set (y := / x). assert (Y0 : 0 < y) by (apply Rinv_0_lt_compat; auto). assert (Yx : y * x = 1) by (unfold y; field; lra).
  assert (Y1 : y <= bpow radix2 40). { unfold y. change 40%Z with (- (-40))%Z. rewrite bpow_opp. apply Rinv_le_contravar; [apply bpow_gt_0|apply Hx]. }
  assert (B40 : bpow radix2 40 = 1099511627776) by reflexivity. rewrite B40 in Y1.
  assert (U' : u = / 9007199254740992) by (unfold u; simpl; lra).
  assert (R0 : 0 <= r) by (unfold r; nra).
  assert (W1 : within (r * (1 + y)) (exp x - 1) (val (Ex z) - 1)).
  { unfold within in *. replace (val (Ex z) - 1 - (exp x - 1)) with (val (Ex z) - exp x) by ring. rewrite (Rabs_pos_eq (exp x)) in W by lra. rewrite (Rabs_pos_eq (exp x - 1)) by lra. apply Rle_trans with (1 := W).
    rewrite Rmult_assoc. apply Rmult_le_compat_l; auto. assert (y * x <= y * (exp x - 1)) by (apply Rmult_le_compat_l; lra). lra. }
  set (a0 := r * (1 + y)) in *.
  assert (Ea0 : a0 = u * (21 / 10 + 84 / 10 * x + 21 / 10 * y + 84 / 10)). { transitivity (u * (21 / 10 + 84 / 10 * x + 21 / 10 * y + 84 / 10 * (y * x))); [unfold a0, r; field|rewrite Yx; field]. }
  assert (A0 : 0 <= a0 <= / 1000). { rewrite Ea0. split; [apply Rmult_le_pos; lra|]. rewrite U'. lra. }
  assert (Z : exp x - 1 <= 2 * (val (Ex z) - 1) /\ val (Ex z) - 1 <= 2 * (exp x - 1)). { unfold within in W1. rewrite (Rabs_pos_eq (exp x - 1)) in W1 by lra. apply Rabs_le_inv in W1. split; nra. }
  assert (Q : bpow radix2 962 = 4 * bpow radix2 960) by (change 962%Z with (2 + 960)%Z; rewrite bpow_plus; reflexivity).
  assert (P41 : bpow radix2 (-41) <= val (Ex z) - 1). { change (-41)%Z with (-1 + -40)%Z. rewrite bpow_plus. change (bpow radix2 (-1)) with (/ 2). lra. }
  pose proof (bpow_gt_0 radix2 (-41)) as Q41.
  destruct (minus_ok (Ex z) f64_one 962 FE F1 ltac:(lia)) as (F2 & V2); [rewrite V1, Rabs_pos_eq by lra; lra|]. rewrite V1 in V2.
  assert (W2 : within u (val (Ex z) - 1) (val (Ex z [-] f64_one))). { rewrite V2. apply w_rnd. rewrite Rabs_pos_eq by lra. apply Rle_trans with (2 := P41). apply bp_lt. lia. }
  set (a := a0 + 11 / 10 * u). assert (W3 : within a (exp x - 1) (val (Ex z [-] f64_one))). { refine (w_le _ _ _ _ (w_trans _ _ _ _ _ _ W1 W2) _); [lra|]. unfold a. nra. }
  assert (A : 0 <= a <= / 100) by (unfold a; lra). assert (Px1 : 0 < exp x - 1) by lra. destruct (w_inv a _ _ Px1 A W3) as (P & W4).
  assert (G : Rabs (val (Ex z [-] f64_one)) <= bpow radix2 962) by (rewrite V2; apply rnd_big; [lia|]; rewrite Rabs_pos_eq by lra; lra).
  rewrite Rabs_pos_eq in G by lra. assert (L : bpow radix2 (-962) <= / val (Ex z [-] f64_one)) by (change (-962)%Z with (- (962))%Z; rewrite bpow_opp; apply Rinv_le_contravar; auto).
  assert (K : bpow radix2 (-42) <= val (Ex z [-] f64_one)). { unfold within in W2. rewrite (Rabs_pos_eq (val (Ex z) - 1)) in W2 by lra. apply Rabs_le_inv in W2. change (-42)%Z with (-1 + -41)%Z. rewrite bpow_plus. change (bpow radix2 (-1)) with (/ 2). nra. }
  assert (K' : / val (Ex z [-] f64_one) <= bpow radix2 42). { change 42%Z with (- (-42))%Z. rewrite bpow_opp. apply Rinv_le_contravar; [apply bpow_gt_0|auto]. }
  unfold f64_inv. destruct (div_ok f64_one (Ex z [-] f64_one) 42 F1) as (F5 & V5); [lra|lia| |].
  { rewrite V1. unfold Rdiv. rewrite Rmult_1_l, Rabs_pos_eq; [auto|left; apply Rinv_0_lt_compat; lra]. }
  split; [exact F5|]. rewrite V5, V1. unfold Rdiv. rewrite Rmult_1_l.
  assert (W5 : within u (/ val (Ex z [-] f64_one)) (rnd (/ val (Ex z [-] f64_one)))). { apply w_rnd. rewrite Rabs_pos_eq by (left; apply Rinv_0_lt_compat; lra). apply Rle_trans with (2 := L). apply bp_lt. lia. }
  refine (w_le _ _ _ _ (w_trans _ _ _ _ _ _ W4 W5) _); [lra|]. fold y. rewrite two_u.
  assert (S1 : a * (1 + 2 * a) + u + a * (1 + 2 * a) * u <= 103 / 100 * a + 102 / 100 * u) by nra.
  apply Rle_trans with (1 := S1). unfold a. rewrite Ea0. replace ((3 + 5 * x) * (1 + y) * (2 * u)) with (u * (6 + 10 * x + 6 * y + 10 * (y * x))) by ring. rewrite Yx.
  replace (103 / 100 * (u * (21 / 10 + 84 / 10 * x + 21 / 10 * y + 84 / 10) + 11 / 10 * u) + 102 / 100 * u) with (u * (103 / 100 * (116 / 10 + 84 / 10 * x + 21 / 10 * y) + 102 / 100)) by field.
  apply Rmult_le_compat_l; lra.
Qed.
Lemma d_rel x : bpow radix2 (-40) <= x -> 3 * u * Rabs x + bpow radix2 (-570) <= 4 * u * x.
Proof.
  intros H. pose proof (bpow_gt_0 radix2 (-40)). rewrite Rabs_pos_eq by lra. assert (Q : bpow radix2 (-570) <= u * x). { apply Rle_trans with (bpow radix2 (-53 + -40)); [apply bp_lt; lia|]. rewrite bpow_plus. fold u. apply Rmult_le_compat_l; [apply Rlt_le, u_pos|auto]. } lra.
Qed.
Lemma bose_acc Ex en beta mu : exp_within (bpow radix2 (-52)) Ex -> fin en -> fin beta -> fin mu -> moderate en -> moderate beta -> moderate mu ->
  let x := val beta * (val en - val mu) in bpow radix2 (-40) <= x <= 500 -> fin (bose_distribution_f64 Ex en beta mu) /\
  within ((3 + 5 * x) * (1 + / x) * bpow radix2 (-52)) (/ (exp x - 1)) (val (bose_distribution_f64 Ex en beta mu)).
Proof.
  intros HE Fe Fb Fm Me Mb Mm x Hx. pose proof (bpow_gt_0 radix2 (-40)). destruct (arg_ok en beta mu Fe Fb Fm Me Mb Mm) as (F & V); [fold x; rewrite Rabs_pos_eq; lra|]. fold x in V.
  exact (bose_core Ex _ x HE F Hx (Rle_trans _ _ _ V (d_rel x (proj1 Hx)))).
Qed.
Lemma bose_zc_acc Ex en beta : exp_within (bpow radix2 (-52)) Ex -> fin en -> fin beta -> moderate en -> moderate beta ->
  let x := val beta * val en in bpow radix2 (-40) <= x <= 500 -> fin (bose_distribution_zero_chempot_f64 Ex en beta) /\
  within ((3 + 5 * x) * (1 + / x) * bpow radix2 (-52)) (/ (exp x - 1)) (val (bose_distribution_zero_chempot_f64 Ex en beta)).
Proof.
  intros HE Fe Fb Me Mb x Hx. pose proof (bpow_gt_0 radix2 (-40)). destruct (arg_zc en beta Fe Fb Me Mb) as (F & V); [fold x; rewrite Rabs_pos_eq; lra|]. fold x in V.
  exact (bose_core Ex _ x HE F Hx (Rle_trans _ _ _ V (d_rel x (proj1 Hx)))).
Qed.

(** what is just above one rounds to one *)
Lemma rnd_one t : 0 <= t <= bpow radix2 (-54) -> rnd (1 + t) = 1.
Proof.
  intros H. assert (V : Valid_exp fexp64) by (apply (fexp_correct 53 1024); reflexivity). assert (F1 : generic_format radix2 fexp64 1) by (change 1 with (bpow radix2 0); apply generic_format_bpow; unfold SpecFloat.fexp, SpecFloat.emin; lia).
  assert (G : 1 <= rnd (1 + t)). { rewrite <- (rnd_int 1) at 1 by (simpl; lia). apply rnd_mono. simpl. lra. }
  destruct G as [G|G]; auto. exfalso.
  assert (S : succ radix2 fexp64 1 <= rnd (1 + t)) by (apply succ_le_lt; auto; apply generic_format_round; auto; apply valid_rnd_N).
  assert (E : succ radix2 fexp64 1 = 1 + bpow radix2 (-52)). { rewrite succ_eq_pos by lra. f_equal. change 1 with (bpow radix2 0). rewrite ulp_bpow. f_equal. }
  destruct (round_N_pt radix2 fexp64 (fun z => negb (Z.even z)) (1 + t)) as (_ & N). specialize (N 1 F1). fold (rnd (1 + t)) in N.
  change (round radix2 fexp64 ZnearestE (1 + t)) with (rnd (1 + t)) in N. replace (1 - (1 + t)) with (- t) in N by ring. rewrite Rabs_Ropp, (Rabs_pos_eq t) in N by lra. rewrite E in S.
  assert (Q : bpow radix2 (-52) = 4 * bpow radix2 (-54)) by (change (-52)%Z with (2 + -54)%Z; rewrite bpow_plus; reflexivity). pose proof (bpow_gt_0 radix2 (-54)). rewrite Rabs_pos_eq in N by lra. lra.
Qed.
Lemma bose_over Ex en beta : exp_correct Ex -> fin en -> fin beta -> 0 <= val beta * val en <= bpow radix2 (-55) -> bose_distribution_zero_chempot_f64 Ex en beta = inf.
Proof.
  intros HE Fe Fb H. pose proof (bpow_gt_0 radix2 (-55)). destruct (mult_ok en beta (-55) Fe Fb ltac:(lia)) as (F & V); [rewrite Rmult_comm, Rabs_pos_eq; lra|]. rewrite Rmult_comm in V.
  assert (B : 0 <= val (en [*] beta) <= bpow radix2 (-55)). { rewrite V. split; [apply rnd_nonneg; lra|]. apply Rle_trans with (1 := Rle_abs _). apply rnd_big; [lia|]. rewrite Rabs_pos_eq; lra. }
  assert (S : bpow radix2 (-55) <= / 2) by (change (/ 2) with (bpow radix2 (-1)); apply bp_lt; lia).
  assert (A : Rabs (val (en [*] beta)) <= 600) by (rewrite Rabs_pos_eq; lra). destruct (HE _ F A) as (FE & VE).
  assert (D : Rabs (exp (val (en [*] beta)) - 1) <= 2 * Rabs (val (en [*] beta))) by (apply exp_dev; rewrite Rabs_pos_eq; lra).
  assert (G : 1 <= exp (val (en [*] beta))) by (pose proof (exp_ge1 (val (en [*] beta))); lra). rewrite (Rabs_pos_eq (_ - 1)), (Rabs_pos_eq (val (en [*] beta))) in D by lra.
  assert (E1 : val (Ex (en [*] beta)) = 1). { rewrite VE. change (to_f64 (exp (val (en [*] beta)))) with (rnd (exp (val (en [*] beta)))). replace (exp (val (en [*] beta))) with (1 + (exp (val (en [*] beta)) - 1)) by ring. apply rnd_one.
    change (-54)%Z with (1 + -55)%Z. rewrite bpow_plus. change (bpow radix2 1) with 2. lra. }
  unfold bose_distribution_zero_chempot_f64, statistic_distribution_exponential_zero_chempot_f64. apply bose_from; auto. right. split; auto. lra.
Qed.

(** energies *)
Lemma acc_bounds n x y : 0 <= x -> (acc n x y <-> (1 - u) ^ n * x <= y <= / (1 - u) ^ n * x).
Proof.
  intros Hx. split.
  - intros (t & -> & Ht). split; rewrite (Rmult_comm x); apply Rmult_le_compat_r; lra.
  - intros H. destruct (Req_dec x 0) as [->|N].
    + exists 1. pose proof (pw n). split; [lra|]. split; [lra|]. rewrite <- Rinv_1 at 1. apply Rinv_le_contravar; lra.
    + exists (y / x). split; [field; auto|]. assert (0 < x) by lra. split; apply Rmult_le_reg_r with x; auto; unfold Rdiv; rewrite (Rmult_assoc y), Rinv_l by auto; lra.
Qed.
Lemma acc_plus n x y x' y' : 0 <= x -> 0 <= x' -> acc n x y -> acc n x' y' -> acc n (x + x') (y + y').
Proof. intros Hx Hx' A B. apply acc_bounds in A, B; auto. apply acc_bounds; lra. Qed.
Lemma acc_sqrt x y : 0 <= x -> acc 2 x y -> acc 1 (sqrt x) (sqrt y).
Proof.
  intros Hx (t & -> & Ht). pose proof u_range. assert (T : 0 <= t) by (pose proof (pw 2); lra). exists (sqrt t). rewrite sqrt_mult by auto. split; auto. rewrite pow_1. simpl pow in Ht. rewrite Rmult_1_r in Ht. split.
  - rewrite <- (sqrt_square (1 - u)) by lra. apply sqrt_le_1_alt. lra.
  - rewrite Rinv_mult_distr in Ht by lra. assert (0 < / (1 - u)) by (apply Rinv_0_lt_compat; lra). rewrite <- (sqrt_square (/ (1 - u))) by lra. apply sqrt_le_1_alt. lra.
Qed.
Lemma sq_acc x : fin x -> moderate x -> normal_or_zero x -> fin (x [*] x) /\ acc 1 (val x * val x) (val (x [*] x)) /\ 0 <= val (x [*] x) <= bpow radix2 1000 /\ (val (x [*] x) = 0 \/ bpow radix2 (-1001) <= val (x [*] x)).
Proof.
  intros F M N. destruct (sq_ok x F M) as (Fs & Vs). split; auto. pose proof (sq_small x M) as Q.
  assert (B : 0 <= val (x [*] x) <= bpow radix2 1000). { rewrite Vs. split; [apply rnd_nonneg; nra|]. apply Rle_trans with (1 := Rle_abs _). apply rnd_big; [lia|]. rewrite Rabs_pos_eq; nra. }
  destruct N as [Z|N].
  - split; [|split; [exact B|left; rewrite Vs, Z, Rmult_0_l; apply rnd_0]]. rewrite Vs, Z, Rmult_0_l, rnd_0. apply acc_bounds; lra.
  - assert (L : bpow radix2 (-1000) <= Rabs (val x * val x)). { rewrite Rabs_mult. apply (bp2 (-500) (-500)); auto. }
    assert (A : acc 1 (val x * val x) (val (x [*] x))). { rewrite Vs. apply acc_rnd. apply Rle_trans with (2 := L). apply bp_lt. lia. }
    split; auto. split; auto. right. rewrite <- (Rabs_pos_eq (val (x [*] x))) by lra. apply (acc_ge 1 _ _ (-1000) A); [lia|auto].
Qed.
Lemma energy_acc p m : fin p -> fin m -> moderate p -> moderate m -> normal_or_zero p -> normal_or_zero m ->
  fin (energy_f64 p m) /\ within (bpow radix2 (-51)) (sqrt (val m * val m + val p * val p)) (val (energy_f64 p m)).
Proof.
  intros Fp Fm Mp Mm Np Nm. destruct (sq_acc p Fp Mp Np) as (F1 & A1 & B1 & L1), (sq_acc m Fm Mm Nm) as (F2 & A2 & B2 & L2).
  assert (B : 0 <= val (m [*] m) + val (p [*] p) <= bpow radix2 1001). { change 1001%Z with (1 + 1000)%Z. rewrite bpow_plus. change (bpow radix2 1) with 2. lra. }
  destruct (plus_ok (m [*] m) (p [*] p) 1001 F2 F1 ltac:(lia)) as (F3 & V3); [rewrite Rabs_pos_eq; apply B|].
  assert (P3 : 0 <= val (m [*] m [+] p [*] p)) by (rewrite V3; apply rnd_nonneg, B). destruct (sqrt_ok _ F3 P3) as (F4 & V4). split; [exact F4|].
  change (b64_sqrt mode_NE (m [*] m [+] p [*] p)) with (energy_f64 p m) in V4.
  assert (N2 : forall x : R, 0 <= x * x) by (intros; nra).
  pose proof (acc_plus 1 _ _ _ _ (N2 (val m)) (N2 (val p)) A2 A1) as A3. set (S := val m * val m + val p * val p) in *. assert (HS : 0 <= S) by (unfold S; pose proof (N2 (val m)); pose proof (N2 (val p)); lra).
  assert (A4 : acc 2 S (val (m [*] m [+] p [*] p)) /\ (val (m [*] m [+] p [*] p) = 0 \/ bpow radix2 (-1002) <= val (m [*] m [+] p [*] p))).
  { destruct (Req_dec (val (m [*] m) + val (p [*] p)) 0) as [Z|Z].
    - rewrite V3, Z, rnd_0. rewrite Z in A3. split; auto. apply acc_bounds in A3; auto. pose proof (pw 1). assert (S = 0) by nra. rewrite H0. apply acc_bounds; lra.
    - assert (L : bpow radix2 (-1001) <= val (m [*] m) + val (p [*] p)) by lra. assert (L' : bpow radix2 (-1001) <= Rabs (val (m [*] m) + val (p [*] p))) by (rewrite Rabs_pos_eq; lra).
      assert (A : acc 1 (val (m [*] m) + val (p [*] p)) (val (m [*] m [+] p [*] p))) by (rewrite V3; apply acc_rnd; apply Rle_trans with (2 := L'); apply bp_lt; lia).
      split; [apply (acc_trans 1 1 _ _ _ A3 A)|]. right. rewrite <- (Rabs_pos_eq (val (m [*] m [+] p [*] p))) by auto. apply (acc_ge 1 _ _ (-1001) A); [lia|auto]. }
  destruct A4 as (A4 & L4). pose proof (acc_sqrt _ _ HS A4) as A5.
  assert (A6 : acc 1 (sqrt (val (m [*] m [+] p [*] p))) (val (energy_f64 p m))).
  { rewrite V4. destruct L4 as [Z|L4]; [rewrite Z, sqrt_0, rnd_0; apply acc_bounds; lra|]. apply acc_rnd. rewrite Rabs_pos_eq by apply sqrt_pos. apply Rle_trans with (bpow radix2 (-501)); [apply bp_lt; lia|].
    rewrite <- (sqrt_square (bpow radix2 (-501))) by apply bpow_ge_0. apply sqrt_le_1_alt. rewrite <- bpow_plus. exact L4. }
  destruct (acc_trans 1 1 _ _ _ A5 A6) as (t & -> & Ht). unfold within. replace (sqrt S * t - sqrt S) with ((t - 1) * sqrt S) by ring. rewrite Rabs_mult. apply Rmult_le_compat_r; [apply Rabs_pos|]. destruct u_small as (<- & _).
  pose proof u_range as U. simpl in Ht. rewrite Rmult_1_r in Ht. assert (I : / ((1 - u) * (1 - u)) <= 1 + 4 * u). { apply Rmult_le_reg_l with ((1 - u) * (1 - u)); [nra|]. rewrite Rinv_r by nra. nra. }
  apply Rabs_le. nra.
Qed.
Lemma double_acc Ex en beta mu X : exp_nonneg Ex -> exp_within (bpow radix2 (-52)) Ex -> fin en -> fin beta -> fin mu -> moderate en -> moderate beta -> moderate mu -> 0 < val beta ->
  Rabs (val beta * (val en - val mu)) <= X -> Rabs (val beta * (val en + val mu)) <= X -> X <= 500 ->
  within ((4 + 5 * X) * bpow radix2 (-52)) (/ (exp (val beta * (val en - val mu)) + 1) + / (exp (val beta * (val en + val mu)) + 1)) (val (fermi_distribution_double_f64 Ex en beta mu)).
Proof.
  intros HN HE Fe Fb Fm Me Mb Mm Pb H1 H2 HX. destruct (opp_ok mu Fm) as (Fo & Vo). assert (Mo : moderate (b64_opp mu)) by (unfold moderate in *; rewrite Vo, Rabs_Ropp; auto).
  pose proof (fermi_acc Ex en beta mu HE Fe Fb Fm Me Mb Mm ltac:(lra)) as W1. pose proof (fermi_acc Ex en beta (b64_opp mu) HE Fe Fb Fo Me Mb Mo) as W2. cbv zeta in W2. rewrite Vo in W2. replace (val en - - val mu) with (val en + val mu) in W2 by ring. specialize (W2 ltac:(lra)).
  destruct (double_ok Ex en beta mu HN Fe Fb Fm Pb) as (_ & _ & -> & _). set (f1 := val (fermi_distribution_f64 Ex en beta mu)) in *. set (f2 := val (fermi_distribution_f64 Ex en beta (b64_opp mu))) in *.
  cbv zeta in W1. set (x1 := val beta * (val en - val mu)) in *. set (x2 := val beta * (val en + val mu)) in *.
  pose proof u_range as U. pose proof u_tiny as T. simpl in T. rewrite two_u in *. pose proof (exp_pos x1) as P1. pose proof (exp_pos x2) as P2. pose proof (Rabs_pos x1).
  assert (N1 : 0 < / (exp x1 + 1)) by (apply Rinv_0_lt_compat; lra). assert (N2 : 0 < / (exp x2 + 1)) by (apply Rinv_0_lt_compat; lra).
  set (c := (3 + 5 * X) * (2 * u)). assert (C0 : 0 <= c <= / 1000) by (unfold c; nra).
  assert (W3 : within c (/ (exp x1 + 1) + / (exp x2 + 1)) (f1 + f2)).
  { pose proof (w_le _ c _ _ W1 ltac:(unfold c; nra)) as A. pose proof (w_le _ c _ _ W2 ltac:(unfold c; nra)) as B. unfold within in *. rewrite (Rabs_pos_eq (/ (exp x1 + 1) + _)) by lra. rewrite (Rabs_pos_eq (/ (exp x1 + 1))) in A by lra. rewrite (Rabs_pos_eq (/ (exp x2 + 1))) in B by lra.
    replace (f1 + f2 - (/ (exp x1 + 1) + / (exp x2 + 1))) with ((f1 - / (exp x1 + 1)) + (f2 - / (exp x2 + 1))) by ring. apply Rle_trans with (1 := Rabs_triang _ _). lra. }
  assert (L : bpow radix2 (-962) <= / (exp x1 + 1)). { change (-962)%Z with (- (962))%Z. rewrite bpow_opp. apply Rinv_le_contravar; [lra|]. destruct (exp_range x1 ltac:(lra)) as (_ & Q). assert (1 <= bpow radix2 960) by (apply (bp_lt 0 960); lia). change 962%Z with (2 + 960)%Z. rewrite bpow_plus. change (bpow radix2 2) with 4. lra. }
  assert (L2 : bpow radix2 (-963) <= f1 + f2). { unfold within in W3. rewrite (Rabs_pos_eq (/ (exp x1 + 1) + _)) in W3 by lra. apply Rabs_le_inv in W3. change (-963)%Z with (-1 + -962)%Z. rewrite bpow_plus. change (bpow radix2 (-1)) with (/ 2). nra. }
  assert (W4 : within u (f1 + f2) (rnd (f1 + f2))). { apply w_rnd. rewrite Rabs_pos_eq by (pose proof (bpow_gt_0 radix2 (-963)); lra). apply Rle_trans with (2 := L2). apply bp_lt. lia. }
  change (to_f64 (f1 + f2)) with (rnd (f1 + f2)). refine (w_le _ _ _ _ (w_trans _ _ _ _ _ _ W3 W4) _); [lra|]. assert (c * u <= u) by nra. unfold c in *. lra.
Qed.
