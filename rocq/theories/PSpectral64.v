(** * Numerical spectral functions in binary64 *)
From Coq Require Import ZArith QArith Reals Qreals Psatz Lia List Bool.
From Flocq Require Import Core IEEE754.BinarySingleNaN IEEE754.Binary IEEE754.Bits.
From Verif Require Import MFloat MGrid MFermi MDistr64 MRes64 MSpectral64 SpecGrid SpecRes64 SpecSpectral64 PGrid PGrid2 PDistr64 PFerm64b PFerm64d PRes64 PRes64b.
Open Scope R_scope.

Notation den := (f64_lit 2 1 [*] f64_PI).
Lemma ub : / 9100000000000000 <= u <= / 9000000000000000.
Proof. unfold u. change (bpow radix2 (-53)) with (/ IZR (2 ^ 53)). change (2 ^ 53)%Z with 9007199254740992%Z. lra. Qed.
Lemma eta_ub : eta <= u * / 1000000.
Proof. apply eta_rel. apply Rle_trans with (bpow radix2 (-20)); [apply bpow_le; lia|]. change (bpow radix2 (-20)) with (/ IZR (2 ^ 20)). change (2 ^ 20)%Z with 1048576%Z. lra. Qed.
Lemma den_near : fin den /\ Rabs (val den - 2 * PI) <= 15 * u /\ 314 / 100 <= PI <= 315 / 100.
Proof.
  destruct (lit_int 2 ltac:(simpl; lia)) as (F2 & V2). destruct PI_val as (FP & VP). pose proof PI_near as (A1 & B1). unfold Q2R, pi_lo, pi_hi in A1, B1. cbn [Qnum Qden] in A1, B1.
  assert (E51 : bpow radix2 (-51) = / 2251799813685248) by reflexivity. rewrite E51 in VP.
  pose proof ub as UB. assert (D : Rabs (val f64_PI - PI) <= 4 * u) by (rewrite VP; apply Rabs_le; lra).
  destruct (mult_ok (f64_lit 2 1) f64_PI 4 F2 FP ltac:(lia)) as (F & V). { rewrite V2, VP. rewrite Rabs_pos_eq by lra. change (bpow radix2 4) with 16. lra. }
  split; [exact F|]. split; [|lra]. rewrite V, V2. pose proof (rnd_err' (2 * val f64_PI)) as E. rewrite (Rabs_pos_eq (2 * val f64_PI)) in E by (rewrite VP; lra). apply Rabs_le_inv in E. apply Rabs_le_inv in D. pose proof eta_ub.
  assert (u * (2 * val f64_PI) <= u * (63 / 10)) by (apply Rmult_le_compat_l; [lra|rewrite VP; lra]). apply Rabs_le. lra.
Qed.
Lemma mod_bound x : moderate x -> Rabs (val x) <= bpow radix2 1000. Proof. intros (_ & H); exact H. Qed.
Lemma step_I eps : moderate eps -> (fin (f64_zero [*] eps) /\ val (f64_zero [*] eps) = 0) /\ (fin (f64_one [*] eps) /\ val (f64_one [*] eps) = val eps).
Proof.
  intros (F & B). destruct zero_val as (F0 & V0), one_val as (F1 & V1). split.
  - destruct (mult_ok f64_zero eps 0 F0 F ltac:(lia)) as (G & V); [rewrite V0, Rmult_0_l, Rabs_R0; apply bpow_ge_0|]. split; [exact G|]. rewrite V, V0, Rmult_0_l. apply rnd_0.
  - destruct (mult_ok f64_one eps 1000 F1 F ltac:(lia)) as (G & V); [rewrite V1, Rmult_1_l; exact B|]. split; [exact G|]. rewrite V, V1, Rmult_1_l. apply rnd_val.
Qed.
Lemma add0 x y : moderate x -> fin y -> val y = 0 -> (moderate (x [+] y) /\ val (x [+] y) = val x) /\ (moderate (x [-] y) /\ val (x [-] y) = val x).
Proof.
  intros (F & B) Fy Vy. split.
  - destruct (plus_ok x y 1000 F Fy ltac:(lia)) as (G & V); [rewrite Vy, Rplus_0_r; exact B|]. rewrite Vy, Rplus_0_r, rnd_val in V. split; [split; [exact G|rewrite V; exact B]|exact V].
  - destruct (minus_ok x y 1000 F Fy ltac:(lia)) as (G & V); [rewrite Vy, Rminus_0_r; exact B|]. rewrite Vy, Rminus_0_r, rnd_val in V. split; [split; [exact G|rewrite V; exact B]|exact V].
Qed.
Lemma zero_plus y : moderate y -> (moderate (f64_zero [+] y) /\ val (f64_zero [+] y) = val y) /\ (moderate (f64_zero [-] y) /\ val (f64_zero [-] y) = - val y).
Proof.
  intros (F & B). destruct zero_val as (F0 & V0). split.
  - destruct (plus_ok f64_zero y 1000 F0 F ltac:(lia)) as (G & V); [rewrite V0, Rplus_0_l; exact B|]. rewrite V0, Rplus_0_l, rnd_val in V. split; [split; [exact G|rewrite V; exact B]|exact V].
  - destruct (minus_ok f64_zero y 1000 F0 F ltac:(lia)) as (G & V); [rewrite V0, Rminus_0_l, Rabs_Ropp; exact B|]. rewrite V0, Rminus_0_l in V.
    assert (Q : rnd (- val y) = - val y). { replace (- val y) with (-1 * val y) by ring. rewrite <- rnd_sgn by (now right). now rewrite rnd_val. }
    rewrite Q in V. split; [split; [exact G|rewrite V, Rabs_Ropp; exact B]|exact V].
Qed.
Lemma sp_real f x eps : moderate x -> moderate eps -> mirror_symmetric f ->
  exists p, (moderate (fst p) /\ moderate (snd p)) /\ val (fst p) = val x /\ val (snd p) = val eps /\
    let r := spectral_function_with_eps_c64 f (x, f64_zero) eps in
    fin (fst r) /\ fin (snd r) /\ val (snd r) = 0 /\
    Rabs (val (fst r) + val (snd (f p)) / PI) <= 6 * bpow radix2 (-53) * (Rabs (val (snd (f p))) / PI) + 2 * bpow radix2 (-1075).
Proof.
  intros Mx Me Hf. destruct (step_I eps Me) as ((F0 & V0) & (F1 & V1)). destruct (add0 x (f64_zero [*] eps) Mx F0 V0) as ((Ma & Va) & (Mb & Vb)).
  assert (M1 : moderate (f64_one [*] eps)) by (split; [exact F1|rewrite V1; apply mod_bound, Me]).
  destruct (zero_plus (f64_one [*] eps) M1) as ((Mc & Vc) & (Md & Vd)).
  set (p := (x [+] (f64_zero [*] eps), f64_zero [+] (f64_one [*] eps)) : C64). set (q := (x [-] (f64_zero [*] eps), f64_zero [-] (f64_one [*] eps)) : C64).
  exists p. split; [exact (conj Ma Mc)|]. split; [exact Va|]. split; [exact (eq_trans Vc V1)|].
  assert (HM : mirrored p q). { split; [exact (conj Ma Mc)|]. split; [exact (conj Mb Md)|]. split; [exact (eq_trans Vb (eq_sym Va))|]. exact (eq_trans Vd (f_equal Ropp (eq_sym Vc))). }
  pose proof (Hf p q HM) as HF. cbv zeta. unfold spectral_function_with_eps_c64.
  change (c64_plus (x, f64_zero) (c64_times c64_I eps)) with p. change (c64_minus (x, f64_zero) (c64_times c64_I eps)) with q.
  destruct (f p) as (a, b). destruct (f q) as (a', b'). unfold mirrored in HF. cbn [fst snd] in HF. destruct HF as (((Fa & Ba) & (Fb & Bb)) & ((Fa' & Ba') & (Fb' & Bb')) & Ea & Eb).
  unfold c64_minus, c64_mult, c64_over, c64_I. cbn [fst snd].
  destruct (minus_ok a a' 0 Fa Fa' ltac:(lia)) as (G1 & W1). { rewrite Ea, Rminus_diag_eq, Rabs_R0 by auto. apply bpow_ge_0. } rewrite Ea, Rminus_diag_eq, rnd_0 in W1 by auto.
  assert (B2 : Rabs (2 * val b) <= bpow radix2 1001). { rewrite Rabs_mult, (Rabs_pos_eq 2) by lra. change 1001%Z with (1 + 1000)%Z. rewrite bpow_plus. change (bpow radix2 1) with 2. lra. }
  destruct (minus_ok b b' 1001 Fb Fb' ltac:(lia)) as (G2 & W2). { rewrite Eb. replace (val b - - val b) with (2 * val b) by ring. exact B2. }
  rewrite Eb in W2. replace (val b - - val b) with (2 * val b) in W2 by ring. pose proof (rnd_big _ 1001 ltac:(lia) B2) as B3. rewrite <- W2 in B3.
  set (w1 := a [-] a') in *. set (w2 := b [-] b') in *. clearbody w1 w2. destruct zero_val as (Fz & Vz), one_val as (Fo & Vo).
  assert (Z2 : fin (f64_zero [*] w2) /\ val (f64_zero [*] w2) = 0).
  { destruct (mult_ok f64_zero w2 0 Fz G2 ltac:(lia)) as (G & V); [rewrite Vz, Rmult_0_l, Rabs_R0; apply bpow_ge_0|]. split; [exact G|]. rewrite V, Vz, Rmult_0_l. apply rnd_0. }
  assert (Z1 : fin (f64_zero [*] w1) /\ val (f64_zero [*] w1) = 0).
  { destruct (mult_ok f64_zero w1 0 Fz G1 ltac:(lia)) as (G & V); [rewrite Vz, Rmult_0_l, Rabs_R0; apply bpow_ge_0|]. split; [exact G|]. rewrite V, Vz, Rmult_0_l. apply rnd_0. }
  assert (O1 : fin (f64_one [*] w1) /\ val (f64_one [*] w1) = 0).
  { destruct (mult_ok f64_one w1 0 Fo G1 ltac:(lia)) as (G & V); [rewrite W1, Rmult_0_r, Rabs_R0; apply bpow_ge_0|]. split; [exact G|]. rewrite V, W1, Rmult_0_r. apply rnd_0. }
  assert (O2 : fin (f64_one [*] w2) /\ val (f64_one [*] w2) = val w2).
  { destruct (mult_ok f64_one w2 1001 Fo G2 ltac:(lia)) as (G & V); [rewrite Vo, Rmult_1_l; exact B3|]. split; [exact G|]. rewrite V, Vo, Rmult_1_l. apply rnd_val. }
  destruct Z1 as (FZ1 & VZ1), Z2 as (FZ2 & VZ2), O1 as (FO1 & VO1), O2 as (FO2 & VO2).
  destruct (minus_ok _ _ 1001 FZ1 FO2 ltac:(lia)) as (Gr & Wr). { rewrite VZ1, VO2, Rminus_0_l, Rabs_Ropp. exact B3. }
  rewrite VZ1, VO2, Rminus_0_l in Wr.
  assert (Q : rnd (- val w2) = - val w2). { replace (- val w2) with (-1 * val w2) by ring. rewrite <- rnd_sgn by (now right). now rewrite rnd_val. } rewrite Q in Wr.
  destruct (plus_ok _ _ 0 FZ2 FO1 ltac:(lia)) as (Gi & Wi). { rewrite VZ2, VO1, Rplus_0_l, Rabs_R0. apply bpow_ge_0. } rewrite VZ2, VO1, Rplus_0_l, rnd_0 in Wi.
  destruct den_near as (FD & ND & HP). apply Rabs_le_inv in ND. pose proof ub as UB. set (D := den) in *.
  assert (HD : 627 / 100 <= val D <= 631 / 100) by lra. assert (ND0 : val D <> 0) by (intros H; lra).
  set (wr := f64_zero [*] w1 [-] f64_one [*] w2) in *. set (wi := f64_zero [*] w2 [+] f64_one [*] w1) in *. clearbody wr wi D.
  assert (IV : 0 < / val D <= 16 / 100). { split; [apply Rinv_0_lt_compat; lra|]. replace (16 / 100) with (/ (100 / 16)) by lra. apply Rinv_le_contravar; lra. }
  destruct (div_ok wr D 1001 Gr ND0 ltac:(lia)) as (Fr & Vr).
  { unfold Rdiv. rewrite Rabs_mult, Wr, Rabs_Ropp, (Rabs_pos_eq (/ val D)) by lra. pose proof (Rabs_pos (val w2)). apply Rle_trans with (Rabs (val w2) * 1); [apply Rmult_le_compat_l; lra|lra]. }
  destruct (div_ok wi D 0 Gi ND0 ltac:(lia)) as (Fi & Vi). { rewrite Wi. unfold Rdiv. rewrite Rmult_0_l, Rabs_R0. apply bpow_ge_0. }
  rewrite Wi in Vi. unfold Rdiv in Vi. rewrite Rmult_0_l, rnd_0 in Vi.
  split; [exact Fr|]. split; [exact Fi|]. split; [exact Vi|].
  rewrite Wr in Vr. fold u eta.
  assert (HR : Rabs (val (wr [/] D) - - val w2 / val D) <= u * (Rabs (val w2) * / val D) + eta).
  { rewrite Vr. pose proof (rnd_err' (- val w2 / val D)) as E. unfold Rdiv in E at 3. rewrite Rabs_mult, Rabs_Ropp, (Rabs_pos_eq (/ val D)) in E by lra. exact E. }
  set (B := Rabs (val b)) in *. assert (PB : 0 <= B) by apply Rabs_pos.
  assert (HW : Rabs (val w2 - 2 * val b) <= u * (2 * B) + eta). { rewrite W2. pose proof (rnd_err' (2 * val b)) as E. rewrite (Rabs_mult 2), (Rabs_pos_eq 2) in E by lra. exact E. }
  set (c := / val D) in *. set (d := / PI) in *.
  assert (Pd : 0 < d) by (apply Rinv_0_lt_compat; lra).
  assert (CD : Rabs (2 * c - d) <= 25 / 10 * u * d).
  { replace (2 * c - d) with ((2 * PI - val D) * c * d) by (unfold c, d; field; split; lra). rewrite !Rabs_mult, (Rabs_pos_eq c), (Rabs_pos_eq d) by lra. apply Rmult_le_compat_r; [lra|].
    assert (Rabs (2 * PI - val D) <= 15 * u) by (apply Rabs_le; lra). pose proof (Rabs_pos (2 * PI - val D)). nra. }
  pose proof eta_ub as EU. pose proof eta_pos as EP.
  assert (AW : Rabs (val w2) <= 2 * B + (u * (2 * B) + eta)).
  { replace (val w2) with (2 * val b + (val w2 - 2 * val b)) by ring. apply Rle_trans with (1 := Rabs_triang _ _). rewrite (Rabs_mult 2), (Rabs_pos_eq 2) by lra. fold B. lra. }
  replace (val (wr [/] D) + val b / PI) with ((val (wr [/] D) - - val w2 / val D) + (- (val w2 - 2 * val b) * c + - val b * (2 * c - d))) by (unfold c, d; field; split; lra).
  apply Rle_trans with (1 := Rabs_triang _ _). apply Rle_trans with (u * (Rabs (val w2) * c) + eta + ((u * (2 * B) + eta) * c + B * (25 / 10 * u * d))).
  { apply Rplus_le_compat; [exact HR|]. apply Rle_trans with (1 := Rabs_triang _ _). apply Rplus_le_compat.
    - rewrite Rabs_mult, Rabs_Ropp, (Rabs_pos_eq c) by lra. apply Rmult_le_compat_r; [lra|exact HW].
    - rewrite Rabs_mult, Rabs_Ropp. fold B. apply Rmult_le_compat_l; [exact PB|exact CD]. }
  unfold Rdiv. fold d.
  assert (C2 : 2 * c <= 101 / 100 * d). { apply Rabs_le_inv in CD. nra. }
  assert (S1 : Rabs (val w2) * c <= (2 * B + (u * (2 * B) + eta)) * c) by (apply Rmult_le_compat_r; [lra|exact AW]).
  assert (S2 : B * (2 * c) <= B * (101 / 100 * d)) by (apply Rmult_le_compat_l; lra).
  set (X := B * d) in *. assert (PX : 0 <= X) by (unfold X; apply Rmult_le_pos; lra).
  replace (B * (25 * / 10 * u * d)) with (25 / 10 * u * X) by (unfold X, Rdiv; ring).
  replace (B * (101 / 100 * d)) with (101 / 100 * X) in S2 by (unfold X; ring).
  assert (S3 : Rabs (val w2) * c <= 101 / 100 * X * (1 + u) + eta) by nra.
  assert (S4 : (u * (2 * B) + eta) * c <= u * (101 / 100 * X) + 2 / 10 * eta) by nra.
  assert (S5 : u * (Rabs (val w2) * c) <= u * (101 / 100 * X * (1 + u) + eta)) by (apply Rmult_le_compat_l; lra).
  assert (S6 : u * (101 / 100 * X * (1 + u) + eta) <= u * (103 / 100 * X) + 1 / 10 * eta).
  { assert (T0 : 0 <= u * X) by (apply Rmult_le_pos; lra). assert (T1 : u * X * u <= u * X * / 1000) by (apply Rmult_le_compat_l; lra). assert (T2 : u * eta <= / 10 * eta) by (apply Rmult_le_compat_r; lra).
    replace (u * (101 / 100 * X * (1 + u) + eta)) with (101 / 100 * (u * X) + 101 / 100 * (u * X * u) + u * eta) by ring. lra. }
  assert (0 <= u * X) by (apply Rmult_le_pos; lra). lra.
Qed.
Lemma nan_sub_l x y : f64_isnan x = true -> f64_isnan (x [-] y) = true. Proof. destruct x, y; intros H; try discriminate H; reflexivity. Qed.
Lemma zn_cases a : zn a -> zero_or_nan a.
Proof. intros [->|H]; [left; split; reflexivity|now right]. Qed.
Lemma sp_far f z eps : moderate (fst z) -> val (fst z) <> 0 -> far (snd z) -> tiny_step eps ->
  let r := spectral_function_with_eps_c64 f z eps in zero_or_nan (fst r) /\ zero_or_nan (snd r).
Proof.
  destruct z as (x, y). cbv zeta. intros Mx Nx Hy (Fe & Be).
  assert (Me : moderate eps). { split; [exact Fe|]. apply Rle_trans with (bpow radix2 (-39)); [lra|apply bpow_le; lia]. }
  destruct (step_I eps Me) as ((F0 & V0) & (F1 & V1)). destruct (add0 x _ Mx F0 V0) as (((Ga & _) & Va) & ((Gb & _) & Vb)).
  assert (X1 : x [+] (f64_zero [*] eps) = x) by (apply val_inj; [exact Ga|exact (proj1 Mx)|exact Va|rewrite Va; exact Nx]).
  assert (X2 : x [-] (f64_zero [*] eps) = x) by (apply val_inj; [exact Gb|exact (proj1 Mx)|exact Vb|rewrite Vb; exact Nx]).
  destruct (step_lost y (f64_one [*] eps) Hy F1) as (Y1 & Y2); [rewrite V1; exact Be|].
  assert (P1 : c64_plus (x, y) (c64_times c64_I eps) = (x, y)) by exact (f_equal2 pair X1 Y1).
  assert (P2 : c64_minus (x, y) (c64_times c64_I eps) = (x, y)) by exact (f_equal2 pair X2 Y2).
  unfold spectral_function_with_eps_c64. rewrite P1, P2. unfold c64_minus. destruct (f (x, y)) as (a, b). cbn [fst snd].
  destruct (self_minus a) as [A0|A0], (self_minus b) as [B0|B0].
  - change (zero_or_nan (fst (c64_over (c64_mult c64_I (a [-] a, b [-] b)) den)) /\ zero_or_nan (snd (c64_over (c64_mult c64_I (a [-] a, b [-] b)) den))).
    assert (E : (a [-] a, b [-] b) = (B754_zero 53 1024 false, B754_zero 53 1024 false)) by exact (f_equal2 pair A0 B0). rewrite E.
    unfold zero_or_nan, c64_over, c64_mult, c64_I. cbn [fst snd]. split; left; (split; [vm_compute; reflexivity|]).
    + assert (Q : is_finite_strict 53 1024 ((f64_zero [*] B754_zero 53 1024 false [-] f64_one [*] B754_zero 53 1024 false) [/] den) = false) by (vm_compute; reflexivity).
      destruct ((f64_zero [*] B754_zero 53 1024 false [-] f64_one [*] B754_zero 53 1024 false) [/] den); try discriminate Q; reflexivity.
    + assert (Q : is_finite_strict 53 1024 ((f64_zero [*] B754_zero 53 1024 false [+] f64_one [*] B754_zero 53 1024 false) [/] den) = false) by (vm_compute; reflexivity).
      destruct ((f64_zero [*] B754_zero 53 1024 false [+] f64_one [*] B754_zero 53 1024 false) [/] den); try discriminate Q; reflexivity.
  - split; right; apply PRes64.nan_div_l; [apply PRes64.nan_sub_r|apply PRes64.nan_add_l]; apply PRes64.nan_mul_r, B0.
  - split; right; apply PRes64.nan_div_l; [apply nan_sub_l|apply PRes64.nan_add_r]; apply PRes64.nan_mul_r, A0.
  - split; right; apply PRes64.nan_div_l; [apply PRes64.nan_sub_r|apply PRes64.nan_add_l]; apply PRes64.nan_mul_r, B0.
Qed.
