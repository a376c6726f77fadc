(** * Grids in binary64: what holds for all parameters *)
From Coq Require Import ZArith Reals Psatz Lia List.
From Flocq Require Import Core IEEE754.BinarySingleNaN IEEE754.Binary IEEE754.Bits Relative.
From Verif Require Import MFloat MGrid SpecGrid.
Open Scope R_scope.

Notation fexp64 := (SpecFloat.fexp 53 1024).
Definition rnd (x : R) : R := round radix2 fexp64 ZnearestE x.
Lemma rnd_err x : Rabs (rnd x - x) <= bpow radix2 (-53) * Rabs x + bpow radix2 (-1075).
Proof.
  destruct (error_N_FLT radix2 (-1074) 53 ltac:(lia) (fun z => negb (Z.even z)) x) as (e & h & He & Hh & _ & E).
  unfold rnd. replace (round radix2 fexp64 ZnearestE x) with (x * (1 + e) + h).
  - replace (x * (1 + e) + h - x) with (x * e + h) by ring. apply Rle_trans with (1 := Rabs_triang _ _). rewrite Rabs_mult, (Rmult_comm (Rabs x)).
    apply Rplus_le_compat; [apply Rmult_le_compat_r; [apply Rabs_pos|]|].
    + apply Rle_trans with (1 := He). right. change (- (53) + 1)%Z with (-52)%Z. change (-53)%Z with (-1 + -52)%Z. rewrite (bpow_plus radix2 (-1) (-52)). reflexivity.
    + apply Rle_trans with (1 := Hh). right. change (-1075)%Z with (-1 + -1074)%Z. rewrite bpow_plus. reflexivity.
Qed.
Lemma rnd_mono x y : x <= y -> rnd x <= rnd y.
Proof. apply round_le; [apply (fexp_correct 53 1024); reflexivity|apply valid_rnd_N]. Qed.
Lemma rnd_0 : rnd 0 = 0. Proof. apply round_0. apply valid_rnd_N. Qed.
Lemma rnd_val x : rnd (val x) = val x.
Proof. apply round_generic; [apply valid_rnd_N|apply generic_format_B2R]. Qed.
Lemma rnd_big x e : (-1000 <= e <= 1020)%Z -> Rabs x <= bpow radix2 e -> Rabs (rnd x) <= bpow radix2 e.
Proof.
  intros He H. apply abs_round_le_generic; auto; [apply (fexp_correct 53 1024); reflexivity|apply valid_rnd_N|].
  apply generic_format_bpow. unfold SpecFloat.fexp, SpecFloat.emin. lia.
Qed.
Lemma big_ok x e : (-1000 <= e <= 1020)%Z -> Rabs x <= bpow radix2 e -> Rlt_bool (Rabs (rnd x)) (bpow radix2 1024) = true.
Proof. intros He H. apply Rlt_bool_true. apply Rle_lt_trans with (1 := rnd_big x e He H). apply bpow_lt. lia. Qed.
(** the four operations without overflow *)
Lemma plus_ok x y e : fin x -> fin y -> (-1000 <= e <= 1020)%Z -> Rabs (val x + val y) <= bpow radix2 e -> fin (x [+] y) /\ val (x [+] y) = rnd (val x + val y).
Proof.
  intros Fx Fy He H. pose proof (Bplus_correct 53 1024 eq_refl eq_refl binop_nan_pl64 mode_NE x y Fx Fy) as C. fold (val x) (val y) in C. fold (rnd (val x + val y)) in C.
  change (round radix2 fexp64 (round_mode mode_NE) (val x + val y)) with (rnd (val x + val y)) in C. rewrite (big_ok _ e He H) in C. destruct C as (C1 & C2 & _). split; auto.
Qed.
Lemma minus_ok x y e : fin x -> fin y -> (-1000 <= e <= 1020)%Z -> Rabs (val x - val y) <= bpow radix2 e -> fin (x [-] y) /\ val (x [-] y) = rnd (val x - val y).
Proof.
  intros Fx Fy He H. pose proof (Bminus_correct 53 1024 eq_refl eq_refl binop_nan_pl64 mode_NE x y Fx Fy) as C. fold (val x) (val y) in C.
  change (round radix2 fexp64 (round_mode mode_NE) (val x - val y)) with (rnd (val x - val y)) in C. rewrite (big_ok _ e He H) in C. destruct C as (C1 & C2 & _). split; auto.
Qed.
Lemma mult_ok x y e : fin x -> fin y -> (-1000 <= e <= 1020)%Z -> Rabs (val x * val y) <= bpow radix2 e -> fin (x [*] y) /\ val (x [*] y) = rnd (val x * val y).
Proof.
  intros Fx Fy He H. pose proof (Bmult_correct 53 1024 eq_refl eq_refl binop_nan_pl64 mode_NE x y) as C. fold (val x) (val y) in C.
  change (round radix2 fexp64 (round_mode mode_NE) (val x * val y)) with (rnd (val x * val y)) in C. rewrite (big_ok _ e He H) in C. destruct C as (C1 & C2 & _). split; auto. unfold fin in *. rewrite Fx, Fy in C2. exact C2.
Qed.
Lemma div_ok x y e : fin x -> val y <> 0 -> (-1000 <= e <= 1020)%Z -> Rabs (val x / val y) <= bpow radix2 e -> fin (x [/] y) /\ val (x [/] y) = rnd (val x / val y).
Proof.
  intros Fx Hy He H. pose proof (Bdiv_correct 53 1024 eq_refl eq_refl binop_nan_pl64 mode_NE x y Hy) as C. fold (val x) (val y) in C.
  change (round radix2 fexp64 (round_mode mode_NE) (val x / val y)) with (rnd (val x / val y)) in C. rewrite (big_ok _ e He H) in C. destruct C as (C1 & C2 & _). split; auto. unfold fin in *. rewrite Fx in C2. exact C2.
Qed.
Lemma of_Z_ok z : (Z.abs z <= 2 ^ 53)%Z -> fin (f64_of_Z z) /\ val (f64_of_Z z) = IZR z.
Proof.
  intros Hz. pose proof (binary_normalize_correct 53 1024 eq_refl eq_refl mode_NE z 0 false) as C.
  assert (E : F2R (Float radix2 z 0) = IZR z) by (unfold F2R; simpl; ring). rewrite E in C. change (round radix2 fexp64 (round_mode mode_NE) (IZR z)) with (rnd (IZR z)) in C.
  assert (B : Rabs (IZR z) <= bpow radix2 53) by (rewrite <- abs_IZR; change (bpow radix2 53) with (IZR (2 ^ 53)); apply IZR_le; exact Hz).
  rewrite (big_ok _ 53 ltac:(lia) B) in C. destruct C as (C1 & C2 & _). split; auto.
  unfold val, f64_of_Z. rewrite C1. unfold rnd. apply round_generic; [apply valid_rnd_N|].
  destruct (Z.eq_dec (Z.abs z) (2 ^ 53)) as [Q|Q].
  - assert (D : z = (2 ^ 53)%Z \/ z = (- 2 ^ 53)%Z) by lia. destruct D as [-> | ->].
    + change (IZR (2 ^ 53)) with (bpow radix2 53). apply generic_format_bpow. unfold SpecFloat.fexp, SpecFloat.emin. lia.
    + change (IZR (- 2 ^ 53)) with (- bpow radix2 53). apply generic_format_opp, generic_format_bpow. unfold SpecFloat.fexp, SpecFloat.emin. lia.
  - apply (generic_format_FLT radix2 (-1074) 53). exists (Float radix2 z 0); simpl; [now rewrite E| |lia]. change (2 ^ 53)%Z with (Z.pow_pos 2 53) in *. lia.
Qed.
Lemma of_nat_ok k : (Z.of_nat k <= 2 ^ 53)%Z -> fin (f64_of_nat k) /\ val (f64_of_nat k) = INR k.
Proof. intros H. rewrite INR_IZR_INZ. apply (of_Z_ok (Z.of_nat k)). lia. Qed.

Definition u : R := bpow radix2 (-53).
Definition eta : R := bpow radix2 (-1075).
Lemma rnd_err' x : Rabs (rnd x - x) <= u * Rabs x + eta. Proof. apply rnd_err. Qed.
Lemma u_pos : 0 < u. Proof. apply bpow_gt_0. Qed.
Lemma eta_pos : 0 < eta. Proof. apply bpow_gt_0. Qed.
Lemma u_small : 4 * u = bpow radix2 (-51) /\ 8 * u = bpow radix2 (-50) /\ u <= / 1000.
Proof.
  split; [|split].
  - change 4 with (bpow radix2 2). unfold u. rewrite <- bpow_plus. reflexivity.
  - change 8 with (bpow radix2 3). unfold u, eta. rewrite <- bpow_plus. reflexivity.
  - apply Rle_trans with (bpow radix2 (-10)); [apply bpow_le; lia|]. simpl. lra.
Qed.
Lemma eta_small : 8 * eta <= bpow radix2 (-1000).
Proof. change 8 with (bpow radix2 3). unfold u, eta. rewrite <- bpow_plus. apply bpow_le. lia. Qed.
Lemma INR_bound k : (Z.of_nat k <= 2 ^ 53)%Z -> INR k <= bpow radix2 53.
Proof. intros H. rewrite INR_IZR_INZ. change (bpow radix2 53) with (IZR (2 ^ 53)). now apply IZR_le. Qed.
Lemma rnd_nonneg x : 0 <= x -> 0 <= rnd x.
Proof. intros H. rewrite <- rnd_0. now apply rnd_mono. Qed.

Lemma div_nonneg x y : 0 <= x -> 0 < y -> 0 <= x / y.
Proof. intros. apply Rmult_le_pos; auto. left. now apply Rinv_0_lt_compat. Qed.
Lemma shrink y x : 0 <= x -> 0 <= y <= 1 -> y * x <= x. Proof. intros. nra. Qed.
Lemma shrink' y c x : y <= c -> 0 <= x -> y * x <= c * x. Proof. intros. now apply Rmult_le_compat_r. Qed.

Section Step.
Variables vmin dv : F64.
Hypothesis Fmin : fin vmin.
Hypothesis Fdv : fin dv.
Hypothesis Bmin : Rabs (val vmin) <= bpow radix2 1000.
Hypothesis Bdv : 0 <= val dv <= bpow radix2 900.
Lemma prod_bound x k : 0 <= x <= bpow radix2 900 -> (Z.of_nat k <= 2 ^ 53)%Z -> 0 <= x * INR k <= bpow radix2 953.
Proof. intros Hx Hk. pose proof (INR_bound k Hk). pose proof (pos_INR k). split; [nra|]. change 953%Z with (900 + 53)%Z. rewrite bpow_plus. apply Rmult_le_compat; lra. Qed.
Lemma sum_bound y : Rabs y <= bpow radix2 1000 -> Rabs (val vmin + y) <= bpow radix2 1001.
Proof. intros H. apply Rle_trans with (1 := Rabs_triang _ _). change 1001%Z with (1 + 1000)%Z. rewrite bpow_plus. change (bpow radix2 1) with 2. lra. Qed.
Lemma step_val k : (Z.of_nat k <= 2 ^ 53)%Z -> fin (step_point vmin dv k) /\ val (step_point vmin dv k) = rnd (val vmin + rnd (val dv * INR k)).
Proof.
  intros Hk. destruct (of_nat_ok k Hk) as (F1 & V1). pose proof (prod_bound (val dv) k Bdv Hk) as P.
  assert (P' : Rabs (val dv * val (f64_of_nat k)) <= bpow radix2 953) by (rewrite V1, Rabs_pos_eq; lra).
  destruct (mult_ok dv (f64_of_nat k) 953 Fdv F1 ltac:(lia) P') as (F2 & V2). rewrite V1 in V2.
  assert (Q : Rabs (val (dv [*] f64_of_nat k)) <= bpow radix2 1000).
  { rewrite V2. apply Rle_trans with (bpow radix2 953); [apply rnd_big; [lia|rewrite Rabs_pos_eq; lra]|apply bpow_le; lia]. }
  destruct (plus_ok vmin (dv [*] f64_of_nat k) 1001 Fmin F2 ltac:(lia) (sum_bound _ Q)) as (F3 & V3). unfold step_point. split; auto. now rewrite V3, V2.
Qed.
Lemma step_mono j k : (j <= k)%nat -> (Z.of_nat k <= 2 ^ 53)%Z -> val (step_point vmin dv j) <= val (step_point vmin dv k).
Proof.
  intros L Hk. rewrite (proj2 (step_val j ltac:(lia))), (proj2 (step_val k Hk)). apply rnd_mono, Rplus_le_compat_l, rnd_mono, Rmult_le_compat_l; [lra|]. now apply le_INR.
Qed.
Lemma step_first : val (step_point vmin dv 0) = val vmin.
Proof. rewrite (proj2 (step_val 0 ltac:(lia))). simpl INR. rewrite Rmult_0_r, rnd_0, Rplus_0_r. apply rnd_val. Qed.
Lemma step_err k : (Z.of_nat k <= 2 ^ 53)%Z -> Rabs (val (step_point vmin dv k) - (val vmin + val dv * INR k)) <= bpow radix2 (-51) * (Rabs (val vmin) + val dv * INR k) + bpow radix2 (-1000).
Proof.
  intros Hk. rewrite (proj2 (step_val k Hk)). pose proof (proj1 (prod_bound (val dv) k Bdv Hk)) as P. set (a := val dv * INR k) in *. set (v := val vmin).
  pose proof (rnd_err' a) as E1. rewrite (Rabs_pos_eq a) in E1 by lra. pose proof (rnd_err' (v + rnd a)) as E2.
  destruct u_small as (U1 & _ & U2). pose proof u_pos. pose proof eta_pos. pose proof eta_small.
  assert (E3 : Rabs (v + rnd a) <= Rabs v + a + (u * a + eta)).
  { replace (v + rnd a) with (v + (a + (rnd a - a))) by ring. apply Rle_trans with (1 := Rabs_triang _ _). pose proof (Rabs_triang a (rnd a - a)). rewrite (Rabs_pos_eq a) in * by lra. lra. }
  replace (rnd (v + rnd a) - (v + a)) with ((rnd (v + rnd a) - (v + rnd a)) + (rnd a - a)) by ring. apply Rle_trans with (1 := Rabs_triang _ _). rewrite <- U1. pose proof (Rabs_pos v).
  assert (u * Rabs (v + rnd a) <= u * (Rabs v + a + (u * a + eta))) by (apply Rmult_le_compat_l; lra).
  assert (0 <= u * Rabs v) by (apply Rmult_le_pos; lra). assert (0 <= u * a) by (apply Rmult_le_pos; lra).
  assert (u * (u * a) <= u * a) by (apply shrink; lra). assert (u * eta <= eta) by (apply shrink; lra). lra.
Qed.

(** points [vmin + vrange * k / n] *)
Lemma quot_bound x n : 0 <= x <= bpow radix2 953 -> (0 < n)%nat -> 0 <= x / INR n <= bpow radix2 953.
Proof.
  intros Hx Hn. assert (1 <= INR n) by (apply (le_INR 1); lia). split; [apply div_nonneg; lra|]. apply Rle_trans with (2 := proj2 Hx).
  apply Rmult_le_reg_r with (INR n); [lra|]. unfold Rdiv. rewrite Rmult_assoc, Rinv_l by lra. nra.
Qed.
Lemma frac_val n k : (0 < n)%nat -> (k <= n)%nat -> (Z.of_nat n <= 2 ^ 53)%Z ->
  fin (frac_point vmin dv n k) /\ val (frac_point vmin dv n k) = rnd (val vmin + rnd (rnd (val dv * INR k) / INR n)).
Proof.
  intros Hn Hk HN. destruct (of_nat_ok k ltac:(lia)) as (F1 & V1). destruct (of_nat_ok n HN) as (F0 & V0). pose proof (prod_bound (val dv) k Bdv ltac:(lia)) as P.
  assert (P' : Rabs (val dv * val (f64_of_nat k)) <= bpow radix2 953) by (rewrite V1, Rabs_pos_eq; lra).
  destruct (mult_ok dv (f64_of_nat k) 953 Fdv F1 ltac:(lia) P') as (F2 & V2). rewrite V1 in V2. assert (1 <= INR n) by (apply (le_INR 1); lia).
  assert (R : 0 <= rnd (val dv * INR k) <= bpow radix2 953).
  { split; [apply rnd_nonneg; lra|]. pose proof (rnd_big (val dv * INR k) 953 ltac:(lia) ltac:(rewrite Rabs_pos_eq; lra)). pose proof (Rle_abs (rnd (val dv * INR k))). lra. }
  pose proof (quot_bound _ n R Hn) as Q.
  destruct (div_ok (dv [*] f64_of_nat k) (f64_of_nat n) 953 F2 ltac:(rewrite V0; lra) ltac:(lia) ltac:(rewrite V0, V2, Rabs_pos_eq; lra)) as (F3 & V3). rewrite V0, V2 in V3.
  assert (Q' : Rabs (val (dv [*] f64_of_nat k [/] f64_of_nat n)) <= bpow radix2 1000).
  { rewrite V3. apply Rle_trans with (bpow radix2 953); [apply rnd_big; [lia|rewrite Rabs_pos_eq; lra]|apply bpow_le; lia]. }
  destruct (plus_ok vmin (dv [*] f64_of_nat k [/] f64_of_nat n) 1001 Fmin F3 ltac:(lia) (sum_bound _ Q')) as (F4 & V4). unfold frac_point. split; auto. now rewrite V4, V3.
Qed.
Lemma frac_mono n j k : (0 < n)%nat -> (j <= k <= n)%nat -> (Z.of_nat n <= 2 ^ 53)%Z -> val (frac_point vmin dv n j) <= val (frac_point vmin dv n k).
Proof.
  intros Hn L HN. rewrite (proj2 (frac_val n j Hn ltac:(lia) HN)), (proj2 (frac_val n k Hn ltac:(lia) HN)). assert (1 <= INR n) by (apply (le_INR 1); lia).
  apply rnd_mono, Rplus_le_compat_l, rnd_mono. unfold Rdiv. apply Rmult_le_compat_r; [left; apply Rinv_0_lt_compat; lra|]. apply rnd_mono, Rmult_le_compat_l; [lra|]. apply le_INR. lia.
Qed.
Lemma frac_first n : (0 < n)%nat -> (Z.of_nat n <= 2 ^ 53)%Z -> val (frac_point vmin dv n 0) = val vmin.
Proof. intros Hn HN. rewrite (proj2 (frac_val n 0 Hn ltac:(lia) HN)). simpl INR. rewrite Rmult_0_r, rnd_0. unfold Rdiv. rewrite Rmult_0_l, rnd_0, Rplus_0_r. apply rnd_val. Qed.
Lemma frac_err n k : (0 < n)%nat -> (k <= n)%nat -> (Z.of_nat n <= 2 ^ 53)%Z ->
  Rabs (val (frac_point vmin dv n k) - (val vmin + val dv * INR k / INR n)) <= bpow radix2 (-50) * (Rabs (val vmin) + val dv) + bpow radix2 (-1000).
Proof.
  intros Hn Hk HN. rewrite (proj2 (frac_val n k Hn Hk HN)). pose proof (proj1 (prod_bound (val dv) k Bdv ltac:(lia))) as P. assert (N1 : 1 <= INR n) by (apply (le_INR 1); lia).
  assert (C : 0 <= val dv * INR k / INR n <= val dv).
  { split; [apply div_nonneg; lra|]. apply Rmult_le_reg_r with (INR n); [lra|]. unfold Rdiv. rewrite Rmult_assoc, Rinv_l by lra. apply le_INR in Hk. nra. }
  set (a := val dv * INR k) in *. set (v := val vmin). set (c := a / INR n) in *. set (b := rnd a / INR n).
  pose proof (rnd_err' a) as E1. rewrite (Rabs_pos_eq a) in E1 by lra.
  destruct u_small as (_ & U1 & U2). pose proof u_pos. pose proof eta_pos. pose proof eta_small. pose proof (Rabs_pos v).
  assert (I1 : 0 < / INR n <= 1) by (split; [apply Rinv_0_lt_compat; lra|rewrite <- Rinv_1; apply Rinv_le_contravar; lra]).
  assert (E2 : Rabs (b - c) <= u * c + eta).
  { unfold b, c, Rdiv. rewrite <- Rmult_minus_distr_r, Rabs_mult, (Rabs_pos_eq (/ INR n)) by lra. apply Rle_trans with ((u * a + eta) * / INR n); [apply Rmult_le_compat_r; lra|]. nra. }
  pose proof (rnd_err' b) as E3. pose proof (rnd_err' (v + rnd b)) as E4.
  assert (Bb : Rabs b <= c + (u * c + eta)). { replace b with (c + (b - c)) by ring. apply Rle_trans with (1 := Rabs_triang _ _). rewrite (Rabs_pos_eq c) by lra. lra. }
  assert (u * Rabs b <= u * (c + (u * c + eta))) by (apply Rmult_le_compat_l; lra).
  assert (0 <= u * c) by (apply Rmult_le_pos; lra). assert (u * (u * c) <= / 1000 * (u * c)) by (apply Rmult_le_compat_r; lra). assert (u * eta <= / 1000 * eta) by (apply Rmult_le_compat_r; lra).
  assert (E5 : Rabs (rnd b - c) <= 3 * (u * c) + 3 * eta).
  { replace (rnd b - c) with ((rnd b - b) + (b - c)) by ring. apply Rle_trans with (1 := Rabs_triang _ _). lra. }
  assert (E6 : Rabs (v + rnd b) <= Rabs v + c + (3 * (u * c) + 3 * eta)).
  { replace (v + rnd b) with (v + (c + (rnd b - c))) by ring. apply Rle_trans with (1 := Rabs_triang _ _). pose proof (Rabs_triang c (rnd b - c)). rewrite (Rabs_pos_eq c) in * by lra. lra. }
  assert (u * Rabs (v + rnd b) <= u * (Rabs v + c + (3 * (u * c) + 3 * eta))) by (apply Rmult_le_compat_l; lra).
  replace (rnd (v + rnd b) - (v + c)) with ((rnd (v + rnd b) - (v + rnd b)) + (rnd b - c)) by ring. apply Rle_trans with (1 := Rabs_triang _ _). rewrite <- U1.
  assert (u * c <= u * val dv) by (apply Rmult_le_compat_l; lra). assert (0 <= u * Rabs v) by (apply Rmult_le_pos; lra). lra.
Qed.
End Step.

(** ** The number of points *)
Lemma as_uint_ok x : fin x -> 0 <= val x <= bpow radix2 60 -> IZR (f64_as_uint 64 x) = IZR (Zfloor (val x)) /\ (0 <= f64_as_uint 64 x)%Z.
Proof.
  intros F B. pose proof (Btrunc_correct 53 1024 eq_refl x) as T. fold (val x) in T. rewrite round_FIX_IZR in T. apply eq_IZR in T. rewrite Ztrunc_floor in T by lra.
  assert (Z0 : (0 <= Zfloor (val x))%Z) by (apply Zfloor_lub; lra).
  assert (Z1 : (Zfloor (val x) <= 2 ^ 60)%Z). { apply le_IZR. apply Rle_trans with (1 := Zfloor_lb _). exact (proj2 B). }
  assert (E : f64_as_uint 64 x = Zfloor (val x)).
  { assert (2 ^ 60 < 2 ^ 64 - 1)%Z by reflexivity. destruct x as [s|s|s pl Hpl|s m e Hm]; try discriminate F; unfold f64_as_uint; rewrite T; rewrite Z.max_r by lia; apply Z.min_r; lia. }
  rewrite E. split; auto.
Qed.
Section Count.
Variables vmin vmax dv : F64.
Hypothesis Fmin : fin vmin.
Hypothesis Fmax : fin vmax.
Hypothesis Fdv : fin dv.
Hypothesis Bmin : Rabs (val vmin) <= bpow radix2 900.
Hypothesis Bmax : Rabs (val vmax) <= bpow radix2 900.
Hypothesis Bdv : bpow radix2 (-900) <= val dv.
Notation q := ((val vmax - val vmin) / val dv).
Hypothesis Bq : 1 <= q <= bpow radix2 50.
Lemma quot_val : fin ((vmax [-] vmin) [/] dv) /\ Rabs (val ((vmax [-] vmin) [/] dv) - q) <= bpow radix2 (-51) * q.
Proof.
  pose proof (bpow_gt_0 radix2 (-900)) as P9. set (d := val vmax - val vmin). assert (Hd : val dv <= d).
  { destruct Bq as (Q & _). apply Rmult_le_reg_r with (/ val dv); [apply Rinv_0_lt_compat; lra|]. rewrite Rinv_r by lra. exact Q. }
  assert (Bd : Rabs (val vmax - val vmin) <= bpow radix2 901).
  { unfold Rminus. apply Rle_trans with (1 := Rabs_triang _ _). rewrite Rabs_Ropp. change 901%Z with (1 + 900)%Z. rewrite bpow_plus. change (bpow radix2 1) with 2. lra. }
  destruct (minus_ok vmax vmin 901 Fmax Fmin ltac:(lia) Bd) as (F1 & V1). fold d in V1.
  pose proof (rnd_err' d) as E1. rewrite (Rabs_pos_eq d) in E1 by lra.
  destruct u_small as (U1 & _ & U2). pose proof u_pos. pose proof eta_pos.
  assert (Ed : eta <= / 1000 * (u * val dv)).
  { apply Rle_trans with (bpow radix2 (-10) * (u * bpow radix2 (-900))).
    - unfold u, eta. rewrite <- !bpow_plus. apply bpow_le. lia.
    - apply Rmult_le_compat; [apply bpow_ge_0|apply Rmult_le_pos; apply bpow_ge_0|simpl; lra|apply Rmult_le_compat_l; lra]. }
  set (q0 := d / val dv) in *. assert (Hq0 : 1 <= q0 <= bpow radix2 50) by exact Bq. set (q1 := rnd d / val dv).
  assert (E2 : Rabs (q1 - q0) <= u * q0 + / 1000 * u).
  { unfold q1, q0, Rdiv. rewrite <- Rmult_minus_distr_r, Rabs_mult, (Rabs_pos_eq (/ val dv)) by (left; apply Rinv_0_lt_compat; lra).
    apply Rmult_le_reg_r with (val dv); [lra|]. rewrite Rmult_assoc, Rinv_l by lra. replace ((u * (d * / val dv) + / 1000 * u) * val dv) with (u * d + / 1000 * (u * val dv)) by (field; lra). lra. }
  assert (E2' : Rabs (q1 - q0) <= q0) by nra.
  assert (B1 : 0 <= q1 <= bpow radix2 51). { change 51%Z with (1 + 50)%Z. rewrite bpow_plus. change (bpow radix2 1) with 2. unfold Rabs in E2'. destruct (Rcase_abs (q1 - q0)); lra. }
  destruct (div_ok (vmax [-] vmin) dv 51 F1 ltac:(lra) ltac:(lia) ltac:(rewrite V1; fold q1; rewrite Rabs_pos_eq; lra)) as (F2 & V2). rewrite V1 in V2. fold q1 in V2. split; auto. rewrite V2.
  pose proof (rnd_err' q1) as E3. rewrite (Rabs_pos_eq q1) in E3 by lra. rewrite <- U1. replace (rnd q1 - q0) with ((rnd q1 - q1) + (q1 - q0)) by ring. apply Rle_trans with (1 := Rabs_triang _ _).
  assert (q1 <= q0 + (u * q0 + / 1000 * u)) by (pose proof (Rle_abs (q1 - q0)); lra). assert (u * q1 <= u * (q0 + (u * q0 + / 1000 * u))) by (apply Rmult_le_compat_l; lra).
  assert (eta <= / 1000 * u). { apply Rle_trans with (bpow radix2 (-10) * u); [unfold u, eta; rewrite <- bpow_plus; apply bpow_le; lia|]. apply Rmult_le_compat_r; [lra|simpl; lra]. }
  assert (u <= u * q0) by nra. assert (u * (u * q0) <= / 1000 * (u * q0)) by (apply Rmult_le_compat_r; lra). assert (u * (/ 1000 * u) <= / 1000 * u) by (apply shrink; lra). lra.
Qed.
Lemma quot_range : 0 <= val ((vmax [-] vmin) [/] dv) <= bpow radix2 52.
Proof.
  destruct quot_val as (_ & E). destruct u_small as (U1 & _ & U2). pose proof u_pos. assert (bpow radix2 (-51) * q <= q) by (rewrite <- U1; nra).
  change 52%Z with (2 + 50)%Z. rewrite bpow_plus. change (bpow radix2 2) with 4. unfold Rabs in E. destruct (Rcase_abs _); lra.
Qed.
Lemma trunc_count : INR (grid_n vmin vmax dv) <= q * (1 + bpow radix2 (-51)) /\ q * (1 - bpow radix2 (-51)) < INR (grid_n vmin vmax dv) + 1.
Proof.
  destruct quot_val as (F & E). pose proof quot_range as B. destruct (as_uint_ok _ F) as (A1 & A2); [split; [lra|]; apply Rle_trans with (1 := proj2 B), bpow_le; lia|].
  unfold grid_n. rewrite INR_IZR_INZ, Z2Nat.id by exact A2. rewrite A1. set (x := val ((vmax [-] vmin) [/] dv)) in *.
  pose proof (Zfloor_lb x). pose proof (Zfloor_ub x). unfold Rabs in E. destruct (Rcase_abs _); lra.
Qed.
Lemma round_count : Rabs (INR (length (round_grid (vmin, vmax, dv))) - 1 - q) <= 1 / 2 + bpow radix2 (-51) * q.
Proof.
  destruct quot_val as (F & E). pose proof quot_range as B. set (y := (vmax [-] vmin) [/] dv) in *.
  unfold round_grid. rewrite map_length, seq_length, S_INR. fold y.
  pose proof (Bnearbyint_correct 53 1024 eq_refl unop_nan_pl64 mode_NA y) as (R1 & R2 & _). fold (val y) in R1.
  assert (R1' : val (f64_round y) = IZR (Znearest (Zle_bool 0) (val y))). { unfold val, f64_round. rewrite R1. rewrite round_FIX_IZR. reflexivity. }
  assert (Ff : fin (f64_round y)) by (unfold fin, f64_round; rewrite R2; exact F).
  pose proof (Znearest_half (Zle_bool 0) (val y)) as H. rewrite <- R1' in H.
  assert (Bz : 0 <= val (f64_round y) <= bpow radix2 60).
  { rewrite R1'. split.
    - apply IZR_le. apply Z.le_trans with (Zfloor (val y)); [apply Zfloor_lub; lra|]. apply Znearest_ge_floor.
    - rewrite <- R1'. assert (bpow radix2 52 + / 2 <= bpow radix2 60). { change 60%Z with (8 + 52)%Z. rewrite bpow_plus. change (bpow radix2 8) with 256. assert (1 <= bpow radix2 52) by (change 1 with (bpow radix2 0); apply bpow_le; lia). lra. }
      unfold Rabs in H. destruct (Rcase_abs _); lra. }
  destruct (as_uint_ok _ Ff Bz) as (A1 & A2). rewrite INR_IZR_INZ, Z2Nat.id by exact A2. rewrite A1.
  assert (Q : IZR (Zfloor (val (f64_round y))) = val (f64_round y)) by (rewrite R1', Zfloor_IZR; reflexivity). rewrite Q.
  replace (val (f64_round y) + 1 - 1 - q) with (- (val y - val (f64_round y)) + (val y - q)) by ring. apply Rle_trans with (1 := Rabs_triang _ _). rewrite Rabs_Ropp. lra.
Qed.
End Count.
