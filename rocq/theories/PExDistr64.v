(** * Examples: a correctly rounded exponential *)
From Coq Require Import ZArith Reals Psatz Lia List Bool.
From Flocq Require Import Core IEEE754.BinarySingleNaN IEEE754.Binary IEEE754.Bits Relative.
From Verif Require Import MFloat MGrid MFermi MDistr64 SpecGrid SpecFermi SpecDistr64 PGrid PGrid2 PGrid3 PGrid4 PFerm64 PFerm64b PFerm64d PDistr64 PDistr64b PDistr64c.
Open Scope R_scope.

Definition of_R (r : R) : F64 :=
  binary_normalize 53 1024 eq_refl eq_refl mode_NE (Ztrunc (scaled_mantissa radix2 fexp64 (rnd r))) (cexp radix2 fexp64 (rnd r)) false.
Definition cr_exp (x : F64) : F64 :=
  match x with
  | Binary.B754_nan _ _ _ => x
  | Binary.B754_infinity true => f64_zero
  | Binary.B754_infinity false => x
  | _ => of_R (exp (val x))
  end.
Lemma of_R_ok r : 0 < r -> of_R r = inf \/ fin (of_R r) /\ val (of_R r) = rnd r.
Proof.
  intros Hr. assert (V : Valid_exp fexp64) by (apply (fexp_correct 53 1024); reflexivity).
  assert (G : F2R (Float radix2 (Ztrunc (scaled_mantissa radix2 fexp64 (rnd r))) (cexp radix2 fexp64 (rnd r))) = rnd r).
  { symmetry. apply (generic_format_round radix2 fexp64 ZnearestE r). }
  pose proof (binary_normalize_correct 53 1024 eq_refl eq_refl mode_NE (Ztrunc (scaled_mantissa radix2 fexp64 (rnd r))) (cexp radix2 fexp64 (rnd r)) false) as C. cbv zeta in C. rewrite G in C. fold (of_R r) in C.
  change (round radix2 fexp64 (round_mode mode_NE) (rnd r)) with (rnd (rnd r)) in C.
  assert (I : rnd (rnd r) = rnd r) by (apply round_generic; [apply valid_rnd_N|apply generic_format_round; auto; apply valid_rnd_N]). rewrite I in C. destruct (Rlt_bool _ _) in C.
  - destruct C as (C1 & C2 & _). right. split; [exact C2|exact C1].
  - left. rewrite Rlt_bool_false in C by (apply rnd_nonneg; lra). exact (B2FF_inf _ _ C).
Qed.
Lemma of_R_range r : 0 < r <= bpow radix2 1000 -> fin (of_R r) /\ val (of_R r) = rnd r.
Proof.
  intros Hr. destruct (of_R_ok r ltac:(lra)) as [Q|Q]; auto. exfalso. assert (V : Valid_exp fexp64) by (apply (fexp_correct 53 1024); reflexivity).
  assert (G : F2R (Float radix2 (Ztrunc (scaled_mantissa radix2 fexp64 (rnd r))) (cexp radix2 fexp64 (rnd r))) = rnd r).
  { symmetry. apply (generic_format_round radix2 fexp64 ZnearestE r). }
  pose proof (binary_normalize_correct 53 1024 eq_refl eq_refl mode_NE (Ztrunc (scaled_mantissa radix2 fexp64 (rnd r))) (cexp radix2 fexp64 (rnd r)) false) as C. cbv zeta in C. rewrite G in C. fold (of_R r) in C.
  change (round radix2 fexp64 (round_mode mode_NE) (rnd r)) with (rnd (rnd r)) in C.
  assert (I : rnd (rnd r) = rnd r) by (apply round_generic; [apply valid_rnd_N|apply generic_format_round; auto; apply valid_rnd_N]).
  rewrite (big_ok (rnd r) 1000) in C; [destruct C as (_ & C & _); rewrite Q in C; discriminate|lia|apply rnd_big; [lia|rewrite Rabs_pos_eq; lra]].
Qed.
Lemma cr_fin x : fin x -> cr_exp x = of_R (exp (val x)). Proof. destruct x; try discriminate; reflexivity. Qed.
Lemma cr_correct : exp_correct cr_exp.
Proof. intros x F H. rewrite (cr_fin x F). apply of_R_range. split; [apply exp_pos|]. apply Rle_trans with (1 := proj2 (exp_range _ H)). apply bp_lt. lia. Qed.
Lemma correct_within Ex : exp_correct Ex -> exp_within (bpow radix2 (-52)) Ex.
Proof.
  intros HE x F H. destruct (HE x F H) as (FE & V). split; auto. rewrite V. change (to_f64 (exp (val x))) with (rnd (exp (val x))). pose proof (exp_pos (val x)) as P.
  assert (W : within u (exp (val x)) (rnd (exp (val x)))). { apply w_rnd. rewrite Rabs_pos_eq by lra. apply Rle_trans with (2 := proj1 (exp_range _ H)). apply bp_lt. lia. }
  unfold within in W. rewrite (Rabs_pos_eq (exp (val x))) in W by lra. rewrite two_u. pose proof u_range. nra.
Qed.
Lemma cr_nonneg : exp_nonneg cr_exp.
Proof.
  intros x N. destruct (is_finite 53 1024 x) eqn:F.
  - rewrite (cr_fin x F). destruct (of_R_ok (exp (val x)) (exp_pos _)) as [Q|(Q & V)]; [left; exact Q|right; split; [exact Q|rewrite V; apply rnd_nonneg; left; apply exp_pos]].
  - destruct x as [s|s|s pl H|s m e H]; try discriminate; [destruct s; simpl|exfalso; apply N; reflexivity]; [right; destruct zero_val as (A & B); split; [exact A|rewrite B; lra]|left; reflexivity].
Qed.
Lemma cr_least : exp_least_one cr_exp.
Proof.
  intros x [->|(F & P)]; [left; reflexivity|]. rewrite (cr_fin x F). destruct (of_R_ok (exp (val x)) (exp_pos _)) as [Q|(Q & V)]; [left; exact Q|right; split; [exact Q|]]. rewrite V. rewrite <- (rnd_int 1) by (simpl; lia). apply rnd_mono. pose proof (exp_ge1 (val x)). simpl. lra.
Qed.
Lemma exp_exists : exists Ex, exp_nonneg Ex /\ exp_least_one Ex /\ exp_within (bpow radix2 (-52)) Ex /\ exp_correct Ex.
Proof. exists cr_exp. exact (conj cr_nonneg (conj cr_least (conj (correct_within _ cr_correct) cr_correct))). Qed.
Definition tiny_en : F64 := f64_lit 1 (2 ^ 60).
Lemma tiny_val : fin tiny_en /\ val tiny_en = bpow radix2 (-60).
Proof. destruct (is_float_ok tiny_en (2 ^ 52) (-112)) as (F & V); [vm_compute; reflexivity|]. split; auto. rewrite V. change (IZR (2 ^ 52)) with (bpow radix2 52). rewrite <- bpow_plus. reflexivity. Qed.
Lemma bose_ref : exists en beta, fin en /\ fin beta /\ 0 < val en /\ 0 < val beta /\ forall Ex, exp_correct Ex -> bose_distribution_zero_chempot_f64 Ex en beta = B754_infinity 53 1024 false.
Proof.
  destruct tiny_val as (F & V), one_val as (F1 & V1). exists tiny_en, f64_one. pose proof (bpow_gt_0 radix2 (-60)). repeat split; auto; try lra. intros Ex HE. apply bose_over; auto. rewrite V, V1. split; [lra|]. rewrite Rmult_1_l. apply bp_lt. lia.
Qed.
Lemma distr_ex : let en := f64_lit 1 2 in let beta := f64_lit 4 1 in let mu := f64_lit 1 4 in
  fin en /\ fin beta /\ fin mu /\ moderate en /\ moderate beta /\ moderate mu /\ normal_or_zero en /\ normal_or_zero mu /\ 0 < val beta /\ val mu <= val en /\
  val beta * (val en - val mu) = 1 /\ val beta * val en = 2.
Proof.
  assert (E : (fin (f64_lit 1 2) /\ val (f64_lit 1 2) = / 2) /\ (fin (f64_lit 4 1) /\ val (f64_lit 4 1) = 4) /\ (fin (f64_lit 1 4) /\ val (f64_lit 1 4) = / 4)).
  { split; [|split].
    - destruct (is_float_ok (f64_lit 1 2) (2 ^ 52) (-53)) as (F & V); [vm_compute; reflexivity|]. split; auto. rewrite V. change (IZR (2 ^ 52)) with (bpow radix2 52). rewrite <- bpow_plus. reflexivity.
    - exact (lit_int 4 ltac:(simpl; lia)).
    - destruct (is_float_ok (f64_lit 1 4) (2 ^ 52) (-54)) as (F & V); [vm_compute; reflexivity|]. split; auto. rewrite V. change (IZR (2 ^ 52)) with (bpow radix2 52). rewrite <- bpow_plus. reflexivity. }
  destruct E as ((A1 & A2) & (B1 & B2) & (C1 & C2)). cbv zeta. unfold moderate, normal_or_zero. rewrite A2, B2, C2. rewrite !Rabs_pos_eq by lra.
  assert (P : 4 <= bpow radix2 500) by (change 4 with (bpow radix2 2); apply bp_lt; lia). assert (Q : bpow radix2 (-500) <= / 4) by (change (/ 4) with (bpow radix2 (-2)); apply bp_lt; lia). repeat split; auto; lra.
Qed.
