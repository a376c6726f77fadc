(** * Horner's scheme in binary64 *)
From Coq Require Import ZArith Reals Psatz Lia List Bool.
From Flocq Require Import Core IEEE754.BinarySingleNaN IEEE754.Binary IEEE754.Bits.
From Verif Require Import MFloat MGrid MUtils MTc MFit64 SpecGrid SpecTc PGrid PGrid2 PGrid3 PFerm64 PTc64.
Import List ListNotations.
Open Scope R_scope.

Lemma u53 : u <= / 1000000000000000.
Proof. unfold u. apply Rle_trans with (bpow radix2 (-50)); [apply bpow_le; lia|]. change (bpow radix2 (-50)) with (/ 1125899906842624). lra. Qed.
Definition cc (n : nat) : R := (1 + u) ^ n - 1.
Lemma cc0 n : 0 <= cc n. Proof. unfold cc. pose proof (pow_R1_Rle (1 + u) n). pose proof u_pos. lra. Qed.
Lemma cc_le n : INR n <= 2 ^ 22 -> cc n <= 2 * INR n * u.
Proof.
  pose proof u_pos. pose proof u53 as U. induction n as [|n IH]; intros H1; [unfold cc; simpl; lra|]. rewrite S_INR in H1 |- *. pose proof (pos_INR n).
  assert (H2 : INR n <= 2 ^ 22) by lra. specialize (IH H2). unfold cc in *. cbn [pow]. change (2 ^ 22) with (2 ^ 22) in H1. assert (H3 : INR n <= 4194304) by (simpl in H2; lra).
  assert (H4 : 2 * INR n * u <= 1) by nra. assert (P : (1 + u) ^ n <= 1 + 2 * INR n * u) by lra.
  assert ((1 + u) * (1 + u) ^ n <= (1 + u) * (1 + 2 * INR n * u)) by (apply Rmult_le_compat_l; lra). nra.
Qed.

Section Horner.
Variable mu : F64.
Hypotheses (Fmu : fin mu) (Hmu : Rabs (val mu) <= 1).
Definition okp (p : F64) : Prop := fin p /\ Rabs (val p) <= bpow radix2 100.
(** the state after k steps: computed value r, exact value x, sum of absolute values a *)
Definition inv (k : nat) (r : F64) (x a : R) : Prop :=
  fin r /\ Rabs (val r - x) <= cc (2 * k) * a + 4 * INR k * eta /\ Rabs x <= a /\ a <= INR k * bpow radix2 100.

Lemma small_k k : INR k <= 2 ^ 20 -> INR (2 * k) <= 2 ^ 22 /\ INR k <= 1048576.
Proof. intros H. rewrite mult_INR. simpl in *. lra. Qed.
Lemma inv_size k r x a : INR k <= 2 ^ 20 -> inv k r x a -> Rabs (val r) <= bpow radix2 130.
Proof.
  intros Hk (F & E & X & A). destruct (small_k k Hk) as (K1 & K2). pose proof (cc_le _ K1) as C. pose proof u53. pose proof u_pos. pose proof (pos_INR k). pose proof eta_pos.
  rewrite mult_INR in C. change (INR 2) with 2 in C.
  assert (C1 : cc (2 * k) <= 1) by nra. pose proof (cc0 (2 * k)). pose proof (Rabs_pos x).
  assert (E1 : eta <= 1) by (change 1 with (bpow radix2 0); apply bpow_le; lia).
  assert (M : INR k * bpow radix2 100 <= bpow radix2 120). { change (bpow radix2 120) with (bpow radix2 (20 + 100)). rewrite bpow_plus. apply Rmult_le_compat_r; [apply bpow_ge_0|]. change (bpow radix2 20) with 1048576. lra. }
  assert (T : Rabs (val r) <= Rabs x + (cc (2 * k) * a + 4 * INR k * eta)). { replace (val r) with (x + (val r - x)) by ring. apply Rle_trans with (1 := Rabs_triang _ _). lra. }
  assert (cc (2 * k) * a <= a) by nra. assert (4 * INR k * eta <= 4 * INR k) by nra.
  assert (B : 4194304 <= bpow radix2 120) by (change 4194304 with (bpow radix2 22); apply bpow_le; lia).
  assert (B2 : 8 * bpow radix2 120 <= bpow radix2 130) by (change 8 with (bpow radix2 3); rewrite <- bpow_plus; apply bpow_le; lia). pose proof (bpow_gt_0 radix2 120). lra.
Qed.
Lemma add_step k r x a p : INR k <= 2 ^ 20 -> inv k r x a -> okp p ->
  fin (r [+] p) /\ Rabs (val (r [+] p)) <= bpow radix2 131 /\
  Rabs (val (r [+] p) - (x + val p)) <= cc (2 * k + 1) * (a + Rabs (val p)) + (4 * INR k * (1 + u) + 1) * eta.
Proof.
  intros Hk I (Fp & Bp). pose proof (inv_size k r x a Hk I) as S. destruct I as (F & E & X & A).
  assert (B : Rabs (val r + val p) <= bpow radix2 131). { apply Rle_trans with (1 := Rabs_triang _ _). change (bpow radix2 131) with (bpow radix2 (1 + 130)). rewrite bpow_plus. change (bpow radix2 1) with 2. pose proof (bp 100 130 ltac:(lia)). lra. }
  destruct (plus_ok r p 131 F Fp ltac:(lia) B) as (Fs & Vs). split; [auto|]. split; [rewrite Vs; apply rnd_big; [lia|auto]|].
  pose proof (rnd_err' (val r + val p)) as R. rewrite <- Vs in R.
  assert (T : Rabs (val r + val p) <= Rabs (val r - x) + (a + Rabs (val p))).
  { replace (val r + val p) with ((val r - x) + (x + val p)) by ring. apply Rle_trans with (1 := Rabs_triang _ _). pose proof (Rabs_triang x (val p)). lra. }
  replace (val (r [+] p) - (x + val p)) with ((val (r [+] p) - (val r + val p)) + (val r - x)) by ring. apply Rle_trans with (1 := Rabs_triang _ _).
  pose proof u_pos. pose proof (Rabs_pos (val p)). pose proof (Rabs_pos x). pose proof (cc0 (2 * k)) as C0.
  assert (U1 : u * Rabs (val r + val p) <= u * (Rabs (val r - x) + (a + Rabs (val p)))) by (apply Rmult_le_compat_l; lra).
  assert (U2 : (1 + u) * Rabs (val r - x) <= (1 + u) * (cc (2 * k) * a + 4 * INR k * eta)) by (apply Rmult_le_compat_l; lra).
  assert (CE : cc (2 * k + 1) = (1 + u) * cc (2 * k) + u). { unfold cc. rewrite pow_add. ring. }
  assert (CP : 0 <= (1 + u) * cc (2 * k) * Rabs (val p)) by (repeat apply Rmult_le_pos; lra).
  rewrite CE. lra.
Qed.
Lemma mul_step k r x a p : INR k + 1 <= 2 ^ 20 -> inv k r x a -> okp p ->
  inv (S k) ((r [+] p) [*] mu) ((x + val p) * val mu) ((a + Rabs (val p)) * Rabs (val mu)).
Proof.
  intros Hk I Hp. destruct (add_step k r x a p ltac:(lra) I Hp) as (Fs & Bs & Es). destruct I as (_ & _ & X & A). destruct Hp as (_ & Bp).
  set (s := r [+] p) in *. pose proof (Rabs_pos (val mu)) as M0. pose proof (Rabs_pos (val p)). pose proof (Rabs_pos x). pose proof u_pos. pose proof u53. pose proof eta_pos. pose proof (pos_INR k).
  assert (B : Rabs (val s * val mu) <= bpow radix2 131). { rewrite Rabs_mult. rewrite <- (Rmult_1_r (bpow radix2 131)). apply Rmult_le_compat; auto using Rabs_pos. }
  destruct (mult_ok s mu 131 Fs Fmu ltac:(lia) B) as (Fm & Vm). pose proof (rnd_err' (val s * val mu)) as R. rewrite <- Vm in R.
  set (B' := a + Rabs (val p)) in *. set (D := Rabs (val s - (x + val p))) in *.
  assert (XP : Rabs (x + val p) <= B') by (pose proof (Rabs_triang x (val p)); unfold B'; lra).
  assert (SM : Rabs (val s) <= D + B'). { replace (val s) with ((val s - (x + val p)) + (x + val p)) by ring. apply Rle_trans with (1 := Rabs_triang _ _). unfold D. lra. }
  split; [exact Fm|]. split; [|split].
  - replace (val (s [*] mu) - (x + val p) * val mu) with ((val (s [*] mu) - val s * val mu) + (val s - (x + val p)) * val mu) by ring. apply Rle_trans with (1 := Rabs_triang _ _).
    rewrite (Rabs_mult (val s - (x + val p))). fold D. rewrite (Rabs_mult (val s)) in R.
    assert (R1 : u * (Rabs (val s) * Rabs (val mu)) <= u * ((D + B') * Rabs (val mu))) by (apply Rmult_le_compat_l; [lra|]; apply Rmult_le_compat_r; lra).
    assert (R2 : (1 + u) * (D * Rabs (val mu)) <= (1 + u) * ((cc (2 * k + 1) * B' + (4 * INR k * (1 + u) + 1) * eta) * Rabs (val mu))) by (apply Rmult_le_compat_l; [lra|]; apply Rmult_le_compat_r; lra).
    assert (CE : cc (2 * S k) = (1 + u) * cc (2 * k + 1) + u). { unfold cc. replace (2 * S k)%nat with (2 * k + 1 + 1)%nat by lia. rewrite (pow_add _ (2 * k + 1)). ring. }
    set (Z := (4 * INR k * (1 + u) + 1) * eta) in *. assert (Z0 : 0 <= Z) by (unfold Z; apply Rmult_le_pos; nra).
    assert (R3 : (1 + u) * (Z * Rabs (val mu)) <= (1 + u) * Z) by (apply Rmult_le_compat_l; nra).
    assert (R4 : (1 + u) * Z + eta <= 4 * INR (S k) * eta).
    { unfold Z. rewrite S_INR. replace ((1 + u) * ((4 * INR k * (1 + u) + 1) * eta) + eta) with (((1 + u) * (4 * INR k * (1 + u) + 1) + 1) * eta) by ring. apply Rmult_le_compat_r; [lra|].
      assert (K2 : INR k <= 1048576) by (simpl in Hk; lra). nra. }
    rewrite CE. lra.
  - rewrite Rabs_mult. apply Rmult_le_compat_r; auto.
  - rewrite S_INR. assert (0 <= B') by (unfold B'; lra). assert (B' * Rabs (val mu) <= B') by nra. unfold B' in *. lra.
Qed.
Lemma loop l : Forall okp l -> forall k r x a, INR (k + length l) <= 2 ^ 20 -> inv k r x a ->
  inv (k + length l) (fold_left (fun res p => (res [+] p) [*] mu) l r)
    (fold_left (fun res p => (res + p) * val mu) (map val l) x) (fold_left (fun res p => (res + p) * Rabs (val mu)) (map (fun p => Rabs (val p)) l) a).
Proof.
  induction 1 as [|p l Hp Hl IH]; intros k r x a Hk I; cbn [fold_left map length] in *; [now rewrite Nat.add_0_r|].
  replace (k + S (length l))%nat with (S k + length l)%nat in * by lia. apply IH; [exact Hk|]. apply mul_step; auto. rewrite plus_INR, S_INR in Hk. pose proof (pos_INR (length l)). lra.
Qed.
Lemma start : inv 0 f64_zero 0 0.
Proof. split; [reflexivity|]. change (val f64_zero) with 0. rewrite Rminus_0_r, Rabs_R0. simpl INR. lra. Qed.
Lemma horner_ok p0 rest : Forall okp (p0 :: rest) -> INR (length rest) <= 2 ^ 19 ->
  let n := length rest in
  exists r x a, parametric_phase_diagram_f64 mu (p0 :: rest) = Ret r /\ fin r /\
    parametric_phase_diagram (val mu) (map val (p0 :: rest)) = Ret x /\
    parametric_phase_diagram (Rabs (val mu)) (map (fun p => Rabs (val p)) (p0 :: rest)) = Ret a /\
    Rabs (val r - x) <= (4 * INR n + 2) * (u * a) + (4 * INR n + 2) * eta.
Proof.
  intros H Hn n. inversion H as [|? ? H0 Hr]; subst. assert (HR : Forall okp (rev rest)) by (now apply Forall_rev).
  assert (N1 : INR (length rest) <= 2 ^ 20) by (simpl in *; lra).
  pose proof (loop (rev rest) HR 0 f64_zero 0 0) as L. rewrite rev_length in L. cbn [Nat.add] in L. specialize (L N1 start). fold n in L.
  destruct (add_step _ _ _ _ _ N1 L H0) as (Fs & _ & Es).
  eexists; eexists; eexists. split; [reflexivity|]. split; [exact Fs|]. cbn [map]. unfold parametric_phase_diagram. rewrite <- !map_rev. split; [reflexivity|]. split; [reflexivity|].
  apply Rle_trans with (1 := Es). clear Es Fs. destruct L as (_ & _ & X & _).
  set (a := fold_left _ (map (fun p => Rabs (val p)) (rev rest)) 0) in *. pose proof (Rabs_pos (val p0)). assert (A0 : 0 <= a) by (eapply Rle_trans; [apply Rabs_pos|exact X]).
  assert (C : cc (2 * n + 1) <= 2 * INR (2 * n + 1) * u). { apply cc_le. rewrite plus_INR, mult_INR. fold n in Hn. simpl in *. lra. }
  rewrite plus_INR, mult_INR in C. change (INR 2) with 2 in C. change (INR 1) with 1 in C. pose proof u_pos. pose proof u53. pose proof eta_pos. pose proof (pos_INR n).
  assert (AP : 0 <= a + Rabs (val p0)) by lra.
  apply Rplus_le_compat.
  - assert (Q : forall A, 2 * (2 * INR n + 1) * u * A = (4 * INR n + 2) * (u * A)) by (intros; ring).
    apply Rle_trans with (2 * (2 * INR n + 1) * u * (a + Rabs (val p0))); [exact (Rmult_le_compat_r _ _ _ AP C)|right; apply Q].
  - apply Rmult_le_compat_r; [lra|]. change (4 * INR n * (1 + u) + 1 <= 4 * INR n + 2). assert (N2 : INR n <= 2 ^ 20) by exact N1. replace (2 ^ 20) with 1048576 in N2 by (simpl; lra). assert (INR n * u <= 2000000 * / 1000000000000000) by (apply Rmult_le_compat; lra). lra.
Qed.
End Horner.
