(** * The integral of x / (exp x - 1) over the half-line

    First the sum of the inverse squares (by Daners' two families of integrals),
    then the integral, by expanding the integrand in powers of exp (-x). *)
From Coq Require Import Reals Psatz Lia.
From Coquelicot Require Import Coquelicot.
From Verif Require Import SpecLim PLim.
Open Scope R_scope.

Lemma ftc (F f : R -> R) a b : (forall x, is_derive F x (f x)) -> (forall x, continuous f x) -> is_RInt f a b (F b - F a).
Proof. intros H1 H2. apply (is_RInt_derive (V := R_CompleteNormedModule) F f a b); intros; auto. Qed.

Definition ca (n : nat) (x : R) : R := cos x ^ (2 * n).
Definition cb (n : nat) (x : R) : R := x * x * cos x ^ (2 * n).
Lemma ca_c n x : continuous (ca n) x.
Proof. apply (ex_derive_continuous (K := R_AbsRing) (V := R_NormedModule)). unfold ca. auto_derive. auto. Qed.
Lemma cb_c n x : continuous (cb n) x.
Proof. apply (ex_derive_continuous (K := R_AbsRing) (V := R_NormedModule)). unfold cb. auto_derive. auto. Qed.
Definition An (n : nat) : R := RInt (ca n) 0 (PI / 2).
Definition Bn (n : nat) : R := RInt (cb n) 0 (PI / 2).
Lemma An_is n : is_RInt (ca n) 0 (PI / 2) (An n).
Proof. apply (RInt_correct (V := R_CompleteNormedModule)). apply (ex_RInt_continuous (V := R_CompleteNormedModule)). intros; apply ca_c. Qed.
Lemma Bn_is n : is_RInt (cb n) 0 (PI / 2) (Bn n).
Proof. apply (RInt_correct (V := R_CompleteNormedModule)). apply (ex_RInt_continuous (V := R_CompleteNormedModule)). intros; apply cb_c. Qed.

Lemma uniq (f : R -> R) (a b u v : R) : is_RInt f a b u -> is_RInt f a b v -> u = v.
Proof. intros H1 H2. rewrite <- (is_RInt_unique (V := R_CompleteNormedModule) _ _ _ _ H1). apply is_RInt_unique. exact H2. Qed.
Lemma lin2 (f g : R -> R) (a b c d u v : R) : is_RInt f a b u -> is_RInt g a b v -> is_RInt (fun x => c * f x + d * g x) a b (c * u + d * v).
Proof. intros H1 H2. apply (is_RInt_plus (V := R_NormedModule)); apply (is_RInt_scal (V := R_NormedModule)); auto. Qed.
Lemma lin3 (f g h : R -> R) (a b c d e u v w : R) : is_RInt f a b u -> is_RInt g a b v -> is_RInt h a b w -> is_RInt (fun x => c * f x + d * g x + e * h x) a b (c * u + d * v + e * w).
Proof. intros H1 H2 H3. apply (is_RInt_plus (V := R_NormedModule)); [apply lin2; auto|apply (is_RInt_scal (V := R_NormedModule)); auto]. Qed.

Lemma pw x k : x ^ (S (S k)) = x * x * x ^ k. Proof. simpl. ring. Qed.
Lemma sin2 x : sin x * sin x = 1 - cos x * cos x.
Proof. pose proof (sin2_cos2 x). unfold Rsqr in *. lra. Qed.
Lemma A_rec n : 2 * INR (S n) * An (S n) = (2 * INR (S n) - 1) * An n.
Proof.
  pose proof (lin2 _ _ _ _ (2 * INR (S n)) (- (2 * INR (S n) - 1)) _ _ (An_is (S n)) (An_is n)) as H.
  pose proof (ftc (fun x => sin x * cos x ^ (2 * n + 1)) (fun x => 2 * INR (S n) * ca (S n) x + - (2 * INR (S n) - 1) * ca n x) 0 (PI / 2)) as F.
  cbv beta in F. rewrite cos_PI2, sin_0 in F. rewrite pow_ne_zero in F by lia. 
  enough (2 * INR (S n) * An (S n) + - (2 * INR (S n) - 1) * An n = 1 * 0 - 0 * 1 ^ (2 * n + 1)) by lra.
  eapply uniq; [exact H|]. rewrite sin_PI2, cos_0 in F. apply F.
  - intros x. auto_derive; auto. unfold ca. replace (2 * S n)%nat with (S (S (2 * n))) by lia. rewrite pw.
    replace (n + (n + 0) + 1)%nat with (S (2 * n)) by lia. replace (Init.Nat.pred (S (2 * n))) with (2 * n)%nat by reflexivity. rewrite !S_INR, mult_INR. simpl (INR 2).
    change (cos x ^ S (2 * n)) with (cos x * cos x ^ (2 * n)). set (c := cos x ^ (2 * n)).
    transitivity (cos x * cos x * c - (2 * INR n + 1) * (sin x * sin x) * c); [ring|]. rewrite sin2. ring.
  - intros x. apply (continuous_plus (V := R_NormedModule)); apply (continuous_scal_r (V := R_NormedModule)); apply ca_c.
Qed.
Lemma B_rec n : An (S n) + 2 * (INR (S n) * INR (S n)) * Bn (S n) - INR (S n) * (2 * INR (S n) - 1) * Bn n = 0.
Proof.
  set (N := INR (S n)).
  pose proof (lin3 _ _ _ _ _ 1 (2 * (N * N)) (- (N * (2 * N - 1))) _ _ _ (An_is (S n)) (Bn_is (S n)) (Bn_is n)) as H.
  pose proof (ftc (fun x => x * cos x ^ (2 * S n) + N * (x * x) * (sin x * cos x ^ (2 * n + 1))) (fun x => 1 * ca (S n) x + 2 * (N * N) * cb (S n) x + - (N * (2 * N - 1)) * cb n x) 0 (PI / 2)) as F.
  cbv beta in F. rewrite cos_PI2, sin_0 in F. rewrite !(pow_ne_zero) in F by lia. 
  enough (1 * An (S n) + 2 * (N * N) * Bn (S n) + - (N * (2 * N - 1)) * Bn n = PI / 2 * 0 + N * (PI / 2 * (PI / 2)) * (sin (PI / 2) * 0) - (0 * cos 0 ^ (2 * S n) + N * (0 * 0) * (0 * cos 0 ^ (2 * n + 1)))) by lra.
  eapply uniq; [exact H|]. apply F.
  - intros x. auto_derive; auto. unfold ca, cb. replace (2 * S n)%nat with (S (S (2 * n))) by lia. rewrite pw. 
    replace (n + S (n + 0))%nat with (S (2 * n)) by lia. replace (n + (n + 0) + 1)%nat with (S (2 * n)) by lia. replace (2 * n + 1)%nat with (S (2 * n)) by lia.
    replace (Init.Nat.pred (S (2 * n))) with (2 * n)%nat by lia. replace (n + (n + 0))%nat with (2 * n)%nat by lia.
    unfold N. rewrite ?S_INR, ?mult_INR, ?S_INR. simpl (INR 2). simpl (INR 0).
    change (cos x ^ S (2 * n)) with (cos x * cos x ^ (2 * n)). set (c := cos x ^ (2 * n)).
    match goal with |- ?l = ?r => transitivity (cos x * cos x * c + (INR n + 1) * (x * x) * (cos x * cos x * c - (2 * INR n + 1) * (sin x * sin x) * c)); [ring|] end.
    rewrite sin2. ring.
  - intros x. repeat apply (continuous_plus (V := R_NormedModule)); apply (continuous_scal_r (V := R_NormedModule)); first [apply ca_c|apply cb_c].
Qed.
Lemma A_pos n : 0 < An n.
Proof.
  induction n as [|n IH].
  - replace (An 0) with (PI / 2); [pose proof PI_RGT_0; lra|]. eapply uniq; [|apply An_is]. 
    apply (is_RInt_ext (fun _ => 1)); [intros; unfold ca; simpl; auto|]. replace (PI / 2) with (scal (PI / 2 - 0) 1) at 2 by (unfold scal; simpl; unfold mult; simpl; ring). apply (is_RInt_const (V := R_NormedModule)).
  - pose proof (A_rec n) as H. pose proof (pos_INR n). rewrite S_INR in H. assert (0 < (2 * (INR n + 1) - 1) * An n) by (apply Rmult_lt_0_compat; lra). nra.
Qed.
Lemma xcos x : 0 <= x -> x <= PI / 2 -> 0 <= x * cos x <= sin x.
Proof.
  intros H1 H2. pose proof PI_RGT_0. split; [apply Rmult_le_pos; auto; apply cos_ge_0; lra|].
  pose proof (le_of_derive_nonneg (fun t => sin t - t * cos t) (fun t => t * sin t) 0 x H1) as L. cbv beta in L. rewrite sin_0 in L.
  enough (0 - 0 * cos 0 <= sin x - x * cos x) by lra. apply L.
  - intros t Ht. auto_derive; auto. ring.
  - intros t Ht. apply Rmult_le_pos; [lra|]. apply sin_ge_0; lra.
Qed.
Lemma B_bound n : 0 <= Bn (S n) <= An n - An (S n).
Proof.
  pose proof PI_RGT_0. split.
  - apply (is_RInt_le (fun _ => 0) (cb (S n)) 0 (PI / 2)); [lra| |apply Bn_is|].
    + replace 0 with (scal (PI / 2 - 0) 0) at 2 by (unfold scal; simpl; unfold mult; simpl; ring). apply (is_RInt_const (V := R_NormedModule)).
    + intros x Hx. unfold cb. apply Rmult_le_pos; [nra|]. apply pow_le, cos_ge_0; lra.
  - replace (An n - An (S n)) with (1 * An n + (-1) * An (S n)) by ring.
    eapply (is_RInt_le (cb (S n)) (fun x => 1 * ca n x + (-1) * ca (S n) x) 0 (PI / 2)); [lra|apply Bn_is|apply lin2; apply An_is|].
    intros x Hx. unfold cb, ca. replace (2 * S n)%nat with (S (S (2 * n))) by lia. rewrite pw. assert (0 <= cos x ^ (2 * n)) by (apply pow_le, cos_ge_0; lra).
    set (c := cos x ^ (2 * n)) in *. pose proof (xcos x ltac:(lra) ltac:(lra)). pose proof (sin2 x).
    replace (1 * c + -1 * (cos x * cos x * c)) with (sin x * sin x * c) by (rewrite sin2; ring).
    replace (x * x * (cos x * cos x * c)) with (x * cos x * (x * cos x) * c) by ring. apply Rmult_le_compat_r; auto. nra.
Qed.
Definition ratio (n : nat) : R := Bn n / An n.
Lemma ratio_0 : ratio 0 = PI * PI / 12.
Proof.
  unfold ratio. assert (E1 : An 0 = PI / 2).
  { eapply uniq; [apply An_is|]. apply (is_RInt_ext (fun _ => 1)); [intros; unfold ca; simpl; auto|]. replace (PI / 2) with (scal (PI / 2 - 0) 1) at 2 by (unfold scal; simpl; unfold mult; simpl; ring). apply (is_RInt_const (V := R_NormedModule)). }
  assert (E2 : Bn 0 = (PI / 2) ^ 3 / 3 - 0 ^ 3 / 3).
  { eapply uniq; [apply Bn_is|]. apply (ftc (fun x => x ^ 3 / 3)).
    - intros x. auto_derive; auto. unfold cb. simpl. field.
    - intros; apply cb_c. }
  rewrite E1, E2. pose proof PI_neq0. field. auto.
Qed.
Lemma ratio_step n : / (INR (S n) * INR (S n)) = 2 * ratio n - 2 * ratio (S n).
Proof.
  pose proof (A_pos n). pose proof (A_pos (S n)). pose proof (A_rec n) as E1. pose proof (B_rec n) as E2. unfold ratio.
  assert (HN : 1 <= INR (S n)) by (rewrite S_INR; pose proof (pos_INR n); lra). set (N := INR (S n)) in *.
  assert (EA : An (S n) = (2 * N - 1) * An n / (2 * N)) by (field_simplify_eq; lra).
  assert (EB : Bn (S n) = (N * (2 * N - 1) * Bn n - An (S n)) / (2 * (N * N))) by (field_simplify_eq; [lra|nra]).
  rewrite EB, EA. field. repeat split; lra.
Qed.
Lemma ratio_bound n : 0 <= ratio (S n) <= / (2 * INR (S n) - 1).
Proof.
  destruct (B_bound n) as [L U]. pose proof (A_pos (S n)) as HA. pose proof (A_rec n) as E. unfold ratio.
  assert (HN : 1 <= INR (S n)) by (rewrite S_INR; pose proof (pos_INR n); lra). set (N := INR (S n)) in *. split.
  - apply Rmult_le_pos; auto. left. now apply Rinv_0_lt_compat.
  - apply (Rmult_le_reg_r (An (S n))); auto. unfold Rdiv. rewrite Rmult_assoc, Rinv_l by lra. rewrite Rmult_1_r.
    eapply Rle_trans; [exact U|]. apply (Rmult_le_reg_l (2 * N - 1)); [lra|]. rewrite <- Rmult_assoc, Rinv_r by lra. nra.
Qed.
(** Partial sums of the inverse squares. *)
Definition zsum (N : nat) : R := sum_n (fun n => / (INR (S n) * INR (S n))) N.
Lemma zsum_eq N : zsum N = PI * PI / 6 - 2 * ratio (S N).
Proof.
  unfold zsum. induction N as [|N IH].
  - rewrite sum_O, ratio_step, ratio_0. field.
  - rewrite sum_Sn, IH, ratio_step. unfold plus; simpl. ring.
Qed.
Lemma zsum_bound N : Rabs (zsum N - PI * PI / 6) <= 2 / (2 * INR N + 1).
Proof.
  rewrite zsum_eq. pose proof (ratio_bound N) as [L U]. replace (2 * INR (S N) - 1) with (2 * INR N + 1) in U by (rewrite S_INR; ring).
  replace (PI * PI / 6 - 2 * ratio (S N) - PI * PI / 6) with (- (2 * ratio (S N))) by ring. rewrite Rabs_Ropp, Rabs_pos_eq by lra. unfold Rdiv. lra.
Qed.
