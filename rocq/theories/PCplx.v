(** * Elementary complex functions: real axis, conjugation, square root *)
From Coq Require Import Reals Psatz.
From Coquelicot Require Import Coquelicot.
From Verif Require Import Num CField.
Open Scope R_scope.

(** ** Conjugation is a field morphism *)
Lemma conj_plus z w : Cconj (z + w) = (Cconj z + Cconj w)%C.
Proof. apply Ceq; simpl; ring. Qed.
Lemma conj_opp z : Cconj (- z) = (- Cconj z)%C.
Proof. apply Ceq; simpl; ring. Qed.
Lemma conj_minus z w : Cconj (z - w) = (Cconj z - Cconj w)%C.
Proof. apply Ceq; simpl; ring. Qed.
Lemma conj_mult z w : Cconj (z * w) = (Cconj z * Cconj w)%C.
Proof. apply Ceq; simpl; ring. Qed.
Lemma conj_inv z : Cconj (/ z) = (/ Cconj z)%C.
Proof.
  apply Ceq; simpl.
  - f_equal. ring.
  - unfold Rdiv. replace (snd z * (snd z * 1)) with (- snd z * (- snd z * 1)) by ring. ring.
Qed.
Lemma conj_div z w : Cconj (z / w) = (Cconj z / Cconj w)%C.
Proof. unfold Cdiv. now rewrite conj_mult, conj_inv. Qed.
Lemma conj_RtoC x : Cconj (RtoC x) = RtoC x.
Proof. apply Ceq; simpl; ring. Qed.
Lemma conj_conj z : Cconj (Cconj z) = z.
Proof. apply Ceq; simpl; ring. Qed.
Lemma Cmod_conj z : Cmod (Cconj z) = Cmod z.
Proof. unfold Cmod. f_equal. simpl. ring. Qed.
Lemma conj_fixed z : Cconj z = z <-> snd z = 0.
Proof.
  split; intros H.
  - apply (f_equal snd) in H. simpl in H. lra.
  - apply Ceq; simpl; lra.
Qed.

(** ** The slit plane *)
Definition slit (z : C) : Prop := snd z <> 0 \/ 0 < fst z.
Arguments slit _%C.

Lemma slit_conj z : slit z -> slit (Cconj z).
Proof. unfold slit. simpl. intros [H|H]; [left; lra|right; auto]. Qed.
Lemma slit_RtoC x : 0 < x -> slit (RtoC x).
Proof. right. auto. Qed.
Lemma slit_neq_0 z : slit z -> z <> RtoC 0.
Proof. intros [H|H] ->; simpl in H; lra. Qed.

Lemma Cmod_real x : Cmod (RtoC x) = Rabs x.
Proof. apply Cmod_R. Qed.

(** ** Logarithm *)
Lemma Carg_RtoC x : 0 < x -> Carg (RtoC x) = 0.
Proof.
  intros H. unfold Carg. simpl. destruct (Rlt_dec 0 x); [|lra]. unfold Rdiv. rewrite Rmult_0_l. apply atan_0.
Qed.
Lemma Cln_RtoC x : 0 < x -> Cln (RtoC x) = RtoC (ln x).
Proof.
  intros H. unfold Cln. rewrite Cmod_real, Carg_RtoC by auto. now rewrite Rabs_pos_eq by lra.
Qed.

Lemma Carg_conj z : slit z -> Carg (Cconj z) = - Carg z.
Proof.
  destruct z as [x y]. unfold slit, Carg. simpl. intros H.
  assert (E : - y / x = - (y / x)) by (unfold Rdiv; ring).
  destruct (Rlt_dec 0 x).
  - rewrite E. apply atan_opp.
  - destruct (Rlt_dec x 0).
    + rewrite E, atan_opp. destruct (Rlt_dec (- y) 0), (Rlt_dec y 0); lra.
    + destruct (Rlt_dec 0 (- y)), (Rlt_dec (- y) 0), (Rlt_dec 0 y), (Rlt_dec y 0); lra.
Qed.
Lemma Cln_conj z : slit z -> Cln (Cconj z) = Cconj (Cln z).
Proof. intros H. unfold Cln. rewrite Cmod_conj, Carg_conj by auto. reflexivity. Qed.

(** ** Square root *)
Lemma Cmod_ge_fst z : Rabs (fst z) <= Cmod z.
Proof. apply Rle_trans with (2 := Rmax_Cmod z). apply Rmax_l. Qed.
Lemma Cmod_sqr z : Cmod z * Cmod z = fst z * fst z + snd z * snd z.
Proof.
  unfold Cmod. rewrite sqrt_def; [simpl; ring|]. simpl. nra.
Qed.

Lemma Cmod_pm z : 0 <= Cmod z + fst z /\ 0 <= Cmod z - fst z.
Proof. pose proof (Cmod_ge_fst z). unfold Rabs in H. destruct Rcase_abs; lra. Qed.

Lemma Csqrt_sqr z : (Csqrt z * Csqrt z = z)%C.
Proof.
  destruct (Cmod_pm z) as [P M]. pose proof (Cmod_sqr z) as S.
  assert (E : sqrt ((Cmod z + fst z) / 2) * sqrt ((Cmod z - fst z) / 2) = Rabs (snd z) / 2).
  { rewrite <- sqrt_mult by lra.
    replace ((Cmod z + fst z) / 2 * ((Cmod z - fst z) / 2)) with (Rsqr (snd z / 2)) by (unfold Rsqr; nra).
    rewrite sqrt_Rsqr_abs. unfold Rdiv. rewrite Rabs_mult. f_equal. apply Rabs_pos_eq. lra. }
  pose proof (sqrt_def ((Cmod z + fst z) / 2) ltac:(lra)) as E1.
  pose proof (sqrt_def ((Cmod z - fst z) / 2) ltac:(lra)) as E2.
  unfold Csqrt. apply Ceq; simpl.
  - destruct (Rlt_dec (snd z) 0); nra.
  - unfold Rabs in E. destruct (Rlt_dec (snd z) 0), (Rcase_abs (snd z)); lra.
Qed.

Lemma Csqrt_RtoC x : 0 <= x -> Csqrt (RtoC x) = RtoC (sqrt x).
Proof.
  intros H. unfold Csqrt. rewrite Cmod_real. simpl. rewrite Rabs_pos_eq by auto.
  destruct (Rlt_dec 0 0); [lra|]. replace ((x + x) / 2) with x by lra. replace ((x - x) / 2) with 0 by lra.
  now rewrite sqrt_0.
Qed.

Lemma Csqrt_conj z : slit z -> Csqrt (Cconj z) = Cconj (Csqrt z).
Proof.
  intros H. unfold Csqrt. rewrite Cmod_conj. simpl.
  destruct (Req_dec (snd z) 0) as [E|E].
  - destruct H as [H|H]; [contradiction|]. rewrite E, Ropp_0.
    destruct (Rlt_dec 0 0); [lra|].
    assert (M : Cmod z = fst z).
    { unfold Cmod. rewrite E. simpl. rewrite !Rmult_0_l, Rplus_0_r, Rmult_1_r. apply sqrt_square. lra. }
    rewrite M. apply Ceq; simpl; auto. replace ((fst z - fst z) / 2) with 0 by lra. rewrite sqrt_0. lra.
  - apply Ceq; simpl; auto. destruct (Rlt_dec (- snd z) 0), (Rlt_dec (snd z) 0); lra.
Qed.

Lemma Csqrt_re_pos z : slit z -> 0 < fst (Csqrt z).
Proof.
  intros H. simpl. apply sqrt_lt_R0. pose proof (Cmod_sqr z). pose proof (Cmod_ge_0 z). destruct H as [H|H].
  - destruct (Cmod_pm z) as [P M]. destruct P as [P|P]; [lra|]. exfalso.
    assert (Cmod z = - fst z) by lra. rewrite H2 in H0. assert (snd z * snd z = 0) by lra. nra.
  - lra.
Qed.

Lemma Csqrt_re_nonneg z : 0 <= fst (Csqrt z).
Proof. simpl. apply sqrt_pos. Qed.

Lemma slit_plus_RtoC z x : 0 <= x -> slit z -> slit (z + RtoC x).
Proof. intros Hx [H|H]; [left; simpl; lra|right; simpl; lra]. Qed.
Lemma slit_scal z x : 0 < x -> slit z -> slit (z * RtoC x).
Proof. intros Hx [H|H].
  - destruct (Req_dec (fst z * 0 + snd z * x) 0) as [E|E]; [|left; exact E]. exfalso. nra.
  - destruct (Req_dec (snd z) 0) as [E|E]; [right; simpl; nra|left; simpl; nra].
Qed.
Lemma slit_inv z : slit z -> slit (/ z).
Proof.
  intros H. pose proof (slit_neq_0 _ H) as N.
  assert (P : 0 < fst z * fst z + snd z * snd z).
  { rewrite <- Cmod_sqr. pose proof (Cmod_gt_0 z). assert (0 < Cmod z) by tauto. nra. }
  destruct H as [H|H]; [left|right]; simpl; unfold Rdiv.
  - intros E. apply Rmult_integral in E as [E|E]; [lra|].
    revert E. apply Rinv_neq_0_compat. lra.
  - apply Rmult_lt_0_compat; auto. apply Rinv_0_lt_compat. lra.
Qed.
