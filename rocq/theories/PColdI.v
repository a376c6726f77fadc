(** * Integrals over the half line of uniformly decaying integrands *)
From Coq Require Import Reals Lra Lia List Psatz.
From Coquelicot Require Import Coquelicot.
From Verif Require Import Num SpecLim SpecInt PCplx PDistr PVac PLim PLimC PInt PCold PBound PColdG PCompact.
Open Scope R_scope.

Lemma is_RInt_pair (f : R -> C) a b u v : is_RInt (fun t => fst (f t)) a b u -> is_RInt (fun t => snd (f t)) a b v ->
  is_RInt (V := C_R_NormedModule) f a b (u, v).
Proof. intros H1 H2. apply (is_RInt_fct_extend_pair (U := R_NormedModule) (V := R_NormedModule) f a b u v); auto. Qed.

Lemma compact_dom t : 0 < t < 1 -> 0 < (1 - t) / t /\ 1 + (1 - t) / t = / t.
Proof. intros H. split; [apply Rdiv_lt_0_compat; lra|field; lra]. Qed.
Lemma compact_fst f t : t <> 0 -> fst (compact_C f t) = compact_R (fun q => fst (f q)) t.
Proof.
  intros H. unfold compact_C, compact_R. unfold Cdiv. rewrite <- RtoC_inv by (apply pow_nonzero; auto).
  destruct (f ((1 - t) / t)). unfold RtoC, Cmult. simpl. unfold Rdiv. ring.
Qed.
Lemma compact_snd f t : t <> 0 -> snd (compact_C f t) = compact_R (fun q => snd (f q)) t.
Proof.
  intros H. unfold compact_C, compact_R. unfold Cdiv. rewrite <- RtoC_inv by (apply pow_nonzero; auto).
  destruct (f ((1 - t) / t)). unfold RtoC, Cmult. simpl. unfold Rdiv. ring.
Qed.
Lemma compact_cont (f : R -> R) t : 0 < t < 1 -> (forall q, 0 < q -> continuous f q) -> continuous (compact_R f) t.
Proof.
  intros Ht Hf. destruct (compact_dom t Ht) as [Hq _]. unfold compact_R.
  apply (continuous_mult (K := R_AbsRing) (fun t => f ((1 - t) / t)) (fun t => / t ^ 2)).
  - apply (continuous_comp (fun t => (1 - t) / t) f); [|now apply Hf].
    apply (ex_derive_continuous (K := R_AbsRing) (V := R_NormedModule)). auto_derive. lra.
  - apply (ex_derive_continuous (K := R_AbsRing) (V := R_NormedModule)). auto_derive. nra.
Qed.
Lemma compact_bd (f : R -> R) t M : 0 < t < 1 -> (forall q, 0 < q -> Rabs (f q) * (1 + q) ^ 2 <= M) -> Rabs (compact_R f t) <= M.
Proof.
  intros Ht H. destruct (compact_dom t Ht) as [Hq E]. specialize (H _ Hq). rewrite E in H.
  unfold compact_R, Rdiv. rewrite Rabs_mult. replace (Rabs (/ t ^ 2)) with ((/ t) ^ 2).
  - exact H.
  - assert (P : 0 < t ^ 2) by (apply pow_lt; lra). rewrite Rabs_right by (left; now apply Rinv_0_lt_compat). now rewrite pow_inv.
Qed.
Lemma bounded_int (f : R -> R) M : (forall q, 0 < q -> continuous f q) -> (forall q, 0 < q -> Rabs (f q) * (1 + q) ^ 2 <= M) ->
  exists v, is_RInt (compact_R f) 0 1 v /\ Rabs v <= M.
Proof.
  intros HC HM. destruct (ex_RInt_open (compact_R f) 0 1 M) as [v Hv].
  - lra.
  - intros t Ht. now apply compact_cont.
  - intros t Ht. now apply compact_bd.
  - exists v. split; auto.
    assert (B : forall t, 0 < t < 1 -> - M <= compact_R f t <= M) by (intros t Ht; apply Rabs_le_between; now apply compact_bd).
    apply Rabs_le. split.
    + pose proof (is_RInt_le (fun _ => - M) (compact_R f) 0 1 _ _ ltac:(lra) (is_RInt_const (V := R_NormedModule) 0 1 (- M)) Hv (fun t H => proj1 (B t H))) as L.
      unfold scal in L; cbn in L. unfold mult in L; cbn in L. lra.
    + pose proof (is_RInt_le (compact_R f) (fun _ => M) 0 1 _ _ ltac:(lra) Hv (is_RInt_const (V := R_NormedModule) 0 1 M) (fun t H => proj2 (B t H))) as L.
      unfold scal in L; cbn in L. unfold mult in L; cbn in L. lra.
Qed.
Lemma bounded_intC (f : R -> C) M : (forall q, 0 < q -> tendsC (locally q) f (f q)) -> (forall q, 0 < q -> Cmod (f q) * (1 + q) ^ 2 <= M) ->
  exists v : C, is_RInt (V := C_R_NormedModule) (compact_C f) 0 1 v /\ Rabs (fst v) <= M /\ Rabs (snd v) <= M.
Proof.
  intros HC HM.
  assert (P : forall q, 0 < q -> 0 <= (1 + q) ^ 2) by (intros; apply pow_le; lra).
  destruct (bounded_int (fun q => fst (f q)) M) as (u & U1 & U2).
  - intros q Hq. exact (proj1 (HC q Hq)).
  - intros q Hq. eapply Rle_trans; [|apply (HM q Hq)]. apply Rmult_le_compat_r; auto. apply Rle_trans with (2 := Rmax_Cmod (f q)). apply Rmax_l.
  - destruct (bounded_int (fun q => snd (f q)) M) as (v & V1 & V2).
    + intros q Hq. exact (proj2 (HC q Hq)).
    + intros q Hq. eapply Rle_trans; [|apply (HM q Hq)]. apply Rmult_le_compat_r; auto. apply Cmod_ge_snd.
    + exists (u, v). split; [|split; auto]. apply is_RInt_pair.
      * apply (is_RInt_ext (compact_R (fun q => fst (f q)))); auto. rewrite Rmin_left, Rmax_right by lra. intros t Ht. rewrite compact_fst; auto. lra.
      * apply (is_RInt_ext (compact_R (fun q => snd (f q)))); auto. rewrite Rmin_left, Rmax_right by lra. intros t Ht. rewrite compact_snd; auto. lra.
Qed.

(** Decaying families: the integrals exist and tend to zero. *)
Lemma Rd_integrals b0 (f : R -> R -> C) : 0 < b0 -> RdC b0 f -> (forall b q, b0 <= b -> 0 < q -> tendsC (locally q) (f b) (f b q)) ->
  exists K, forall b, b0 <= b -> exists v : C, is_RInt (V := C_R_NormedModule) (compact_C (f b)) 0 1 v /\ Rabs (fst v) <= K / b /\ Rabs (snd v) <= K / b.
Proof.
  intros Hb H HC. destruct (H 2%nat) as [K HK]. exists K. intros b Hbb. apply bounded_intC.
  - intros q Hq. now apply HC.
  - intros q Hq. specialize (HK b q Hbb Hq). rewrite Rabs_right in HK; auto. apply Rle_ge, Cmod_ge_0.
Qed.
