(** * The phase classification on the grids of physical_tc *)
From Coq Require Import ZArith Reals Psatz Lia List Bool Sorted.
From Flocq Require Import Core IEEE754.BinarySingleNaN IEEE754.Binary IEEE754.Bits.
From Verif Require Import MFloat MGrid MUtils MFermi MTc MTc64 SpecGrid SpecTc SpecTc64 PGrid PGrid2 PGrid3 PGrid4 PFerm64 PDistr64 PTc PTc2 PTc64 PTc64b.
Import List ListNotations.
Open Scope R_scope.

Definition many (i : nat) : F64 := nth i physical_manychempots f64_nan.
Definition few (i : nat) : F64 := nth i physical_fewchempots f64_nan.
Definition tmp (j : nat) : F64 := nth j physical_fewtemps f64_nan.

Lemma p13 : / 10 ^ 13 = 1 / 10000000000000. Proof. cbn [pow]. lra. Qed.
Lemma many_ok i : (i < 81)%nat -> fin (many i) /\ Rabs (val (many i) - 1 / 100 * INR i) <= 1 / 10000000000000.
Proof.
  intros H. destruct physical_manychempots_ok as (L & F & _ & N). rewrite <- p13. split; [|now apply N].
  rewrite Forall_forall in F. apply F. apply nth_In. eapply Nat.lt_le_trans; [exact H|]. apply Nat.eq_le_incl. symmetry. exact L.
Qed.
Lemma few_ok i : (i < 9)%nat -> fin (few i) /\ Rabs (val (few i) - 1 / 10 * INR i) <= 1 / 10000000000000.
Proof.
  intros H. destruct physical_fewchempots_ok as (L & F & _ & N). rewrite <- p13. split; [|now apply N].
  rewrite Forall_forall in F. apply F. apply nth_In. eapply Nat.lt_le_trans; [exact H|]. apply Nat.eq_le_incl. symmetry. exact L.
Qed.
Lemma tmp_ok i : (i < 7)%nat -> fin (tmp i) /\ Rabs (val (tmp i) - 293 / 10000 * INR i) <= 1 / 10000000000000.
Proof.
  intros H. destruct physical_fewtemps_ok as (L & F & _ & N). rewrite <- p13. split; [|now apply N].
  rewrite Forall_forall in F. apply F. apply nth_In. eapply Nat.lt_le_trans; [exact H|]. apply Nat.eq_le_incl. symmetry. exact L.
Qed.
Lemma mt_ok t : In t physical_manytemps -> exists i, (i <= 1465)%nat /\ t = nth i physical_manytemps f64_nan /\ fin t /\ Rabs (val t - 12 / 100000 * INR i) <= 1 / 10000000000000.
Proof.
  intros H. destruct physical_manytemps_ok as (L & F & _ & N). rewrite <- p13. destruct (In_nth _ _ f64_nan H) as (i & Hi & E). assert (Hi' : (i < Z.to_nat 1466)%nat) by (eapply Nat.lt_le_trans; [exact Hi|apply Nat.eq_le_incl; exact L]). clear Hi. exists i.
  rewrite Forall_forall in F. split; [lia|]. split; [auto|]. split; [auto|]. rewrite <- E. now apply N.
Qed.

(** ** Which coarse chemical potentials are on the fine grid *)
Lemma few_same k : (k < 9)%nat -> k <> 3%nat -> k <> 6%nat -> val (few k) = val (many (10 * k)).
Proof.
  intros H N3 N6. apply eq_ok; [now apply few_ok|apply many_ok; lia|].
  do 9 (destruct k as [|k]; [first [congruence|vm_compute; reflexivity]|]). lia.
Qed.
Lemma few_miss k : k = 3%nat \/ k = 6%nat -> val (many (10 * k)) < val (few k).
Proof. intros [->| ->]; (apply lt_ok; [apply many_ok; lia|apply few_ok; lia|vm_compute; reflexivity]). Qed.
Lemma few_next k : (k < 8)%nat -> val (few k) < val (many (10 * k + 1)).
Proof.
  intros H. destruct (few_ok k ltac:(lia)) as (_ & A). destruct (many_ok (10 * k + 1) ltac:(lia)) as (_ & B). apply abs2 in A, B.
  rewrite plus_INR, mult_INR in B. change (INR 1) with 1 in B. replace (INR 10) with 10 in B by (simpl; lra). lra.
Qed.
Lemma few_not_tabulated k i : k = 3%nat \/ k = 6%nat -> (i < 81)%nat -> val (many i) <> val (few k).
Proof.
  intros Hk Hi. destruct (Nat.eq_dec i (10 * k)) as [->|N]; [pose proof (few_miss k Hk); lra|].
  destruct (few_ok k ltac:(lia)) as (_ & A). destruct (many_ok i Hi) as (_ & B). apply abs2 in A, B. intros E. rewrite E in B.
  assert (C : INR i <= INR (10 * k) - 1 \/ INR (10 * k) + 1 <= INR i).
  { rewrite !INR_IZR_INZ. rewrite <- minus_IZR, <- plus_IZR. destruct (Nat.lt_total i (10 * k)) as [X|[X|X]]; [left|lia|right]; apply IZR_le; lia. }
  rewrite mult_INR in C. replace (INR 10) with 10 in C by (simpl; lra). lra.
Qed.
Lemma fine_grid k : (k < 9)%nat -> (k <> 3%nat /\ k <> 6%nat <-> exists i, (i < 81)%nat /\ val (nth i physical_manychempots f64_nan) = val (nth k physical_fewchempots f64_nan)).
Proof.
  intros H. split.
  - intros (A & B). exists (10 * k)%nat. split; [lia|]. symmetry. now apply few_same.
  - intros (i & Hi & E). split; intros K.
    + apply (few_not_tabulated k i (or_introl K) Hi E).
    + apply (few_not_tabulated k i (or_intror K) Hi E).
Qed.

(** ** Tables on the fine grid *)
Lemma comb_err {A B} (a : list A) (b : list B) i x y : nth_error (combine a b) i = Some (x, y) -> nth_error a i = Some x /\ nth_error b i = Some y.
Proof. revert b i. induction a as [|p a IH]; intros [|q b] [|i] H; try discriminate; cbn in *; [inversion H; auto|now apply IH]. Qed.
Lemma many_err i x : nth_error physical_manychempots i = Some x -> (i < 81)%nat /\ x = many i.
Proof.
  intros H. assert (L : (i < length physical_manychempots)%nat) by (apply nth_error_Some; congruence). destruct physical_manychempots_ok as (E & _). assert (L' : (i < Z.to_nat 81)%nat) by (eapply Nat.lt_le_trans; [exact L|apply Nat.eq_le_incl; exact E]).
  split; [lia|]. unfold many. now rewrite (nth_error_nth _ _ _ H).
Qed.
Lemma split_two {A} (l : list A) i x y : nth_error l i = Some x -> nth_error l (i + 1) = Some y -> exists l1 l2, l = l1 ++ x :: y :: l2.
Proof.
  revert i. induction l as [|z l IH]; intros [|i] H1 H2; try discriminate.
  - cbn in *. destruct l as [|w l]; [discriminate|]. cbn in H2. inversion H1; inversion H2; subst. now exists [], l.
  - cbn in *. destruct (IH i H1 H2) as (l1 & l2 & ->). now exists (z :: l1), l2.
Qed.
Section Table.
Variable ts : list F64.
Hypothesis Hts : Forall (fun t => In t physical_manytemps) ts.
Notation full := (combine physical_manychempots ts).

Lemma one100 x : Rabs x <= 1 -> Rabs x <= bpow radix2 100.
Proof. intros H. apply Rle_trans with (1 := H). change 1 with (bpow radix2 0). apply bpow_le. lia. Qed.
Lemma INR_le a b : (a <= b)%nat -> 0 <= INR a <= INR b. Proof. intros. split; [apply pos_INR|now apply le_INR]. Qed.
Lemma many_range i : (i < 81)%nat -> - (1 / 1000) <= val (many i) <= 801 / 1000.
Proof. intros H. destruct (many_ok i H) as (_ & A). apply abs2 in A. pose proof (INR_le i 80 ltac:(lia)) as B. replace (INR 80) with 80 in B by (simpl; lra). lra. Qed.
Lemma mt_range t : In t physical_manytemps -> fin t /\ - (1 / 1000) <= val t <= 17581 / 100000.
Proof. intros H. destruct (mt_ok t H) as (i & Hi & _ & F & A). split; [auto|]. apply abs2 in A. pose proof (INR_le i 1465 Hi) as B. rewrite (INR_IZR_INZ 1465) in B. change (IZR (Z.of_nat 1465)) with 1465 in B. lra. Qed.
Lemma table_in x : In x full -> exists i, (i < 81)%nat /\ fst x = many i /\ In (snd x) physical_manytemps.
Proof.
  intros H. destruct (In_nth_error _ _ H) as (i & E). destruct x as (a & b). destruct (comb_err _ _ _ _ _ E) as (E1 & E2). destruct (many_err _ _ E1) as (L & ->).
  exists i. split; [auto|]. split; [auto|]. cbn [snd]. rewrite Forall_forall in Hts. apply Hts. eapply nth_error_In; eauto.
Qed.
Lemma table_numbers : numbers full.
Proof.
  apply Forall_forall. intros (a & b) H. destruct (table_in (a, b) H) as (i & Hi & Ea & T). cbn [fst snd] in *. subst a. destruct (mt_range _ T) as (F & B). pose proof (many_range i Hi).
  split; [now apply many_ok|]. split; [auto|]. split; apply one100, Rabs_le; lra.
Qed.
Lemma err_mid {A} (l1 : list A) x l2 : nth_error (l1 ++ x :: l2) (length l1) = Some x.
Proof. induction l1; auto. Qed.
Lemma table_spaced : spaced full.
Proof.
  intros l1 (a & b) (c & d) l2 E. cbn [fst].
  pose proof (err_mid l1 (a, b) ((c, d) :: l2)) as E1. rewrite <- E in E1.
  pose proof (err_mid (l1 ++ [(a, b)]) (c, d) l2) as E2. rewrite <- app_assoc in E2. cbn [app] in E2. rewrite <- E, app_length in E2. cbn [length] in E2.
  destruct (comb_err _ _ _ _ _ E1) as (X1 & _). destruct (comb_err _ _ _ _ _ E2) as (X2 & _).
  destruct (many_err _ _ X1) as (L1 & ->). destruct (many_err _ _ X2) as (L2 & ->).
  destruct (many_ok _ L1) as (_ & A1). destruct (many_ok _ L2) as (_ & A2). rewrite plus_INR in A2. change (INR 1) with 1 in A2. apply abs2 in A1, A2.
  assert (bpow radix2 (-100) <= / 1024) by (change (/ 1024) with (bpow radix2 (-10)); apply bpow_le; lia). lra.
Qed.
Variable pb : list (R * R).
Hypothesis Hc : cut_at_zero (real_table full) pb.
Lemma pb_err i m tc : nth_error pb i = Some (m, tc) -> (i < 81)%nat /\ m = val (many i) /\ exists t, nth_error ts i = Some t /\ tc = val t /\ In t physical_manytemps.
Proof.
  intros H. destruct Hc as (rest & E & _). assert (H' : nth_error (real_table full) i = Some (m, tc)).
  { rewrite E. rewrite nth_error_app1; auto. apply nth_error_Some. congruence. }
  unfold real_table in H'. rewrite nth_error_map in H'. match type of H' with option_map _ ?e = _ => destruct e as [(a & b)|] eqn:X end; [|discriminate]. cbn [option_map fst snd] in H'. inversion H'.
  destruct (comb_err _ _ _ _ _ X) as (E1 & E2). destruct (many_err _ _ E1) as (L & ->). split; [auto|]. split; [auto|]. exists b. split; [auto|]. split; [auto|].
  rewrite Forall_forall in Hts. apply Hts. eapply nth_error_In; eauto.
Qed.
Hypothesis Hf : falling pb.
Lemma fall_err i j x y : (i < j)%nat -> nth_error pb i = Some x -> nth_error pb j = Some y -> fst x < fst y /\ snd y < snd x.
Proof.
  clear Hc. revert i j. induction pb as [|z l IH]; intros i j L Hi Hj; [destruct i; discriminate|]. apply StronglySorted_inv in Hf. destruct Hf as (Hf' & Hz).
  destruct j as [|j]; [lia|]. destruct i as [|i].
  - inversion Hi; subst. rewrite Forall_forall in Hz. apply Hz. cbn in Hj. eapply nth_error_In; eauto.
  - apply (IH Hf' i j); auto. lia.
Qed.
Lemma temps_apart i j m tc : (0 < i)%nat -> (1 <= j <= 6)%nat -> nth_error pb i = Some (m, tc) -> 1 / 100000 <= Rabs (val (tmp j) - tc).
Proof.
  intros Hi Hj E. destruct (pb_err _ _ _ E) as (_ & _ & t & _ & -> & Ht). destruct (mt_ok t Ht) as (a & Ha & Ea & _ & A). destruct (tmp_ok j ltac:(lia)) as (_ & B).
  apply abs2 in A, B.
  assert (a <> 1465 \/ j <> 6)%nat as D.
  { destruct (Nat.eq_dec a 1465) as [->|]; [|auto]. right. intros _. 
    destruct (nth_error pb 0) as [(m0 & t0)|] eqn:E0; [|apply nth_error_None in E0; assert (i < length pb)%nat by (apply nth_error_Some; congruence); lia].
    destruct (fall_err 0 i _ _ Hi E0 E) as (_ & L). cbn [snd] in L. destruct (pb_err _ _ _ E0) as (_ & _ & s & _ & -> & Hs). destruct (mt_ok s Hs) as (c & Hcc & Ec & _ & C).
    destruct (Nat.eq_dec c 1465) as [->|N]; [rewrite Ec, <- Ea in L; lra|]. apply abs2 in C. pose proof (INR_le c 1464 ltac:(lia)) as Q. rewrite INR_IZR_INZ in A. rewrite (INR_IZR_INZ 1464) in Q. change (IZR (Z.of_nat 1464)) with 1464 in Q. change (IZR (Z.of_nat 1465)) with 1465 in A. lra. }
  assert (Z : (2930 * Z.of_nat j - 12 * Z.of_nat a <= -2 \/ 2 <= 2930 * Z.of_nat j - 12 * Z.of_nat a)%Z) by lia.
  rewrite INR_IZR_INZ in A, B.
  assert (Z' : 2930 * IZR (Z.of_nat j) - 12 * IZR (Z.of_nat a) <= -2 \/ 2 <= 2930 * IZR (Z.of_nat j) - 12 * IZR (Z.of_nat a)).
  { rewrite <- !mult_IZR, <- minus_IZR. destruct Z; [left|right]; now apply IZR_le. }
  destruct Z'; [rewrite Rabs_left1; lra|rewrite Rabs_pos_eq; lra].
Qed.
Lemma tmp_pos j : (1 <= j <= 6)%nat -> 2 / 100 <= val (tmp j).
Proof. intros Hj. destruct (tmp_ok j ltac:(lia)) as (_ & B). apply abs2 in B. pose proof (le_INR 1 j ltac:(lia)) as C. change (INR 1) with 1 in C. lra. Qed.
Lemma pb_M x : In x pb -> Rabs (snd x) <= 1.
Proof. intros H. destruct (In_nth_error _ _ H) as (i & E). destruct x as (m & tc). destruct (pb_err _ _ _ E) as (_ & _ & t & _ & -> & T). destruct (mt_range _ T). cbn [snd]. apply Rabs_le. lra. Qed.
(** ** The run with the default grids *)
Lemma default_run k j m tc : (k <= 8)%nat -> (1 <= j <= 6)%nat -> nth_error pb (10 * k) = Some (m, tc) -> (10 * k + 1 < length pb)%nat ->
  exists b, is_deconfined_phase_f64 (few k) (tmp j) full = Ret b /\ (b = true <-> tc < val (tmp j)).
Proof.
  intros Hk Hj E L. destruct (pb_err _ _ _ E) as (_ & Em & t & _ & Et & Ht). destruct (few_ok k ltac:(lia)) as (Fk & Ak). destruct (tmp_ok j ltac:(lia)) as (Fj & _). pose proof (tmp_pos j Hj).
  assert (D : k = 3%nat \/ k = 6%nat \/ k <> 3%nat /\ k <> 6%nat) by lia.
  assert (SAME : k <> 3%nat /\ k <> 6%nat -> exists b, is_deconfined_phase_f64 (few k) (tmp j) full = Ret b /\ (b = true <-> tc < val (tmp j))).
  { intros (N3 & N6). apply (exact_tabulated (few k) (tmp j) full pb tc Fk Fj table_numbers table_spaced Hc Hf); [lra|]. rewrite (few_same k) by lia. rewrite <- Em. eapply nth_error_In; eauto. }
  assert (MISS : k = 3%nat \/ k = 6%nat -> exists b, is_deconfined_phase_f64 (few k) (tmp j) full = Ret b /\ (b = true <-> tc < val (tmp j))).
  { intros K. pose proof (few_miss k K) as Lo. pose proof (few_next k ltac:(lia)) as Hi.
    destruct (nth_error pb (10 * k + 1)) as [(m1 & t1)|] eqn:E1; [|apply nth_error_None in E1; lia].
    destruct (pb_err _ _ _ E1) as (_ & Em1 & t' & _ & Et1 & Ht'). destruct (mt_range _ Ht) as (_ & Rt). destruct (mt_range _ Ht') as (_ & Rt').
    destruct (many_ok (10 * k) ltac:(lia)) as (_ & A0). destruct (many_ok (10 * k + 1) ltac:(lia)) as (_ & A1). apply abs2 in Ak, A0, A1. rewrite plus_INR in A1. rewrite mult_INR in A0, A1. change (INR 1) with 1 in A1. replace (INR 10) with 10 in A0, A1 by (simpl; lra).
    rewrite <- Em in A0, Lo. rewrite <- Em1 in A1, Hi. rewrite <- Et in Rt. rewrite <- Et1 in Rt'.
    set (tci := tc + (t1 - tc) * ((val (few k) - m) / (m1 - m))).
    assert (W : 0 <= (val (few k) - m) / (m1 - m) <= 1 / 1000000000).
    { split; [apply Rmult_le_pos; [lra|left; apply Rinv_0_lt_compat; lra]|]. apply Rmult_le_reg_r with (m1 - m); [lra|]. unfold Rdiv at 1. rewrite Rmult_assoc, Rinv_l by lra. lra. }
    assert (T : Rabs (tci - tc) <= 1 / 1000000000).
    { replace (tci - tc) with ((t1 - tc) * ((val (few k) - m) / (m1 - m))) by (unfold tci; ring). rewrite <- (Rmult_1_l (1 / 1000000000)). apply mul_abs; [apply Rabs_le; lra|rewrite Rabs_pos_eq; lra]. }
    assert (P : on_polygon pb (val (few k)) tci).
    { right. destruct (split_two _ _ _ _ E E1) as (l1 & l2 & El). exists l1, m, tc, m1, t1, l2. split; [auto|]. split; [lra|]. unfold tci. field. lra. }
    destruct (classify64 (few k) (tmp j) full pb tci 1 Fk Fj table_numbers table_spaced Hc Hf ltac:(lra) P pb_M) as (b & Eb & B1 & B2). exists b. split; [auto|].
    assert (SM : 0 <= 20 * bpow radix2 (-53) * 1 + bpow radix2 (-900) <= 1 / 1000000).
    { pose proof (bpow_gt_0 radix2 (-53)). pose proof (bpow_gt_0 radix2 (-900)). assert (bpow radix2 (-53) <= bpow radix2 (-30)) by (apply bpow_le; lia). assert (bpow radix2 (-900) <= bpow radix2 (-30)) by (apply bpow_le; lia). change (bpow radix2 (-30)) with (/ 1073741824) in *. lra. }
    pose proof (temps_apart (10 * k) j m tc ltac:(lia) Hj E) as AP. apply abs2 in T.
    destruct (Rle_dec tc (val (tmp j))) as [X|X].
    + rewrite Rabs_pos_eq in AP by lra. rewrite B1 by lra. split; intros; [lra|auto].
    + rewrite Rabs_left1 in AP by lra. rewrite B2 by lra. split; intros; [discriminate|lra]. }
  destruct D as [D|[D|D]]; auto.
Qed.

(** a table that ends at such a point *)
Lemma ends_there k t : k = 3%nat \/ k = 6%nat -> fin t -> length pb = (10 * k + 1)%nat ->
  is_deconfined_phase_f64 (few k) t full = Ret true.
Proof.
  intros K Ft L. apply (above64 (few k) t full pb); auto using table_numbers, table_spaced.
  - apply few_ok. lia.
  - intros ->. cbn in L. lia.
  - intros x H. destruct (In_nth_error _ _ H) as (i & E). assert (Li : (i < length pb)%nat) by (apply nth_error_Some; congruence).
    destruct x as (m & tc). destruct (pb_err _ _ _ E) as (I81 & -> & _). cbn [fst]. pose proof (few_miss k K) as Lo. destruct (Nat.eq_dec i (10 * k)) as [->|N]; [auto|].
    destruct (many_ok i I81) as (_ & A0). destruct (few_ok k ltac:(lia)) as (_ & Ak). apply abs2 in A0, Ak.
    pose proof (le_INR (i + 1) (10 * k) ltac:(lia)) as C. rewrite plus_INR, mult_INR in C. change (INR 1) with 1 in C. replace (INR 10) with 10 in C by (simpl; lra). lra.
Qed.
Lemma fine_there k tc t : k = 3%nat \/ k = 6%nat -> fin t -> length pb = (10 * k + 1)%nat -> nth_error pb (10 * k) = Some (val (many (10 * k)), tc) ->
  0 <= val t <= tc -> is_deconfined_phase_f64 (many (10 * k)) t full = Ret false.
Proof.
  intros K Ft L E Ht. assert (Fm : fin (many (10 * k))) by (apply many_ok; lia).
  destruct (Req_EM_T (val t) 0) as [Z|Z].
  - destruct pb as [|(m0 & t0) pb'] eqn:Epb; [cbn in L; lia|]. rewrite <- Epb in *. assert (Hc' := Hc). rewrite Epb in Hc'.
    destruct (zero_temp64 (many (10 * k)) t full m0 t0 pb' Fm Ft table_numbers table_spaced Hc') as (b & Eb & Hb); auto.
    + assert (E0 : nth_error pb 0 = Some (m0, t0)) by (rewrite Epb; reflexivity). destruct (fall_err 0 (10 * k) _ _ ltac:(lia) E0 E) as (X & _). cbn [fst] in X. lra.
    + rewrite Eb. f_equal. destruct b; auto. exfalso. assert (X : fst (last ((m0, t0) :: pb') (0, 0)) < val (many (10 * k))) by (now apply Hb). rewrite <- Epb in X.
      rewrite (last_nth pb), L in X. replace (10 * k + 1 - 1)%nat with (10 * k)%nat in X by lia. rewrite (nth_error_nth _ _ _ E) in X. cbn [fst] in X. lra.
  - destruct (exact_tabulated (many (10 * k)) t full pb tc Fm Ft table_numbers table_spaced Hc Hf Z) as (b & Eb & Hb); [eapply nth_error_In; eauto|].
    rewrite Eb. f_equal. destruct b; auto. assert (tc < val t) by (now apply Hb). lra.
Qed.
End Table.
