(** * Examples: the phase classification in binary64 *)
From Coq Require Import ZArith Reals Psatz Lia List Bool Sorted.
From Flocq Require Import Core IEEE754.BinarySingleNaN IEEE754.Binary IEEE754.Bits.
From Verif Require Import MFloat MGrid MUtils MFermi MTc MTc64 SpecGrid SpecTc SpecTc64 PGrid PGrid2 PGrid3 PGrid4 PTc64 PTc64b PTc64c.
Import List ListNotations.
Open Scope R_scope.

Fixpoint fallb (l : list (F64 * F64)) : bool :=
  match l with
  | [] => true
  | x :: r => forallb (fun y => f64_lt (fst x) (fst y) && f64_lt (snd y) (snd x)) r && fallb r
  end.
Definition finb (l : list (F64 * F64)) : bool := forallb (fun x => is_finite 53 1024 (fst x) && is_finite 53 1024 (snd x)) l.
Lemma fallb_ok l : finb l = true -> fallb l = true -> falling (real_table l).
Proof.
  induction l as [|x l IH]; intros HF H; [constructor|]. cbn [finb forallb fallb] in HF, H. apply andb_prop in HF, H. destruct HF as (Fx & HF), H as (Hx & H). apply andb_prop in Fx. destruct Fx as (F1 & F2).
  constructor; [now apply IH|]. clear IH H. apply Forall_forall. intros y Hy. unfold real_table in Hy. apply in_map_iff in Hy. destruct Hy as (z & <- & Hz). cbn [fst snd].
  rewrite forallb_forall in HF, Hx. specialize (HF z Hz). specialize (Hx z Hz). apply andb_prop in HF, Hx. destruct HF as (G1 & G2), Hx as (L1 & L2). cbn [fst snd]. split; now apply lt_ok.
Qed.
(** Critical temperatures falling by one grid step per chemical potential, up to mu = 0.3 (or 0.4); zero afterwards. *)
Definition ex_ts (n : nat) : list F64 := map (fun k => nth (1000 - k) physical_manytemps f64_nan) (seq 0 n) ++ repeat (nth 0 physical_manytemps f64_nan) (81 - n).
Definition ex_pb (n : nat) : list (F64 * F64) := combine (firstn n physical_manychempots) (map (fun k => nth (1000 - k) physical_manytemps f64_nan) (seq 0 n)).
Lemma ex_in n : Forall (fun t => In t physical_manytemps) (ex_ts n).
Proof.
  assert (L : length physical_manytemps = Z.to_nat 1466) by apply physical_manytemps_ok.
  assert (I : forall i, (i < Z.to_nat 1466)%nat -> In (nth i physical_manytemps f64_nan) physical_manytemps).
  { intros i Hi. apply nth_In. eapply Nat.lt_le_trans; [exact Hi|]. apply Nat.eq_le_incl. symmetry. exact L. }
  unfold ex_ts. apply Forall_app. split.
  - apply Forall_forall. intros t H. apply in_map_iff in H. destruct H as (k & <- & _). apply I. lia.
  - apply Forall_forall. intros t H. apply repeat_spec in H. subst t. apply I. lia.
Qed.
Lemma comb_app {A B} (a a' : list A) (b b' : list B) : length a = length b -> combine (a ++ a') (b ++ b') = combine a b ++ combine a' b'.
Proof. revert b. induction a as [|x a IH]; intros [|y b] H; try discriminate; [reflexivity|]. cbn [app combine]. f_equal. apply IH. now inversion H. Qed.
Lemma many81 : length physical_manychempots = 81%nat. Proof. destruct physical_manychempots_ok as (L & _). exact L. Qed.
Lemma ex_split n : (n <= 81)%nat -> combine physical_manychempots (ex_ts n) = ex_pb n ++ combine (skipn n physical_manychempots) (repeat (nth 0 physical_manytemps f64_nan) (81 - n)).
Proof.
  intros H. rewrite <- (firstn_skipn n physical_manychempots) at 1. unfold ex_ts, ex_pb. apply comb_app. rewrite firstn_length, map_length, seq_length.
  pose proof many81 as L. unfold F64 in *. rewrite L. lia.
Qed.
Definition posb (l : list (F64 * F64)) : bool := forallb (fun x => f64_lt f64_zero (snd x)) l.
Lemma posb_ok l : finb l = true -> posb l = true -> Forall (fun x => snd x <> 0) (real_table l).
Proof.
  intros HF H. apply Forall_forall. intros y Hy. unfold real_table in Hy. apply in_map_iff in Hy. destruct Hy as (z & <- & Hz). cbn [snd].
  unfold finb, posb in *. rewrite forallb_forall in HF, H. specialize (HF z Hz). specialize (H z Hz). apply andb_prop in HF. destruct HF as (_ & G). apply lt_ok in H; [|reflexivity|exact G]. rewrite zero_v in H. apply Rgt_not_eq. exact H.
Qed.
Lemma t0_zero : val (nth 0 physical_manytemps f64_nan) = 0.
Proof. rewrite <- zero_v. apply eq_ok; vm_compute; reflexivity. Qed.
Lemma skip_cons {A} (l : list A) n : (n < length l)%nat -> exists m r, skipn n l = m :: r.
Proof. revert n. induction l as [|x l IH]; intros [|n] H; cbn [length skipn] in *; try lia; [eauto|]. apply IH. lia. Qed.
Lemma ex_cut n : (n < 81)%nat -> finb (ex_pb n) = true -> posb (ex_pb n) = true -> cut_at_zero (real_table (combine physical_manychempots (ex_ts n))) (real_table (ex_pb n)).
Proof.
  intros H HF HP. rewrite ex_split, table_app by lia. eexists. split; [reflexivity|]. split; [now apply posb_ok|]. right.
  destruct (@skip_cons F64 physical_manychempots n) as (m & r & ES). { eapply Nat.lt_le_trans; [exact H|]. apply Nat.eq_le_incl. symmetry. exact many81. }
  rewrite ES.
  replace (81 - n)%nat with (S (80 - n)) by lia. exists (val m), (real_table (combine r (repeat (nth 0 physical_manytemps f64_nan) (80 - n)))).
  cbn [repeat combine]. unfold real_table at 1. cbn [map fst snd]. now rewrite t0_zero.
Qed.
Lemma ex31 : finb (ex_pb 31) = true /\ posb (ex_pb 31) = true /\ fallb (ex_pb 31) = true /\ length (ex_pb 31) = 31%nat. Proof. vm_compute. auto. Qed.
Lemma ex41 : finb (ex_pb 41) = true /\ posb (ex_pb 41) = true /\ fallb (ex_pb 41) = true /\ length (ex_pb 41) = 41%nat. Proof. vm_compute. auto. Qed.
Lemma len_table l : length (real_table l) = length l. Proof. apply map_length. Qed.

Lemma end_refuted : exists ts pb tc t, Forall (fun t => In t physical_manytemps) ts /\ length ts = 81%nat /\
  cut_at_zero (real_table (combine physical_manychempots ts)) pb /\ falling pb /\
  nth_error pb 30 = Some (val (nth 30 physical_manychempots f64_nan), tc) /\ In t physical_manytemps /\ 0 < val t < tc /\
  is_deconfined_phase_f64 (nth 30 physical_manychempots f64_nan) t (combine physical_manychempots ts) = Ret false /\
  is_deconfined_phase_f64 (nth 3 physical_fewchempots f64_nan) t (combine physical_manychempots ts) = Ret true.
Proof.
  destruct ex31 as (HF & HP & HL & HN). pose proof (ex_cut 31 ltac:(lia) HF HP) as Hc. pose proof (fallb_ok _ HF HL) as Hf. pose proof (ex_in 31) as Hi.
  set (t := nth 500 physical_manytemps f64_nan).
  assert (LN : length (real_table (ex_pb 31)) = (10 * 3 + 1)%nat) by (apply (eq_trans (len_table _)); exact HN).
  destruct (nth_error (real_table (ex_pb 31)) 30) as [(m & tc)|] eqn:E; [|apply nth_error_None in E; rewrite LN in E; lia].
  destruct (pb_err _ Hi _ Hc _ _ _ E) as (_ & -> & s & Es & -> & Hs). 
  assert (Et : s = nth 970 physical_manytemps f64_nan).
  { apply nth_error_nth with (d := f64_nan) in Es. rewrite <- Es. unfold ex_ts. rewrite app_nth1 by (rewrite map_length, seq_length; lia).
    change (map (fun k => nth (1000 - k) physical_manytemps f64_nan) (seq 0 31)) with (map (fun k => nth (1000 - k) physical_manytemps f64_nan) (seq 0 30) ++ [nth 970 physical_manytemps f64_nan]).
    rewrite app_nth2 by (rewrite map_length, seq_length; lia). rewrite map_length, seq_length. reflexivity. }
  assert (Ht : In t physical_manytemps). { apply nth_In. eapply Nat.lt_le_trans; [|apply Nat.eq_le_incl; symmetry; apply physical_manytemps_ok]. lia. }
  assert (Ft : fin t) by (now apply mt_range). assert (Fs : fin s) by (now apply mt_range).
  assert (P : 0 < val t < val s).
  { split.
    - rewrite <- zero_v. apply lt_ok; [reflexivity|exact Ft|vm_compute; reflexivity].
    - clear E Es. subst s. apply lt_ok; [exact Ft|exact Fs|vm_compute; reflexivity]. }
  exists (ex_ts 31), (real_table (ex_pb 31)), (val s), t.
  split; [auto|]. split; [unfold ex_ts; rewrite app_length, map_length, seq_length, repeat_length; reflexivity|]. split; [auto|]. split; [auto|]. split; [exact E|]. split; [auto|]. split; [auto|]. split.
  - apply (fine_there (ex_ts 31) Hi _ Hc Hf 3%nat (val s) t (or_introl eq_refl) Ft LN E). lra.
  - apply (ends_there (ex_ts 31) Hi _ Hc Hf 3%nat t (or_introl eq_refl) Ft LN).
Qed.

Lemma ex_default : let full := combine physical_manychempots (ex_ts 41) in let pb := real_table (ex_pb 41) in
  Forall (fun t => In t physical_manytemps) (ex_ts 41) /\ cut_at_zero (real_table full) pb /\ falling pb /\ length pb = 41%nat /\
  numbers full /\ spaced full /\
  is_deconfined_phase_f64 (nth 3 physical_fewchempots f64_nan) (nth 3 physical_fewtemps f64_nan) full = Ret false /\
  is_deconfined_phase_f64 (nth 3 physical_fewchempots f64_nan) (nth 4 physical_fewtemps f64_nan) full = Ret true /\
  is_deconfined_phase_f64 (nth 3 physical_fewchempots f64_nan) f64_zero full = Ret false /\
  is_deconfined_phase_f64 (nth 5 physical_fewchempots f64_nan) (nth 1 physical_fewtemps f64_nan) full = Ret true /\
  is_deconfined_phase_f64 (f64_lit (-1) 1) f64_one full = Panic.
Proof.
  destruct ex41 as (HF & HP & HL & HN). cbv zeta. split; [apply ex_in|]. split; [apply ex_cut; [lia|exact HF|exact HP]|]. split; [exact (fallb_ok _ HF HL)|].
  split; [apply (eq_trans (len_table _)); exact HN|]. split; [apply table_numbers, ex_in|]. split; [apply table_spaced|]. repeat split; vm_compute; reflexivity.
Qed.
