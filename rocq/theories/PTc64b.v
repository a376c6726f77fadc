(** * The phase classification in binary64 and over the reals *)
From Coq Require Import ZArith Reals Psatz Lia List Bool Sorted.
From Flocq Require Import Core IEEE754.BinarySingleNaN IEEE754.Binary IEEE754.Bits.
From Verif Require Import MFloat MGrid MUtils MFermi MTc MTc64 SpecGrid SpecTc SpecTc64 PGrid PGrid2 PGrid3 PFerm64 PDistr64 PTc PTc2 PTc64.
Import List ListNotations.
Open Scope R_scope.

Lemma gt_dec64 x y : fin x -> fin y -> f64_gt x y = (if Rlt_dec (val y) (val x) then true else false).
Proof. intros Fx Fy. destruct (gt_cases x y Fx Fy) as [(-> & H)|(-> & H)]; destruct (Rlt_dec (val y) (val x)); auto; lra. Qed.
Lemma lt_dec64 x y : fin x -> fin y -> f64_lt x y = (if Rlt_dec (val x) (val y) then true else false).
Proof.
  intros Fx Fy. unfold f64_lt, b64_compare. rewrite (Bcompare_correct 53 1024 x y Fx Fy). fold (val x) (val y).
  destruct (Rcompare_spec (val x) (val y)), (Rlt_dec (val x) (val y)); auto; lra.
Qed.
Lemma eq_dec64 x y : fin x -> fin y -> f64_eq x y = (if Req_EM_T (val x) (val y) then true else false).
Proof.
  intros Fx Fy. unfold f64_eq, b64_compare. rewrite (Bcompare_correct 53 1024 x y Fx Fy). fold (val x) (val y).
  destruct (Rcompare_spec (val x) (val y)), (Req_EM_T (val x) (val y)); auto; lra.
Qed.
Lemma zero_fin : fin f64_zero. Proof. reflexivity. Qed.
Lemma zero_v : val f64_zero = 0. Proof. reflexivity. Qed.

Definition pt (x : F64 * F64) : R * R := (val (fst x), val (snd x)).
Lemma table_app a b : real_table (a ++ b) = real_table a ++ real_table b. Proof. apply map_app. Qed.
Definition num (x : F64 * F64) : Prop := fin (fst x) /\ fin (snd x) /\ Rabs (val (fst x)) <= bpow radix2 100 /\ Rabs (val (snd x)) <= bpow radix2 100.

Lemma reduce_real pb : numbers pb -> real_table (reduce_phase_boundary_f64 pb) = reduce_phase_boundary (real_table pb).
Proof.
  induction pb as [|(mu & t) pb IH]; intros H; [reflexivity|]. inversion H; subst. cbn [fst snd] in *. destruct H2 as (_ & Ft & _).
  cbn [reduce_phase_boundary_f64 real_table map reduce_phase_boundary fst snd]. rewrite (eq_dec64 t f64_zero Ft zero_fin), zero_v.
  destruct (Req_EM_T (val t) 0); [reflexivity|]. cbn [map fst snd]. f_equal. apply IH. auto.
Qed.
Lemma reduce_prefix pb : exists rest, pb = reduce_phase_boundary_f64 pb ++ rest.
Proof.
  induction pb as [|(mu & t) pb (r & E)]; [now exists []|]. cbn [reduce_phase_boundary_f64]. destruct (f64_eq t f64_zero); [now exists ((mu, t) :: pb)|].
  exists r. cbn [app]. now rewrite <- E.
Qed.
Lemma numbers_red pb : numbers pb -> numbers (reduce_phase_boundary_f64 pb).
Proof. intros H. destruct (reduce_prefix pb) as (r & E). unfold numbers in *. rewrite E in H. now apply Forall_app in H. Qed.
Lemma spaced_red pb : spaced pb -> spaced (reduce_phase_boundary_f64 pb).
Proof.
  intros H l1 x y l2 E. destruct (reduce_prefix pb) as (r & E'). apply (H l1 x y (l2 ++ r)). rewrite E' at 1. rewrite E. rewrite <- app_assoc. reflexivity.
Qed.

Section Scan.
Variables (mu t : F64).
Hypotheses (Fmu : fin mu) (Ft : fin t).
Definition close (L : list (F64 * F64)) : Prop := within_rounding (real_table L) (10 * bpow radix2 (-53)) (val mu) (val t).

Lemma seg_close l1 a b l2 : num a -> num b -> val (fst a) + bpow radix2 (-100) <= val (fst b) -> val (fst a) < val mu < val (fst b) ->
  let i := interpolate_f64 (fst a) (snd a) (fst b) (snd b) mu in
  let tc := val (snd a) + (val (snd b) - val (snd a)) / (val (fst b) - val (fst a)) * (val mu - val (fst a)) in
  f64_gt t i = (if Rlt_dec tc (val t) then true else false) \/ close (l1 ++ a :: b :: l2).
Proof.
  intros (A1 & A2 & A3 & A4) (B1 & B2 & B3 & B4) Sp Mu i tc.
  destruct (interpolate_ok (fst a) (snd a) (fst b) (snd b) mu A1 A2 B1 B2 Fmu A3 A4 B3 B4 Sp Mu) as (Fi & Ei). fold i tc in Fi, Ei.
  rewrite (gt_dec64 t i Ft Fi).
  destruct (Rle_dec (Rabs (val t - tc)) (10 * (u * (Rabs (val (snd a)) + Rabs (val (snd b)))) + bpow radix2 (-900))) as [C|C].
  - right. exists (real_table l1), (val (fst a)), (val (snd a)), (val (fst b)), (val (snd b)), (real_table l2), tc.
    split; [rewrite table_app; reflexivity|]. split; [auto|]. split; [unfold tc; field; lra|]. apply Rle_trans with (1 := C). right. unfold u. ring.
  - left. apply Rnot_le_lt in C. apply abs2 in Ei.
    destruct (Rlt_dec (val i) (val t)) as [X|X], (Rlt_dec tc (val t)) as [Y|Y]; auto; exfalso.
    + rewrite (Rabs_left1 (val t - tc)) in C by lra. lra.
    + rewrite (Rabs_pos_eq (val t - tc)) in C by lra. lra.
Qed.

Lemma scan_agree pb : forall prev l1 L, numbers L -> spaced L ->
  L = l1 ++ match prev with None => pb | Some x => x :: pb end ->
  match prev with None => True | Some x => val (fst x) < val mu end ->
  let r := scan_boundary (val mu) (val t) (option_map pt prev) (real_table pb) in
  scan_boundary_f64 mu t prev pb = r \/ ((exists b, scan_boundary_f64 mu t prev pb = Ret b) /\ (exists b, r = Ret b) /\ close L).
Proof.
  induction pb as [|(m & tb) pb IH]; intros prev l1 L HN HS EL Hp r; [left; reflexivity|]. subst r.
  assert (Nm : num (m, tb)). { unfold numbers in HN. rewrite Forall_forall in HN. apply HN. rewrite EL. apply in_or_app. right. destruct prev; simpl; auto. }
  destruct Nm as (Fm & Ftb & _). cbn [fst snd] in Fm, Ftb.
  cbn [scan_boundary_f64 real_table map scan_boundary fst snd].
  rewrite (eq_dec64 m mu Fm Fmu). destruct (Req_EM_T (val m) (val mu)) as [|N1]; [left; now rewrite gt_dec64|].
  rewrite (eq_dec64 tb t Ftb Ft). destruct (Req_EM_T (val tb) (val t)) as [|N2]; [left; now rewrite gt_dec64|].
  rewrite (gt_dec64 m mu Fm Fmu). destruct (Rlt_dec (val mu) (val m)) as [G|G].
  - destruct prev as [(m0 & t0)|]; [|now left]. cbn [option_map pt fst snd].
    assert (Na : num (m0, t0)). { unfold numbers in HN. rewrite Forall_forall in HN. apply HN. rewrite EL. apply in_or_app. right. now left. }
    assert (Nb : num (m, tb)). { unfold numbers in HN. rewrite Forall_forall in HN. apply HN. rewrite EL. apply in_or_app. right. right. now left. }
    destruct (seg_close l1 (m0, t0) (m, tb) pb Na Nb) as [E|E]; cbn [fst snd] in *.
    + apply (HS l1 (m0, t0) (m, tb) pb EL).
    + lra.
    + left. now rewrite E.
    + right. split; [eauto|]. split; [eauto|]. rewrite EL. exact E.
  - apply (IH (Some (m, tb)) (match prev with None => l1 | Some x => l1 ++ [x] end) L HN HS); [|cbn [fst]; lra].
    rewrite EL. destruct prev; [rewrite <- app_assoc|]; reflexivity.
Qed.
End Scan.

Lemma last_table L d : last (real_table L) (pt d) = pt (last L d).
Proof. induction L as [|x L IH]; [reflexivity|]. cbn [real_table map last] in *. destruct L; [reflexivity|]. exact IH. Qed.
Lemma numbers_last L d : numbers L -> fin (fst d) -> fin (fst (last L d)).
Proof. induction L as [|x L IH]; intros H Fd; [exact Fd|]. inversion H; subst. cbn [last]. destruct L; [apply H2|]. apply IH; auto. Qed.

Lemma dec_unfold mu t full L a b l : reduce_phase_boundary full = L -> L = (a, b) :: l -> is_deconfined_phase mu t full =
  if Rlt_dec mu a then Panic else if Req_EM_T t 0 then Ret (if Rlt_dec (fst (last L (0, 0))) mu then true else false)
  else if Req_EM_T mu 0 then (if Req_EM_T a 0 then Ret (if Rlt_dec b t then true else false) else scan_boundary mu t None L) else scan_boundary mu t None L.
Proof. intros E ->. unfold is_deconfined_phase. rewrite E. reflexivity. Qed.
Lemma dec_unfold_f64 mu t full L a b l : reduce_phase_boundary_f64 full = L -> L = (a, b) :: l -> is_deconfined_phase_f64 mu t full =
  if f64_lt mu a then Panic else if f64_eq t f64_zero then Ret (f64_gt mu (fst (last L (f64_zero, f64_zero))))
  else if (f64_eq mu f64_zero && f64_eq a f64_zero)%bool then Ret (f64_gt t b) else scan_boundary_f64 mu t None L.
Proof. intros E ->. unfold is_deconfined_phase_f64. rewrite E. reflexivity. Qed.

Lemma agrees mu t full : fin mu -> fin t -> numbers full -> spaced full ->
  is_deconfined_phase_f64 mu t full = is_deconfined_phase (val mu) (val t) (real_table full) \/
  (exists b, is_deconfined_phase_f64 mu t full = Ret b) /\ (exists b, is_deconfined_phase (val mu) (val t) (real_table full) = Ret b) /\
  exists pb, cut_at_zero (real_table full) pb /\ within_rounding pb (10 * bpow radix2 (-53)) (val mu) (val t).
Proof.
  intros Fmu Ft HN HS. pose proof (reduce_cut (real_table full)) as Cut. pose proof (reduce_real full HN) as RR. rewrite <- RR in Cut.
  pose proof (numbers_red full HN) as HN'. pose proof (spaced_red full HS) as HS'.
  destruct (reduce_phase_boundary_f64 full) as [|(fmu & ft) L'] eqn:EL.
  { left. unfold is_deconfined_phase_f64, is_deconfined_phase. rewrite EL, <- RR. reflexivity. }
  rewrite (dec_unfold_f64 mu t full _ fmu ft L' EL eq_refl).
  rewrite (dec_unfold (val mu) (val t) (real_table full) _ (val fmu) (val ft) (real_table L') (eq_sym RR) eq_refl).
  pose proof (last_table ((fmu, ft) :: L') (f64_zero, f64_zero)) as LT. unfold pt at 1 in LT. cbn [fst snd] in LT. rewrite !zero_v in LT. rewrite LT. unfold pt. cbn [fst]. clear LT RR.
  pose proof (numbers_last _ (f64_zero, f64_zero) HN' zero_fin) as LF.
  pose proof (Forall_inv HN') as (F1 & F2 & _). cbn [fst snd] in F1, F2. 
  set (L := (fmu, ft) :: L') in *. clearbody L.
  rewrite (lt_dec64 mu fmu Fmu F1). destruct (Rlt_dec (val mu) (val fmu)); [now left|].
  rewrite (eq_dec64 t f64_zero Ft zero_fin), zero_v. destruct (Req_EM_T (val t) 0); [left; now rewrite gt_dec64|].
  rewrite (eq_dec64 mu f64_zero Fmu zero_fin), (eq_dec64 fmu f64_zero F1 zero_fin), zero_v.
  assert (SC : let r := scan_boundary (val mu) (val t) None (real_table L) in
    scan_boundary_f64 mu t None L = r \/ (exists b, scan_boundary_f64 mu t None L = Ret b) /\ (exists b, r = Ret b) /\
    exists pb, cut_at_zero (real_table full) pb /\ within_rounding pb (10 * bpow radix2 (-53)) (val mu) (val t)).
  { destruct (scan_agree mu t Fmu Ft L None [] L HN' HS' eq_refl I) as [E|(A & B & C)]; [now left|]. right. split; [auto|]. split; [auto|]. eexists. split; [exact Cut|exact C]. }
  destruct (Req_EM_T (val mu) 0); cbn [andb]; [|exact SC].
  destruct (Req_EM_T (val fmu) 0); [left; now rewrite gt_dec64|exact SC].
Qed.

(** ** Consequences *)
Lemma cut_eq full pb pb' : cut_at_zero full pb -> cut_at_zero full pb' -> pb = pb'.
Proof. intros H H'. rewrite <- (cut_unique _ _ H). now apply cut_unique. Qed.
Lemma within_on pb eps mu t : within_rounding pb eps mu t -> exists tc l1 m0 t0 m1 t1 l2, pb = l1 ++ (m0, t0) :: (m1, t1) :: l2 /\ m0 < mu < m1 /\ on_polygon pb mu tc /\
  Rabs (t - tc) <= eps * (Rabs t0 + Rabs t1) + bpow radix2 (-900).
Proof.
  intros (l1 & m0 & t0 & m1 & t1 & l2 & tc & E & M & P & C). exists tc, l1, m0, t0, m1, t1, l2. split; [auto|]. split; [auto|]. split; [|auto].
  right. exists l1, m0, t0, m1, t1, l2. auto.
Qed.
Lemma same_panics mu t full : fin mu -> fin t -> numbers full -> spaced full ->
  (is_deconfined_phase_f64 mu t full = Panic <-> is_deconfined_phase (val mu) (val t) (real_table full) = Panic).
Proof.
  intros F1 F2 HN HS. destruct (agrees mu t full F1 F2 HN HS) as [->|((b & E) & (b' & E') & _)]; [tauto|]. rewrite E, E'. split; discriminate.
Qed.
Lemma panics64 mu t full : fin mu -> fin t -> numbers full -> spaced full ->
  (is_deconfined_phase_f64 mu t full = Panic <->
   exists pb, cut_at_zero (real_table full) pb /\ (pb = [] \/ exists m0 t0 pb', pb = (m0, t0) :: pb' /\ val mu < m0)).
Proof. intros F1 F2 HN HS. rewrite (same_panics mu t full F1 F2 HN HS). apply deconf_panic'. Qed.

Lemma classify64 mu t full pb tc M : fin mu -> fin t -> numbers full -> spaced full -> cut_at_zero (real_table full) pb -> falling pb ->
  val t <> 0 -> on_polygon pb (val mu) tc -> (forall x, In x pb -> Rabs (snd x) <= M) ->
  exists b, is_deconfined_phase_f64 mu t full = Ret b /\
    (tc + (20 * bpow radix2 (-53) * M + bpow radix2 (-900)) < val t -> b = true) /\
    (val t < tc - (20 * bpow radix2 (-53) * M + bpow radix2 (-900)) -> b = false).
Proof.
  intros F1 F2 HN HS Hc Hf Ht Hp HM. destruct (deconf_correct _ _ _ _ _ Hc Hf Ht Hp) as (b & E & Hb).
  assert (E0 : 0 <= 20 * bpow radix2 (-53) * M + bpow radix2 (-900)).
  { assert (0 <= M). { destruct pb as [|x pb]; [destruct Hp as [[]|(l1 & a & c & d & e & l2 & X & _)]; destruct l1; discriminate|]. specialize (HM x (or_introl eq_refl)). pose proof (Rabs_pos (snd x)). lra. }
    pose proof (bpow_gt_0 radix2 (-53)). pose proof (bpow_gt_0 radix2 (-900)). assert (0 <= 20 * bpow radix2 (-53) * M) by (apply Rmult_le_pos; lra). lra. }
  destruct (agrees mu t full F1 F2 HN HS) as [A|((b' & E') & _ & pb' & Hc' & W)].
  - exists b. rewrite A. split; [auto|]. split; intros H; [apply Hb; lra|]. destruct b; auto. assert (tc < val t) by (now apply Hb). lra.
  - exists b'. split; [auto|]. rewrite (cut_eq _ _ _ Hc' Hc) in W. destruct (within_on _ _ _ _ W) as (tc' & l1 & m0 & t0 & m1 & t1 & l2 & El & _ & P & C).
    rewrite (polygon_unique pb (val mu) tc' tc Hf P Hp) in C.
    assert (T0 : Rabs t0 <= M). { apply (HM (m0, t0)). rewrite El. apply in_or_app. right. now left. }
    assert (T1 : Rabs t1 <= M). { apply (HM (m1, t1)). rewrite El. apply in_or_app. right. right. now left. }
    assert (C' : Rabs (val t - tc) <= 20 * bpow radix2 (-53) * M + bpow radix2 (-900)).
    { apply Rle_trans with (1 := C). apply Rplus_le_compat_r. replace (20 * bpow radix2 (-53) * M) with (10 * bpow radix2 (-53) * (M + M)) by ring. apply Rmult_le_compat_l; [pose proof (bpow_gt_0 radix2 (-53)); lra|lra]. }
    apply abs2 in C'. split; intros H; lra.
Qed.

(** at a tabulated chemical potential the answer is exact *)
Lemma no_segment pb mu t eps tc : falling pb -> In (mu, tc) pb -> within_rounding pb eps mu t -> False.
Proof.
  intros Hf Hin (l1 & m0 & t0 & m1 & t1 & l2 & tc' & E & M & _). rewrite E in Hf, Hin. unfold falling in Hf. clear E. induction l1 as [|x l1 IH].
  - cbn [app] in Hf, Hin. apply StronglySorted_inv in Hf. destruct Hf as (Hf & _). apply StronglySorted_inv in Hf. destruct Hf as (_ & Hf). rewrite Forall_forall in Hf.
    destruct Hin as [X|[X|X]]; [inversion X; lra|inversion X; lra|]. destruct (Hf _ X) as (Y & _). cbn [fst] in Y. lra.
  - cbn [app] in Hf, Hin. apply StronglySorted_inv in Hf. destruct Hf as (Hf & Hx). destruct Hin as [->|Hin]; [|now apply IH].
    rewrite Forall_forall in Hx. destruct (Hx (m0, t0)) as (Y & _); [apply in_or_app; right; now left|]. cbn [fst] in Y. lra.
Qed.
Lemma exact_tabulated mu t full pb tc : fin mu -> fin t -> numbers full -> spaced full -> cut_at_zero (real_table full) pb -> falling pb ->
  val t <> 0 -> In (val mu, tc) pb -> exists b, is_deconfined_phase_f64 mu t full = Ret b /\ (b = true <-> tc < val t).
Proof.
  intros F1 F2 HN HS Hc Hf Ht Hin. destruct (agrees mu t full F1 F2 HN HS) as [->|(_ & _ & pb' & Hc' & W)].
  - apply (deconf_correct _ pb); auto. now left.
  - exfalso. rewrite (cut_eq _ _ _ Hc' Hc) in W. eapply no_segment; eauto.
Qed.
Lemma zero_temp64 mu t full m0 t0 pb : fin mu -> fin t -> numbers full -> spaced full -> cut_at_zero (real_table full) ((m0, t0) :: pb) -> m0 <= val mu -> val t = 0 ->
  exists b, is_deconfined_phase_f64 mu t full = Ret b /\ (b = true <-> fst (last ((m0, t0) :: pb) (0, 0)) < val mu).
Proof.
  intros F1 F2 HN HS Hc Hm Ht. destruct (deconf_zero_temp _ _ _ _ _ Hc Hm) as (b & E & Hb). exists b. split; [|exact Hb]. rewrite <- E. clear E Hb.
  pose proof (reduce_real full HN) as RR. pose proof (numbers_red full HN) as HN'.
  rewrite (cut_unique _ _ Hc) in RR. destruct (reduce_phase_boundary_f64 full) as [|(a & c) L] eqn:EL; [discriminate|]. 
  rewrite (dec_unfold_f64 mu t full _ a c L EL eq_refl). rewrite (dec_unfold (val mu) 0 (real_table full) _ m0 t0 pb (cut_unique _ _ Hc) eq_refl).
  pose proof (Forall_inv HN') as (A1 & A2 & _). cbn [fst snd] in A1, A2. assert (Ea : m0 = val a) by (now inversion RR).
  pose proof (numbers_last _ (f64_zero, f64_zero) HN' zero_fin) as LF.
  pose proof (last_table ((a, c) :: L) (f64_zero, f64_zero)) as LT. unfold pt at 1 in LT. cbn [fst snd] in LT. rewrite !zero_v, RR in LT. rewrite LT. unfold pt. cbn [fst].
  rewrite (lt_dec64 mu a F1 A1), Ea. destruct (Rlt_dec (val mu) (val a)); [auto|].
  rewrite (eq_dec64 t f64_zero F2 zero_fin), zero_v, Ht. destruct (Req_EM_T 0 0); [|lra]. now rewrite gt_dec64.
Qed.
Lemma above64 mu t full pb : fin mu -> fin t -> numbers full -> spaced full -> cut_at_zero (real_table full) pb -> pb <> [] ->
  (forall x, In x pb -> fst x < val mu) -> is_deconfined_phase_f64 mu t full = Ret true.
Proof.
  intros F1 F2 HN HS Hc Hn H. destruct (agrees mu t full F1 F2 HN HS) as [->|(_ & _ & pb' & Hc' & W)]; [eapply deconf_above'; eauto|].
  exfalso. rewrite (cut_eq _ _ _ Hc' Hc) in W. destruct W as (l1 & m0 & t0 & m1 & t1 & l2 & tc & E & M & _).
  assert (X : In (m1, t1) pb) by (rewrite E; apply in_or_app; right; right; now left). specialize (H _ X). cbn [fst] in H. lra.
Qed.
