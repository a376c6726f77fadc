(** * Proofs about the physical_tc configuration and concurrent setters *)
From Coq Require Import Reals List Sorted Bool ZArith Psatz Lia.
From Flocq Require Import IEEE754.Binary IEEE754.Bits.
From Verif Require Import Num MConsts MVacuum MUtils MDress MTc MFloat SpecConsts SpecTc PTc PConsts.
Import ListNotations.
Open Scope R_scope.

(** ** NaN in first position *)
Lemma f64_gt_nan d : f64_gt d f64_nan = false.
Proof.
  assert (N : is_nan 53 1024 f64_nan = true) by (vm_compute; reflexivity).
  unfold f64_gt, b64_compare. destruct f64_nan; try discriminate. destruct d; reflexivity.
Qed.

Lemma fct_nan (t0 : R) ts ds :
  find_critical_temperature_gen f64_gt (t0 :: ts) (f64_nan :: ds) = Ret t0.
Proof. apply fct_stuck. apply f64_gt_nan. Qed.

(** ** The polygon over a falling table is the graph of a function on its range *)
Lemma polygon_total pb : forall m0 t0 mu, falling ((m0, t0) :: pb) ->
  m0 <= mu <= fst (last ((m0, t0) :: pb) (0, 0)) -> exists tc, on_polygon ((m0, t0) :: pb) mu tc.
Proof.
  induction pb as [|[m1 t1] pb IH]; intros m0 t0 mu F [H1 H2].
  - simpl in H2. exists t0. left. left. f_equal. lra.
  - destruct (falling_inv _ _ F) as [F1 A]. inversion A as [|? ? [A1 A2] A']; subst. simpl in A1, A2.
    destruct (Rle_dec m1 mu) as [L|L].
    + destruct (IH m1 t1 mu F1) as [tc H]; [split; [lra|exact H2]|]. exists tc. now apply polygon_cons.
    + destruct (Req_dec m0 mu) as [->|N]; [exists t0; left; left; reflexivity|].
      exists (t0 + (t1 - t0) / (m1 - m0) * (mu - m0)). right.
      exists [], m0, t0, m1, t1, pb. split; [reflexivity|]. split; [lra|]. field. lra.
Qed.

Lemma polygon_not_lt pb mu tc tc' : falling pb -> on_polygon pb mu tc -> on_polygon pb mu tc' -> tc < tc' -> False.
Proof.
  intros F H H' L. destruct pb as [|[m0 t0] l].
  - destruct H as [[]|(l1 & a & b & c & d & l2 & E & _)]. destruct l1; discriminate.
  - pose (t := tc + (tc' - tc) / 2).
    destruct (scan_first mu t m0 t0 l tc F H) as (b & E & Hb).
    destruct (scan_first mu t m0 t0 l tc' F H') as (b' & E' & Hb').
    rewrite E in E'. injection E' as <-. unfold boolR in *. unfold t in *.
    assert (tc < tc + (tc' - tc) / 2) by lra. assert (b = true) by tauto.
    assert (tc' < tc + (tc' - tc) / 2) by tauto. lra.
Qed.

Lemma polygon_unique pb mu tc tc' : falling pb -> on_polygon pb mu tc -> on_polygon pb mu tc' -> tc = tc'.
Proof.
  intros F H H'. destruct (Rtotal_order tc tc') as [L|[E|L]]; auto; exfalso.
  - exact (polygon_not_lt pb mu tc tc' F H H' L).
  - exact (polygon_not_lt pb mu tc' tc F H' H L).
Qed.

Lemma deconf_range full m0 t0 pb mu t : cut_at_zero full ((m0, t0) :: pb) -> falling ((m0, t0) :: pb) ->
  m0 <= mu <= fst (last ((m0, t0) :: pb) (0, 0)) -> t <> 0 ->
  exists tc, on_polygon ((m0, t0) :: pb) mu tc /\
    (forall tc', on_polygon ((m0, t0) :: pb) mu tc' -> tc' = tc) /\
    exists b, is_deconfined_phase mu t full = Ret b /\ (b = true <-> tc < t).
Proof.
  intros Hc F Hm Ht. destruct (polygon_total pb m0 t0 mu F Hm) as [tc H]. exists tc. split; auto. split.
  - intros tc' H'. eapply polygon_unique; eauto.
  - eapply deconf_correct; eauto.
Qed.

(** ** f0 and its correction *)
Lemma fold_plus_acc l : forall a, fold_left Rplus l a = a + fold_left Rplus l 0.
Proof.
  induction l as [|x l IH]; intros a; simpl; [ring|]. rewrite IH. rewrite (IH (0 + x)). ring.
Qed.
Lemma fold_plus_cons x l : fold_left Rplus (x :: l) 0 = x + fold_left Rplus l 0.
Proof. simpl. rewrite fold_plus_acc. ring. Qed.

Lemma corrected_sum_value mg : 0 < mg -> forall quarks cquarks,
  map fst quarks = map fst cquarks ->
  Forall (fun q => 0 < snd q) quarks -> Forall (fun q => 0 < snd q) cquarks ->
  exists l, corrected_sum quarks cquarks = Ret l /\
    fold_left Rplus (map (fun q => INR (fst q) * ln (mg / snd q)) quarks) 0 + fold_left Rplus l 0 =
    fold_left Rplus (map (fun q => INR (fst q) * ln (mg / snd q)) cquarks) 0.
Proof.
  intros Hg. induction quarks as [|[n m] quarks IH]; intros [|[n' m'] cq] E F1 F2; try discriminate.
  - exists []. split; [reflexivity|]. simpl. ring.
  - simpl in E. injection E as <- E. inversion F1; inversion F2; subst. simpl in *.
    destruct (IH cq E) as (l & El & Hl); auto. rewrite El. eexists. split; [reflexivity|].
    rewrite fold_plus_cons, !(fold_plus_acc _ (0 + _)), <- Hl.
    unfold Rdiv. rewrite !ln_mult, !ln_Rinv; auto using Rinv_0_lt_compat. ring.
Qed.

Lemma corrected_longer quarks : forall cquarks, (length quarks < length cquarks)%nat ->
  corrected_sum quarks cquarks = Panic.
Proof.
  induction quarks as [|[n m] q IH]; intros [|[n' m'] cq] H; simpl in *; try lia; auto.
  rewrite IH; auto. lia.
Qed.

Lemma corrected_f0_right temps chempots momenta om renpoint f0_init nc mg quarks cquarks :
  0 < mg -> map fst quarks = map fst cquarks ->
  Forall (fun q => 0 < snd q) quarks -> Forall (fun q => 0 < snd q) cquarks ->
  exists c', set_correctedfieldconfig (Some (FieldConfig_new nc mg cquarks))
    (Config_new temps chempots momenta om renpoint f0_init (FieldConfig_new nc mg quarks)) = Ret c' /\
    cfg_correctedf0 c' =
    Some (cfg_f0 (Config_new temps chempots momenta om renpoint f0_init (FieldConfig_new nc mg cquarks))).
Proof.
  intros Hg E F1 F2. destruct (corrected_sum_value mg Hg quarks cquarks E F1 F2) as (l & El & Hl).
  unfold set_correctedfieldconfig, set_correctedf0. simpl. rewrite El.
  eexists. split; [reflexivity|]. simpl. f_equal. unfold config_f0. simpl. rewrite <- Hl. unfold Rdiv. ring.
Qed.

Lemma corrected_longer_panics temps chempots momenta om renpoint f0_init fc cfc :
  (length (fc_quarks fc) < length (fc_quarks cfc))%nat ->
  set_correctedfieldconfig (Some cfc) (Config_new temps chempots momenta om renpoint f0_init fc) = Panic.
Proof.
  intros H. unfold set_correctedfieldconfig, set_correctedf0. simpl. rewrite corrected_longer; auto.
Qed.

Lemma corrected_shorter_refuted : exists temps chempots momenta om renpoint f0_init nc mg quarks cquarks c',
  (0 < mg /\ Forall (fun q => 0 < snd q) quarks /\ Forall (fun q => 0 < snd q) cquarks /\
   (length cquarks < length quarks)%nat) /\
  set_correctedfieldconfig (Some (FieldConfig_new nc mg cquarks))
    (Config_new temps chempots momenta om renpoint f0_init (FieldConfig_new nc mg quarks)) = Ret c' /\
  cfg_correctedf0 c' <>
    Some (cfg_f0 (Config_new temps chempots momenta om renpoint f0_init (FieldConfig_new nc mg cquarks))).
Proof.
  exists (0,0,1), (0,0,1), (0,0,1), 0, 1, 0, 3%nat, 2, [(1%nat, 1); (1%nat, 1)], [(1%nat, 1)].
  eexists. split; [|split; [reflexivity|]].
  - repeat split; try lra; auto; repeat constructor; simpl; lra.
  - simpl. unfold config_f0. simpl. intros E. injection E as E.
    assert (L : 0 < ln 2) by (rewrite <- ln_1; apply ln_increasing; lra).
    replace (2 / 1) with 2 in E by field. replace (1 / 1) with 1 in E by field. rewrite ln_1 in E. lra.
Qed.

(** ** Data selection after any history of setter calls *)
Lemma cfg_do_keeps c k c' : cfg_do c k = Ret c' ->
  cfg_fieldconfig c' = cfg_fieldconfig c /\ cfg_f0 c' = cfg_f0 c.
Proof.
  destruct k; simpl; try (intros E; injection E as <-; auto).
  unfold set_correctedfieldconfig, set_correctedf0. simpl. destruct o as [cfc|].
  - destruct corrected_sum; [intros; discriminate|]. intros E; inversion E; subst; clear E; auto.
  - intros E; inversion E; subst; clear E; auto.
Qed.

Definition cfg_ok (c : Config) : Prop :=
  (cfg_correctedf0 c = None <-> cfg_correctedfieldconfig c = None) /\
  (forall cfc, cfg_correctedfieldconfig c = Some cfc ->
     exists l, corrected_sum (fc_quarks (cfg_fieldconfig c)) (fc_quarks cfc) = Ret l /\
       cfg_correctedf0 c = Some (cfg_f0 c + fold_left Rplus l 0 * 4 / (9 * INR (fc_nc (cfg_fieldconfig c))))).

Lemma cfg_do_ok c k c' : cfg_ok c -> cfg_do c k = Ret c' -> cfg_ok c'.
Proof.
  intros [O1 O2]. destruct k; simpl; try (intros E; injection E as <-; split; auto).
  unfold set_correctedfieldconfig, set_correctedf0. simpl. destruct o as [cfc|].
  - destruct corrected_sum eqn:El; [intros; discriminate|]. intros E; inversion E; subst; clear E; split; simpl.
    + split; discriminate.
    + intros ? E. injection E as <-. eauto.
  - intros E; inversion E; subst; clear E; split; simpl; [tauto|discriminate].
Qed.

Lemma cfg_do_sel c k c' : cfg_do c k = Ret c' ->
  cfg_correctedfieldconfig c' = match sel_corr k with Some o => o | None => cfg_correctedfieldconfig c end /\
  cfg_phase_boundary c' = match sel_pb k with Some o => option_map reduce_phase_boundary o | None => cfg_phase_boundary c end.
Proof.
  destruct k; simpl; try (intros E; injection E as <-; auto).
  unfold set_correctedfieldconfig, set_correctedf0. simpl. destruct o as [cfc|].
  - destruct corrected_sum; [intros; discriminate|]. intros E; inversion E; subst; clear E; auto.
  - intros E; inversion E; subst; clear E; auto.
Qed.

Lemma last_selected_unfold {A B} (sel : A -> option B) d h v :
  last_selected sel d h v <-> v = fold_left (fun acc c => match sel c with Some x => x | None => acc end) h d.
Proof.
  revert d. induction h as [|c h IH]; intros d; simpl.
  - split.
    + intros [[-> _]|(h1 & c & h2 & E & _)]; auto. destruct h1; discriminate.
    + intros ->. left. split; auto. intros c [].
  - rewrite <- IH. destruct (sel c) as [x|] eqn:Ec; split.
    + intros [[_ H]|(h1 & c' & h2 & E & H1 & H2)].
      * rewrite (H c (or_introl eq_refl)) in Ec. discriminate.
      * destruct h1 as [|a h1]; simpl in E; injection E as -> ->.
        -- left. split; [congruence|auto].
        -- right. exists h1, c', h2. auto.
    + intros [[-> H]|(h1 & c' & h2 & -> & H1 & H2)].
      * right. exists [], c, h. auto.
      * right. exists (c :: h1), c', h2. auto.
    + intros [[-> H]|(h1 & c' & h2 & E & H1 & H2)].
      * left. split; auto. intros; apply H; right; auto.
      * destruct h1 as [|a h1]; simpl in E; injection E as -> ->.
        -- congruence.
        -- right. exists h1, c', h2. auto.
    + intros [[-> H]|(h1 & c' & h2 & -> & H1 & H2)].
      * left. split; auto. intros a [<-|Ha]; auto.
      * right. exists (c :: h1), c', h2. auto.
Qed.

Definition lastv {A B} (sel : A -> option B) (h : list A) (d : B) : B :=
  fold_left (fun acc c => match sel c with Some x => x | None => acc end) h d.

Lemma cfg_run_inv h : forall c c', cfg_ok c -> cfg_run c h = Ret c' ->
  cfg_ok c' /\ cfg_fieldconfig c' = cfg_fieldconfig c /\ cfg_f0 c' = cfg_f0 c /\
  cfg_correctedfieldconfig c' = lastv sel_corr h (cfg_correctedfieldconfig c) /\
  (forall o, cfg_phase_boundary c = option_map reduce_phase_boundary o ->
     cfg_phase_boundary c' = option_map reduce_phase_boundary (lastv sel_pb h o)).
Proof.
  induction h as [|k h IH]; intros c c' O E; simpl in E.
  - injection E as <-. repeat split; auto; apply O.
  - destruct (cfg_do c k) as [|c1] eqn:Ek; try discriminate.
    destruct (cfg_do_keeps _ _ _ Ek) as [K1 K2]. destruct (cfg_do_sel _ _ _ Ek) as [S1 S2].
    destruct (IH c1 c' (cfg_do_ok _ _ _ O Ek) E) as (I1 & I2 & I3 & I4 & I5).
    split; auto. split; [congruence|]. split; [congruence|]. split.
    + rewrite I4, S1. unfold lastv. simpl. reflexivity.
    + intros o Ho. unfold lastv in *. simpl.
      rewrite (I5 (match sel_pb k with Some o' => o' | None => o end)); auto.
      rewrite S2. destruct (sel_pb k); auto.
Qed.

Lemma new_ok temps chempots momenta om renpoint f0_init fc :
  cfg_ok (Config_new temps chempots momenta om renpoint f0_init fc).
Proof. split; simpl; [tauto|discriminate]. Qed.

Lemma deconf_reduced mu t pb : is_deconfined_phase mu t (reduce_phase_boundary pb) = is_deconfined_phase mu t pb.
Proof. unfold is_deconfined_phase. now rewrite reduce_idem. Qed.

Lemma data_selection temps chempots momenta om renpoint f0_init fc h c corr pbo mu t :
  cfg_run (Config_new temps chempots momenta om renpoint f0_init fc) h = Ret c ->
  last_selected sel_corr None h corr -> last_selected sel_pb None h pbo ->
  match corr, pbo with
  | None, None => maybe_corrected_data c mu t =
      Ret (fc, cfg_f0 (Config_new temps chempots momenta om renpoint f0_init fc))
  | Some cfc, Some pb =>
      (is_deconfined_phase mu t pb = Panic -> maybe_corrected_data c mu t = Panic) /\
      (is_deconfined_phase mu t pb = Ret false -> maybe_corrected_data c mu t =
         Ret (fc, cfg_f0 (Config_new temps chempots momenta om renpoint f0_init fc))) /\
      (is_deconfined_phase mu t pb = Ret true -> exists cf0, maybe_corrected_data c mu t = Ret (cfc, cf0) /\
         exists c1, set_correctedfieldconfig (Some cfc)
           (Config_new temps chempots momenta om renpoint f0_init fc) = Ret c1 /\ cfg_correctedf0 c1 = Some cf0)
  | _, _ => maybe_corrected_data c mu t = Panic
  end.
Proof.
  intros Er Hc Hp. apply last_selected_unfold in Hc. apply last_selected_unfold in Hp.
  destruct (cfg_run_inv _ _ _ (new_ok _ _ _ _ _ _ _) Er) as ([O1 O2] & I2 & I3 & I4 & I5).
  specialize (I5 None eq_refl). unfold lastv in *. cbn [Config_new cfg_correctedfieldconfig] in I4.
  rewrite <- Hc in I4. rewrite <- Hp in I5. cbn [Config_new cfg_fieldconfig] in I2.
  unfold maybe_corrected_data. rewrite I4, I5.
  destruct corr as [cfc|]; destruct pbo as [pb|]; cbn [option_map].
  - destruct (O2 cfc I4) as (l & El & Hl). rewrite Hl, deconf_reduced.
    rewrite I2 in El. split; [|split]; intros D; rewrite D; auto.
    + rewrite I2, I3. reflexivity.
    + eexists. split; [reflexivity|].
      unfold set_correctedfieldconfig, set_correctedf0. cbn [cfg_write_correctedfieldconfig cfg_correctedfieldconfig cfg_fieldconfig Config_new].
      rewrite El. eexists. split; [reflexivity|]. simpl. rewrite I2, I3. reflexivity.
  - destruct (cfg_correctedf0 c); reflexivity.
  - destruct (cfg_correctedf0 c) eqn:E; auto.
  - assert (E : cfg_correctedf0 c = None) by tauto. rewrite E, I2, I3. reflexivity.
Qed.

(** ** Public fields *)
Definition fcA := FieldConfig_new 3 1 [(1%nat, 1)].
Definition fcB := FieldConfig_new 3 1 [(1%nat, / 2)].
Definition cfgA := Config_new (0,0,1) (0,0,1) (0,0,1) 0 1 0 fcA.

Lemma ln2pos : 0 < ln 2.
Proof. rewrite <- ln_1. apply ln_increasing; lra. Qed.

Lemma public_corrected_refuted : exists c cfc cf0 mu t pb,
  cfg_run cfgA [CSetCorrected (Some fcA); CSetBoundary (Some pb)] = Ret c /\
  maybe_corrected_data (cfg_write_correctedfieldconfig (Some cfc) c) mu t = Ret (cfc, cf0) /\
  exists c1, set_correctedfieldconfig (Some cfc) cfgA = Ret c1 /\ cfg_correctedf0 c1 <> Some cf0.
Proof.
  eexists _, fcB, _, 0, 1, [(0, / 2)]. split; [reflexivity|]. split.
  - unfold maybe_corrected_data, is_deconfined_phase. simpl.
    destruct (Req_EM_T (/ 2) 0); [lra|]. simpl.
    destruct (Req_EM_T (/ 2) 0); [lra|].
    destruct (Rlt_dec 0 0); [lra|]. destruct (Req_EM_T 1 0); [lra|].
    destruct (Req_EM_T 0 0); [|lra]. destruct (Rlt_dec (/ 2) 1); [|lra]. reflexivity.
  - eexists. split; [reflexivity|]. simpl. intros E. injection E as E.
    replace (1 / / 2) with 2 in E by field. replace (1 / 1) with 1 in E by field. rewrite ln_1 in E.
    pose proof ln2pos. lra.
Qed.

Lemma public_fieldconfig_refuted : exists fc mu t,
  exists f0, maybe_corrected_data (cfg_write_fieldconfig fc cfgA) mu t = Ret (fc, f0) /\
  f0 <> cfg_f0 (Config_new (0,0,1) (0,0,1) (0,0,1) 0 1 0 fc).
Proof.
  exists fcB, 0, 1. eexists. split; [reflexivity|]. simpl. unfold config_f0. simpl.
  replace (1 / / 2) with 2 by field. replace (1 / 1) with 1 by field. rewrite ln_1.
  pose proof ln2pos. lra.
Qed.

(** ** compute_vec *)
Lemma fround_pos x : 0 <= x -> (0 <= fround x)%Z /\ Rabs (IZR (fround x) - x) <= / 2.
Proof.
  intros H. unfold fround. destruct (Rle_dec 0 x); [|lra].
  destruct (base_Int_part (x + / 2)) as [B1 B2]. split.
  - assert (-1 < IZR (Int_part (x + / 2))) by lra. apply lt_IZR in H0. lia.
  - apply Rabs_le. lra.
Qed.

Lemma grid_correct vmin vmax dv : vmin <= vmax -> 0 < dv ->
  exists n : nat, length (compute_vec (vmin, vmax, dv)) = S n /\
    Rabs (INR n - (vmax - vmin) / dv) <= / 2 /\
    (forall k, (k <= n)%nat -> nth_error (compute_vec (vmin, vmax, dv)) k = Some (vmin + dv * INR k)) /\
    (forall v, nth_error (compute_vec (vmin, vmax, dv)) n = Some v -> Rabs (v - vmax) <= dv / 2).
Proof.
  intros H1 H2. set (x := (vmax - vmin) / dv).
  assert (Hx : 0 <= x) by (unfold x; apply Rmult_le_pos; [lra|left; now apply Rinv_0_lt_compat]).
  destruct (fround_pos x Hx) as [F1 F2]. exists (Z.to_nat (fround x)).
  assert (E : INR (Z.to_nat (fround x)) = IZR (fround x)) by (rewrite INR_IZR_INZ, Z2Nat.id; auto).
  assert (N : forall k, (k <= Z.to_nat (fround x))%nat ->
    nth_error (compute_vec (vmin, vmax, dv)) k = Some (vmin + dv * INR k)).
  { intros k Hk. unfold compute_vec. fold x. rewrite nth_error_map.
    rewrite (nth_error_nth' _ 0%nat) by (rewrite seq_length; lia). rewrite seq_nth by lia. reflexivity. }
  split; [|split; [|split; auto]].
  - unfold compute_vec. rewrite map_length, seq_length. reflexivity.
  - rewrite E. exact F2.
  - intros v Hv. rewrite N in Hv by lia. injection Hv as <-. rewrite E.
    replace (vmin + dv * IZR (fround x) - vmax) with (dv * (IZR (fround x) - x)) by (unfold x; field; lra).
    rewrite Rabs_mult, (Rabs_pos_eq dv) by lra. nra.
Qed.

(** ** Concurrent setters *)
Lemma race_refuted : exists sched nc nf,
  let '(g, t1, t2) := run_race OpsR sched (default_globals OpsR) (prog_set_nc nc) (prog_set_nf nf) in
  t_code t1 = [] /\ t_code t2 = [] /\ g_nc g = nc /\ g_nf g = nf /\
  g_nf_div_nc g <> INR nf / INR nc.
Proof.
  exists [true; true; true; false; false; false; false; true], 2%nat, 5%nat. simpl.
  repeat split. lra.
Qed.

(** Whatever the schedule, the stored ratio is one of three quotients once both
    threads have finished; and it is the right one if the threads do not overlap. *)
Definition race_inv {F} (O : FloatOps F) (g0 : globals F) (nc nf : nat) (s : globals F * thread * thread) : Prop :=
  let '(g, t1, t2) := s in
  let q a b := f_div O (f_of_u32 O a) (f_of_u32 O b) in
  let okr := g_nf_div_nc g = q nf nc \/ g_nf_div_nc g = q (g_nf g0) nc \/ g_nf_div_nc g = q nf (g_nc g0) in
  let nc_done := g_nc g = nc in let nf_done := g_nf g = nf in
  let nc_cur := g_nc g = nc \/ g_nc g = g_nc g0 in let nf_cur := g_nf g = nf \/ g_nf g = g_nf g0 in
  nc_cur /\ nf_cur /\
  match t_code t1 with
  | [StoreNC n; LoadNF; LoadNC; StoreRatio] => n = nc
  | [LoadNF; LoadNC; StoreRatio] => nc_done
  | [LoadNC; StoreRatio] => nc_done /\ (t_nf t1 = nf \/ t_nf t1 = g_nf g0)
  | [StoreRatio] => nc_done /\ (t_nf t1 = nf \/ t_nf t1 = g_nf g0) /\ t_nc t1 = nc
  | [] => nc_done /\ okr
  | _ => False end /\
  match t_code t2 with
  | [StoreNF n; LoadNF; LoadNC; StoreRatio] => n = nf
  | [LoadNF; LoadNC; StoreRatio] => nf_done
  | [LoadNC; StoreRatio] => nf_done /\ t_nf t2 = nf
  | [StoreRatio] => nf_done /\ t_nf t2 = nf /\ (t_nc t2 = nc \/ t_nc t2 = g_nc g0)
  | [] => nf_done /\ okr
  | _ => False end.

Ltac crunch_race :=
  repeat match goal with
  | H : match ?l with nil => _ | cons _ _ => _ end |- _ => destruct l as [|[] ]; try contradiction
  | H : match ?i with StoreNC _ => _ | StoreNF _ => _ | LoadNF => _ | LoadNC => _ | StoreRatio => _ end |- _ =>
      destruct i; try contradiction
  end.

Lemma race_step1 {F} (O : FloatOps F) g0 nc nf g t1 t2 : race_inv O g0 nc nf (g, t1, t2) ->
  race_inv O g0 nc nf (let '(g', t1') := step_thread O g t1 in (g', t1', t2)).
Proof.
  destruct t1 as [c1 a1 b1]. destruct t2 as [c2 a2 b2]. unfold race_inv, step_thread. simpl.
  intros (N & M & H1 & H2).
  crunch_race; simpl in *; intuition (subst; simpl in *; auto; try congruence);
    try (right; congruence); try (left; congruence).
Qed.

Lemma race_step2 {F} (O : FloatOps F) g0 nc nf g t1 t2 : race_inv O g0 nc nf (g, t1, t2) ->
  race_inv O g0 nc nf (let '(g', t2') := step_thread O g t2 in (g', t1, t2')).
Proof.
  destruct t1 as [c1 a1 b1]. destruct t2 as [c2 a2 b2]. unfold race_inv, step_thread. simpl.
  intros (N & M & H1 & H2).
  crunch_race; simpl in *; intuition (subst; simpl in *; auto; try congruence);
    try (right; congruence); try (left; congruence).
Qed.

Lemma race_run {F} (O : FloatOps F) g0 nc nf sched : forall g t1 t2, race_inv O g0 nc nf (g, t1, t2) ->
  race_inv O g0 nc nf (run_race O sched g t1 t2).
Proof.
  induction sched as [|b sched IH]; intros g t1 t2 H; [exact H|]. simpl. destruct b.
  - apply race_step1 in H. destruct (step_thread O g t1) as [g' t']. now apply IH.
  - apply race_step2 in H. destruct (step_thread O g t2) as [g' t']. now apply IH.
Qed.

Lemma race_outcomes {F} (O : FloatOps F) (g0 : globals F) nc nf sched g t1 t2 :
  run_race O sched g0 (prog_set_nc nc) (prog_set_nf nf) = (g, t1, t2) ->
  t_code t1 = [] -> t_code t2 = [] ->
  g_nc g = nc /\ g_nf g = nf /\
  (g_nf_div_nc g = f_div O (f_of_u32 O nf) (f_of_u32 O nc) \/
   g_nf_div_nc g = f_div O (f_of_u32 O (g_nf g0)) (f_of_u32 O nc) \/
   g_nf_div_nc g = f_div O (f_of_u32 O nf) (f_of_u32 O (g_nc g0))).
Proof.
  intros E E1 E2.
  assert (I : race_inv O g0 nc nf (g0, prog_set_nc nc, prog_set_nf nf)) by (unfold race_inv; simpl; auto).
  apply (race_run O g0 nc nf sched) in I. rewrite E in I. unfold race_inv in I. rewrite E1, E2 in I. tauto.
Qed.

Lemma race_serial {F} (O : FloatOps F) (g0 : globals F) nc nf sched :
  sched = [true; true; true; true; false; false; false; false] \/
  sched = [false; false; false; false; true; true; true; true] ->
  let '(g, t1, t2) := run_race O sched g0 (prog_set_nc nc) (prog_set_nf nf) in
  t_code t1 = [] /\ t_code t2 = [] /\ g_nc g = nc /\ g_nf g = nf /\
  g_nf_div_nc g = f_div O (f_of_u32 O nf) (f_of_u32 O nc).
Proof. intros [->| ->]; simpl; auto. Qed.

Lemma f0_formula temps chempots momenta om renpoint f0_init nc mg quarks :
  cfg_f0 (Config_new temps chempots momenta om renpoint f0_init (FieldConfig_new nc mg quarks)) =
  f0_init + 4 / (9 * INR nc) * fold_right (fun q acc => INR (fst q) * ln (mg / snd q) + acc) 0 quarks.
Proof.
  simpl. unfold config_f0. simpl.
  assert (E : fold_left Rplus (map (fun q : nat * R => INR (fst q) * ln (mg / snd q)) quarks) 0 =
    fold_right (fun q acc => INR (fst q) * ln (mg / snd q) + acc) 0 quarks).
  { induction quarks as [|q l IH]; [reflexivity|]. simpl map. rewrite fold_plus_cons, IH. reflexivity. }
  rewrite E. unfold Rdiv. ring.
Qed.

Lemma deconf_panic' mu t full :
  is_deconfined_phase mu t full = Panic <->
  exists pb, cut_at_zero full pb /\ (pb = [] \/ exists m0 t0 pb', pb = (m0, t0) :: pb' /\ mu < m0).
Proof.
  rewrite deconf_panic. split.
  - intros H. exists (reduce_phase_boundary full). split; [apply reduce_cut|exact H].
  - intros (pb & Hc & H). rewrite (cut_unique _ _ Hc). exact H.
Qed.
