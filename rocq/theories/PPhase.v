(** * Proofs about the drivers of physical_tc *)
From Coq Require Import Reals List ZArith Psatz Lia.
From Coquelicot Require Import Coquelicot.
From Verif Require Import Num MConsts MVacuum MUtils MDress MTc MPhase SpecConsts SpecTc SpecPhase PTc PTc2.
Import List ListNotations.
Open Scope R_scope.

(** ** The panic monad *)
Lemma obind_ret {A B} (x : outcome A) (f : A -> outcome B) b : obind x f = Ret b ->
  exists a, x = Ret a /\ f a = Ret b.
Proof. destruct x; simpl; [discriminate|eauto]. Qed.
Lemma obind_panic {A B} (x : outcome A) (f : A -> outcome B) : obind x f = Panic <->
  x = Panic \/ exists a, x = Ret a /\ f a = Panic.
Proof.
  destruct x as [|a]; simpl; split; intros H; auto.
  - right. eauto.
  - destruct H as [E|(a0 & E & H)]; [discriminate|]. injection E as ->. exact H.
Qed.

Lemma omap_ret {A B} (f : A -> outcome B) l ys : omap f l = Ret ys ->
  length ys = length l /\
  forall i x y, nth_error l i = Some x -> nth_error ys i = Some y -> f x = Ret y.
Proof.
  revert ys. induction l as [|x l IH]; intros ys; simpl.
  - intros E. injection E as <-. split; auto. intros [|i]; simpl; discriminate.
  - intros E. apply obind_ret in E. destruct E as (y & E1 & E). apply obind_ret in E.
    destruct E as (ys' & E2 & E). injection E as <-. destruct (IH _ E2) as [L H]. split; [simpl; now f_equal|].
    intros [|i] a b; simpl; [intros [= <-] [= <-]; exact E1|apply H].
Qed.
Lemma omap_panic {A B} (f : A -> outcome B) l : omap f l = Panic <-> exists x, In x l /\ f x = Panic.
Proof.
  induction l as [|x l IH]; simpl.
  - split; [discriminate|intros (x & [] & _)].
  - rewrite obind_panic. split.
    + intros [E|(y & E1 & E)]; [eauto|]. apply obind_panic in E. destruct E as [E|(ys & _ & E)]; [|discriminate].
      apply IH in E. destruct E as (x' & I & E'). eauto.
    + intros (x' & [<-|I] & E); [auto|]. destruct (f x); [auto|]. right. eexists. split; [reflexivity|].
      apply obind_panic. left. apply IH. eauto.
Qed.
Lemma omap_total {A B} (f : A -> outcome B) l : (forall x, In x l -> f x <> Panic) -> exists ys, omap f l = Ret ys.
Proof.
  intros H. destruct (omap f l) eqn:E; [|eauto]. apply omap_panic in E. destruct E as (x & I & E).
  exfalso. now apply (H x).
Qed.

(** ** What the setters leave alone *)
Definition cfg_base (temps chempots momenta : R * R * R) (om renpoint f0_init : R) (fc : FieldConfig) (c : Config) : Prop :=
  cfg_om c = om /\ cfg_renpoint c = renpoint /\ cfg_renpoint2 c = renpoint * renpoint /\
  cfg_fieldconfig c = fc /\ cfg_momenta c = compute_vec momenta /\ cfg_pbase c = fst (fst momenta) /\
  (exists v, cfg_temps c = compute_vec v) /\ (exists v, cfg_chempots c = compute_vec v).

Lemma do_base temps chempots momenta om renpoint f0_init fc c k c' :
  cfg_base temps chempots momenta om renpoint f0_init fc c -> cfg_do c k = Ret c' ->
  cfg_base temps chempots momenta om renpoint f0_init fc c'.
Proof.
  intros (B1 & B2 & B3 & B4 & B5 & B6 & B7 & B8). destruct k; simpl.
  - intros E; injection E as <-. repeat split; simpl; eauto.
  - intros E; injection E as <-. repeat split; simpl; eauto.
  - unfold set_correctedfieldconfig, set_correctedf0. simpl. destruct o as [cfc|].
    + destruct corrected_sum; [discriminate|]. intros E; inversion E; subst; clear E. repeat split; simpl; eauto.
    + intros E; inversion E; subst; clear E. repeat split; simpl; eauto.
  - intros E; injection E as <-. repeat split; simpl; eauto.
Qed.
Lemma run_base temps chempots momenta om renpoint f0_init fc h : forall c c',
  cfg_base temps chempots momenta om renpoint f0_init fc c -> cfg_run c h = Ret c' ->
  cfg_base temps chempots momenta om renpoint f0_init fc c'.
Proof.
  induction h as [|k h IH]; intros c c' B; simpl.
  - intros E; injection E as <-. exact B.
  - destruct (cfg_do c k) as [|c1] eqn:E; [discriminate|]. apply IH. eapply do_base; eauto.
Qed.
Lemma new_base temps chempots momenta om renpoint f0_init fc :
  cfg_base temps chempots momenta om renpoint f0_init fc (Config_new temps chempots momenta om renpoint f0_init fc).
Proof. repeat split; simpl; eauto. Qed.

Lemma compute_vec_nonempty v : compute_vec v <> [].
Proof. destruct v as [[a b] d]. simpl. discriminate. Qed.

(** ** Tables of propagators *)
Section T.
Context (P0 : R -> R -> R -> R -> FieldConfig -> C) (P : R -> R -> R -> R -> R -> FieldConfig -> C).

Lemma norm_eq m r a b : m <> 0 -> r <> 0 -> b <> 0 -> a / (b * (r * r / (m * m))) = m ^ 2 / r ^ 2 * (a / b).
Proof. intros. field. auto. Qed.

Lemma in_combine_map {A B} (f : A -> B) l x y : In (x, y) (combine l (map f l)) -> In x l /\ y = f x.
Proof.
  induction l as [|a l IH]; simpl; [tauto|]. intros [E|I].
  - injection E as <- <-. auto.
  - destruct (IH I). auto.
Qed.
Lemma fst_combine_map {A B} (f : A -> B) l : map fst (combine l (map f l)) = l.
Proof. induction l; simpl; congruence. Qed.

Lemma tables temps chempots momenta om renpoint f0_init fc h c files :
  cfg_run (Config_new temps chempots momenta om renpoint f0_init fc) h = Ret c ->
  renpoint <> 0 -> fc_gluon fc <> 0 ->
  compute_propagators P0 P c = Ret files ->
  length files = length (cfg_chempots c) /\
  forall i mu fs, nth_error (cfg_chempots c) i = Some mu -> nth_error files i = Some fs ->
    length fs = length (cfg_temps c) /\
    forall j t f, nth_error (cfg_temps c) j = Some t -> nth_error fs j = Some f ->
      of_mu f = mu /\ of_t f = entry_temp j t /\ map fst (of_rows f) = compute_vec momenta /\
      exists d, maybe_corrected_data c mu (entry_temp j t) = Ret d /\
        let D := at_entry P0 P om (fc_gluon fc) mu d j t in
        (D renpoint <> 0 -> forall p v, In (p, v) (of_rows f) -> v = normalised (fc_gluon fc) renpoint D p).
Proof.
  intros Er Hr Hm E.
  destruct (run_base _ _ _ _ _ _ _ _ _ _ (new_base temps chempots momenta om renpoint f0_init fc) Er)
    as (B1 & B2 & B3 & B4 & B5 & B6 & (vt & B7) & _).
  apply omap_ret in E. destruct E as [L H]. split; auto.
  intros i mu fs Hi Hfs. specialize (H _ _ _ Hi Hfs). unfold propagator_files_at in H.
  apply obind_ret in H. destruct H as (v0 & Ev0 & H). apply obind_ret in H. destruct H as (fs' & Efs & H).
  injection H as <-. apply omap_ret in Efs. destruct Efs as [L' H].
  destruct (cfg_temps c) as [|t0 ts] eqn:Et; [exfalso; eapply compute_vec_nonempty; symmetry; eassumption|].
  simpl skipn in *. split; [simpl; now f_equal|].
  intros [|j] t f Hj Hf; simpl in Hj, Hf.
  - injection Hj as ->. injection Hf as <-. simpl.
    unfold curve_zero in Ev0. apply obind_ret in Ev0. destruct Ev0 as ([fc' f0'] & Ed & Ev0).
    injection Ev0 as <-. rewrite B5. split; [auto|split; [auto|split]]. 
    + apply fst_combine_map.
    + exists (fc', f0'). split; auto. intros HD p v I. apply in_combine_map in I. destruct I as [_ ->].
      unfold renfac. rewrite B1, B2, B3, B4. simpl in HD. rewrite norm_eq; auto.
  - specialize (H _ _ _ Hj Hf). apply obind_ret in H. destruct H as (v & Ev & H). injection H as <-. simpl.
    unfold curve in Ev. apply obind_ret in Ev. destruct Ev as ([fc' f0'] & Ed & Ev).
    injection Ev as <-. rewrite B5. split; [auto|split; [auto|split]].
    + apply fst_combine_map.
    + exists (fc', f0'). split; auto. intros HD q v I. apply in_combine_map in I. destruct I as [_ ->].
      unfold renfac. rewrite B1, B2, B3, B4. simpl in HD.
      replace (1 / (t * fc_gluon fc)) with (/ (t * fc_gluon fc)) by (unfold Rdiv; ring).
      rewrite norm_eq; auto.
Qed.

Lemma renormalised temps chempots momenta om renpoint f0_init fc h c files :
  cfg_run (Config_new temps chempots momenta om renpoint f0_init fc) h = Ret c ->
  renpoint <> 0 -> fc_gluon fc <> 0 ->
  (forall mu f0 fc', Re (P0 om renpoint mu f0 fc') <> 0) ->
  (forall beta mu f0 fc', Re (P om renpoint beta mu f0 fc') <> 0) ->
  compute_propagators P0 P c = Ret files ->
  forall fs f p v, In fs files -> In f fs -> In (p, v) (of_rows f) ->
  p * fc_gluon fc = renpoint -> v * renpoint ^ 2 = fc_gluon fc ^ 2.
Proof.
  intros Er Hr Hm H0 H1 E fs f p v If Iff Ip Ep.
  destruct (tables _ _ _ _ _ _ _ _ _ _ Er Hr Hm E) as [L H].
  apply In_nth_error in If. destruct If as [i Hi].
  assert (Hl : (i < length (cfg_chempots c))%nat) by (rewrite <- L; apply nth_error_Some; congruence).
  destruct (nth_error (cfg_chempots c) i) as [mu|] eqn:Hmu; [|apply nth_error_None in Hmu; lia].
  destruct (H _ _ _ Hmu Hi) as [L' H']. apply In_nth_error in Iff. destruct Iff as [j Hj].
  assert (Hl' : (j < length (cfg_temps c))%nat) by (rewrite <- L'; apply nth_error_Some; congruence).
  destruct (nth_error (cfg_temps c) j) as [t|] eqn:Ht; [|apply nth_error_None in Ht; lia].
  destruct (H' _ _ _ Ht Hj) as (_ & _ & _ & d & _ & Hd). cbv zeta in Hd.
  assert (HD : at_entry P0 P om (fc_gluon fc) mu d j t renpoint <> 0) by (destruct j; simpl; auto).
  rewrite (Hd HD _ _ Ip). unfold normalised. rewrite Ep. field. auto.
Qed.

(** ** Critical temperatures *)
Lemma ir_values_spec temps chempots momenta om renpoint f0_init fc h c mu vals :
  cfg_run (Config_new temps chempots momenta om renpoint f0_init fc) h = Ret c ->
  renpoint <> 0 -> fc_gluon fc <> 0 ->
  ir_values P0 P c mu = Ret vals ->
  length vals = length (cfg_temps c) /\
  forall j t v, nth_error (cfg_temps c) j = Some t -> nth_error vals j = Some v ->
    exists d, maybe_corrected_data c mu (entry_temp j t) = Ret d /\
      let D := at_entry P0 P om (fc_gluon fc) mu d j t in
      (D renpoint <> 0 -> v = normalised (fc_gluon fc) renpoint D (fst (fst momenta))).
Proof.
  intros Er Hr Hm E.
  destruct (run_base _ _ _ _ _ _ _ _ _ _ (new_base temps chempots momenta om renpoint f0_init fc) Er)
    as (B1 & B2 & B3 & B4 & B5 & B6 & (vt & B7) & _).
  unfold ir_values in E. apply obind_ret in E. destruct E as ([fc' f0'] & Ed & E). 
  apply obind_ret in E. destruct E as (vs & Evs & E). injection E as <-.
  apply omap_ret in Evs. destruct Evs as [L H].
  destruct (cfg_temps c) as [|t0 ts] eqn:Et; [exfalso; eapply compute_vec_nonempty; symmetry; eassumption|].
  simpl skipn in *. split; [simpl; now f_equal|].
  intros [|j] t v Hj Hv; simpl in Hj, Hv.
  - injection Hj as ->. injection Hv as <-. exists (fc', f0'). split; auto. simpl. intros HD.
    unfold renfac. rewrite B1, B2, B3, B4, B6. rewrite norm_eq; auto.
  - specialize (H _ _ _ Hj Hv). apply obind_ret in H. destruct H as ([fc1 f01] & Ed1 & H). injection H as <-.
    exists (fc1, f01). split; auto. simpl. intros HD.
    unfold renfac. rewrite B1, B2, B3, B4, B6.
    replace (1 / (t * fc_gluon fc)) with (/ (t * fc_gluon fc)) by (unfold Rdiv; ring). rewrite norm_eq; auto.
Qed.

Lemma diagram_spec temps chempots momenta om renpoint f0_init fc h c pb d2 :
  cfg_run (Config_new temps chempots momenta om renpoint f0_init fc) h = Ret c ->
  renpoint <> 0 -> fc_gluon fc <> 0 ->
  compute_phase_diagram P0 P c = Ret (pb, d2) ->
  map fst pb = cfg_chempots c /\
  forall mu tc, In (mu, tc) pb -> exists vals, first_argmax (cfg_temps c) vals tc /\
    length vals = length (cfg_temps c) /\
    forall j t v, nth_error (cfg_temps c) j = Some t -> nth_error vals j = Some v ->
      exists d, maybe_corrected_data c mu (entry_temp j t) = Ret d /\
        let D := at_entry P0 P om (fc_gluon fc) mu d j t in
        (D renpoint <> 0 -> v = normalised (fc_gluon fc) renpoint D (fst (fst momenta))).
Proof.
  intros Er Hr Hm E. unfold compute_phase_diagram in E.
  apply obind_ret in E. destruct E as (tcs & E & E'). apply obind_ret in E'. destruct E' as (x & _ & E').
  injection E' as <- ->. apply omap_ret in E. destruct E as [L H]. split.
  - revert L. generalize (cfg_chempots c). clear. intros l. revert tcs.
    induction l as [|a l IH]; intros [|b tcs]; simpl; try discriminate; auto.
    intros L. injection L as L. now rewrite IH.
  - intros mu tc I. apply In_nth_error in I. destruct I as [i Hi].
    assert (Hi' : nth_error (cfg_chempots c) i = Some mu /\ nth_error tcs i = Some tc).
    { revert i Hi. generalize (cfg_chempots c). clear. intros l. revert tcs.
      induction l as [|a l IH]; intros [|b tcs] [|i]; simpl; try discriminate.
      - intros [= <- <-]. auto.
      - apply IH. }
    destruct Hi' as [Hmu Htc]. specialize (H _ _ _ Hmu Htc). apply obind_ret in H. destruct H as (vals & Ev & H).
    destruct (ir_values_spec _ _ _ _ _ _ _ _ _ _ _ Er Hr Hm Ev) as [L' Hv].
    exists vals. split; [|split; auto].
    assert (N1 : cfg_temps c <> []).
    { destruct (run_base _ _ _ _ _ _ _ _ _ _ (new_base temps chempots momenta om renpoint f0_init fc) Er)
        as (_ & _ & _ & _ & _ & _ & (vt & B7) & _). rewrite B7. apply compute_vec_nonempty. }
    assert (N2 : vals <> []) by (intros ->; destruct (cfg_temps c); [auto|discriminate]).
    destruct (fct_correct _ _ N1 N2) as (t & Et & At). rewrite H in Et. injection Et as <-. exact At.
Qed.

(** ** When the diagram panics *)
Lemma ir_values_panic c mu : ir_values P0 P c mu = Panic <->
  maybe_corrected_data c mu 0 = Panic \/
  exists t, In t (skipn 1 (cfg_temps c)) /\ maybe_corrected_data c mu t = Panic.
Proof.
  unfold ir_values. rewrite obind_panic. split.
  - intros [E|([fc f0] & E & H)]; [auto|]. right. apply obind_panic in H. destruct H as [H|(vs & _ & H)]; [|discriminate].
    apply omap_panic in H. destruct H as (t & I & H). exists t. split; auto.
    apply obind_panic in H. destruct H as [H|([fc1 f01] & _ & H)]; [auto|discriminate].
  - intros [E|(t & I & E)]; [auto|]. destruct (maybe_corrected_data c mu 0) as [|[fc f0]]; [auto|right].
    eexists. split; [reflexivity|]. cbv beta iota zeta. apply obind_panic. left. apply omap_panic.
    exists t. split; auto. now rewrite E.
Qed.

Lemma second_panic ch tcs : length tcs = length ch ->
  second_differences ch tcs = Panic <-> (length ch < 4)%nat.
Proof.
  intros L. unfold second_differences. split.
  - intros H. destruct (Nat.lt_ge_cases (length ch) 4) as [|G]; auto. exfalso.
    destruct ch as [|c0 [|c1 ch]]; simpl in G; try lia. cbn [oidx nth_error obind] in H.
    replace (Nat.ltb _ _) with false in H by (symmetry; apply Nat.ltb_ge; simpl in *; unfold D2W; lia).
    apply omap_panic in H. destruct H as (i & I & H). apply in_seq in I. unfold D2W in *.
    assert (Hi : (i + 2 < length (c0 :: c1 :: ch))%nat) by (simpl in *; lia).
    assert (forall k, (k < length (c0 :: c1 :: ch))%nat -> exists x, oidx tcs k = Ret x).
    { intros k Hk. unfold oidx. destruct (nth_error tcs k) eqn:E; eauto. apply nth_error_None in E. lia. }
    destruct (H0 (i + 2)%nat) as [x1 E1]; [lia|]. destruct (H0 (i - 2)%nat) as [x2 E2]; [lia|].
    destruct (H0 i) as [x3 E3]; [lia|]. rewrite E1, E2, E3 in H. cbn [obind] in H.
    unfold oidx in H. destruct (nth_error (c0 :: c1 :: ch) i) eqn:E; [discriminate|]. apply nth_error_None in E. lia.
  - intros G. destruct ch as [|c0 [|c1 ch]]; [reflexivity|reflexivity|]. cbn [oidx nth_error obind].
    replace (Nat.ltb _ _) with true by (symmetry; apply Nat.ltb_lt; simpl in *; unfold D2W; lia). reflexivity.
Qed.

Lemma diagram_panic c : cfg_temps c <> [] ->
  compute_phase_diagram P0 P c = Panic <->
  (length (cfg_chempots c) < 4)%nat \/
  exists mu t, In mu (cfg_chempots c) /\ (t = 0 \/ In t (skipn 1 (cfg_temps c))) /\ maybe_corrected_data c mu t = Panic.
Proof.
  intros N. unfold compute_phase_diagram. rewrite obind_panic. split.
  - intros [E|(tcs & E & H)].
    + right. apply omap_panic in E. destruct E as (mu & I & E). apply obind_panic in E. destruct E as [E|(vals & Ev & E)].
      * apply ir_values_panic in E. destruct E as [E|(t & It & E)]; exists mu; eauto.
      * exfalso. apply (fct_panic Rgtb) in E. destruct E as [E|E]; [auto|]. subst.
        unfold ir_values in Ev. apply obind_ret in Ev. destruct Ev as ([? ?] & _ & Ev).
        apply obind_ret in Ev. destruct Ev as (? & _ & Ev). discriminate.
    + apply obind_panic in H. destruct H as [H|(? & _ & H)]; [|discriminate].
      left. apply second_panic in H; auto. apply omap_ret in E. apply E.
  - intros H. destruct (critical_temperatures P0 P c) as [|tcs] eqn:E; [auto|right]. eexists. split; [reflexivity|].
    apply obind_panic. left. pose proof (omap_ret _ _ _ E) as [L _]. apply second_panic; auto.
    destruct H as [H|(mu & t & I & It & Ep)]; [exact H|]. exfalso.
    assert (X : critical_temperatures P0 P c = Panic).
    { apply omap_panic. exists mu. split; auto. apply obind_panic. left. apply ir_values_panic.
      destruct It as [->|It]; eauto. }
    congruence.
Qed.

Lemma propagators_panic c : compute_propagators P0 P c = Panic <->
  exists mu t, In mu (cfg_chempots c) /\ (t = 0 \/ In t (skipn 1 (cfg_temps c))) /\ maybe_corrected_data c mu t = Panic.
Proof.
  unfold compute_propagators. rewrite omap_panic. split.
  - intros (mu & I & H). exists mu. unfold propagator_files_at in H. apply obind_panic in H. destruct H as [H|(v0 & _ & H)].
    + exists 0. split; auto. split; auto. unfold curve_zero in H. apply obind_panic in H. destruct H as [H|([? ?] & _ & H)]; [auto|discriminate].
    + apply obind_panic in H. destruct H as [H|(? & _ & H)]; [|discriminate]. apply omap_panic in H. destruct H as (t & It & H).
      exists t. split; auto. split; auto. apply obind_panic in H. destruct H as [H|(? & _ & H)]; [|discriminate].
      unfold curve in H. apply obind_panic in H. destruct H as [H|([? ?] & _ & H)]; [auto|discriminate].
  - intros (mu & t & I & It & E). exists mu. split; auto. unfold propagator_files_at.
    apply obind_panic. destruct (curve_zero P0 c mu) as [|v0] eqn:E0; [auto|right]. eexists. split; [reflexivity|].
    apply obind_panic. left. destruct It as [->|It].
    + exfalso. unfold curve_zero in E0. rewrite E in E0. discriminate.
    + apply omap_panic. exists t. split; auto. unfold curve. rewrite E. reflexivity.
Qed.

Lemma ir_panic c : compute_ir_limit P0 P c = Panic <->
  exists mu t, In mu (cfg_chempots c) /\ (t = 0 \/ In t (skipn 1 (cfg_temps c))) /\ maybe_corrected_data c mu t = Panic.
Proof.
  unfold compute_ir_limit. rewrite omap_panic. split.
  - intros (mu & I & H). apply ir_values_panic in H. destruct H as [H|(t & It & H)]; exists mu; eauto.
  - intros (mu & t & I & It & H). exists mu. split; auto. apply ir_values_panic. destruct It as [->|It]; eauto.
Qed.
End T.
