(** * Whole runs of the phase-diagram program: the corrected outputs *)
From Coq Require Import Reals List ZArith Psatz Lia Sorted.
From Coquelicot Require Import Coquelicot.
From Verif Require Import Num MConsts MVacuum MUtils MDress MTc MPhase SpecConsts SpecTc SpecPhase SpecRun PTc PTc2 PPhase PPhase2 PRun.
Import List ListNotations.
Open Scope R_scope.

Definition qs (mq : R * R * R) : list (nat * R) := [(2%nat, fst (fst mq)); (1%nat, snd (fst mq))].
Definition fcm (d : InputData) (mq : R * R * R) : FieldConfig := FieldConfig_new 3 (in_mg d) (qs mq).
Definition cf0 (d : InputData) : R :=
  config_f0 (in_f0 d) (fcm d (in_mq d)) + fold_left Rplus [INR 2 * ln (fst (fst (in_mq d)) / fst (fst (in_mqc d))); INR 1 * ln (snd (fst (in_mq d)) / snd (fst (in_mqc d)))] 0 * 4 / (9 * INR 3).
Definition corr (d : InputData) (pb : list (R * R)) (ts cs : R * R * R) : Config :=
  mkConfig (fst (fst (in_momenta d))) (in_om d) (fcm d (in_mq d)) (Some (fcm d (in_mqc d))) (in_renpoint d) (config_f0 (in_f0 d) (fcm d (in_mq d)))
    (compute_vec ts) (compute_vec cs) (compute_vec (in_momenta d)) (in_renpoint d * in_renpoint d) (Some (cf0 d)) (Some (reduce_phase_boundary pb)).

Lemma main_ret J g fit d out : physical_tc_main J g fit d = Ret out ->
  compute_propagators (prop_l0 J g) (prop_l J g) (fresh d (in_mq d) (in_fewtemps d) (in_fewchempots d)) = Ret (po_long out) /\
  compute_propagators (prop_t0 J g) (prop_t J g) (fresh d (in_mq d) (in_fewtemps d) (in_fewchempots d)) = Ret (po_trans out) /\
  compute_ir_limit (prop_l0 J g) (prop_l J g) (fresh d (in_mq d) (in_moretemps d) (in_morechempots d)) = Ret (po_ir out) /\
  compute_phase_diagram (prop_l0 J g) (prop_l J g) (fresh d (in_mq d) (in_manytemps d) (in_manychempots d)) = Ret (po_boundary out, po_d2 out) /\
  compute_phase_diagram (prop_l0 J g) (prop_l J g) (corr d (po_boundary out) (in_manytemps d) (in_manychempots d)) = Ret (po_cboundary out, po_cd2 out) /\
  fit (reduce_phase_boundary (po_boundary out)) = Ret (po_fit out) /\
  compute_propagators (prop_l0 J g) (prop_l J g) (corr d (po_boundary out) (in_fewtemps d) (in_fewchempots d)) = Ret (po_clong out) /\
  compute_propagators (prop_t0 J g) (prop_t J g) (corr d (po_boundary out) (in_fewtemps d) (in_fewchempots d)) = Ret (po_ctrans out).
Proof.
  intros E. unfold physical_tc_main in E. destruct (in_mq d) as [[mq1 mq2] mq3] eqn:Q. destruct (in_mqc d) as [[mq1c mq2c] mq3c] eqn:QC.
  apply obind_ret in E. destruct E as (long & E1 & E). apply obind_ret in E. destruct E as (trans & E2 & E). cbv zeta in E.
  apply obind_ret in E. destruct E as (ir & E3 & E). apply obind_ret in E. destruct E as ((pb, d2) & E4 & E). cbn [fst snd] in E.
  apply obind_ret in E. destruct E as (c & E5 & E). apply obind_ret in E. destruct E as ((cpb, cd2) & E6 & E). apply obind_ret in E. destruct E as (params & E7 & E).
  apply obind_ret in E. destruct E as (clong & E8 & E). apply obind_ret in E. destruct E as (ctrans & E9 & E). injection E as <-. cbn [po_long po_trans po_ir po_boundary po_d2 po_cboundary po_cd2 po_fit po_clong po_ctrans fst snd].
  assert (X : set_phase_boundary (Some pb) c = corr d pb (in_manytemps d) (in_manychempots d)).
  { injection E5 as <-. unfold corr, cf0, fcm, qs. rewrite Q, QC. reflexivity. }
  rewrite X in *. split; [exact E1|]. split; [exact E2|]. split; [exact E3|]. split; [exact E4|]. split; [exact E6|]. split; [exact E7|]. split; [exact E8|exact E9].
Qed.

Lemma alike_corr d pb ts cs : alike (fresh d (in_mq d) ts cs) (corr d pb ts cs).
Proof. repeat split. Qed.
Lemma alike_corrc d pb ts cs : alike (fresh d (in_mqc d) ts cs) (corr d pb ts cs).
Proof. repeat split. Qed.
Lemma cf0_right d : positive_masses d -> cf0 d = config_f0 (in_f0 d) (fcm d (in_mqc d)).
Proof.
  intros (G & A & B & A' & B'). destruct (corrected_f0_right (0, 0, 1) (0, 0, 1) (0, 0, 1) 0 1 (in_f0 d) 3 (in_mg d) (qs (in_mq d)) (qs (in_mqc d)) G eq_refl) as (c' & E & F).
  - repeat constructor; auto. - repeat constructor; auto.
  - injection E as <-. cbn [cfg_correctedf0] in F. injection F as F. exact F.
Qed.
Lemma data_fresh d mq ts cs mu t : maybe_corrected_data (fresh d mq ts cs) mu t = Ret (fcm d mq, config_f0 (in_f0 d) (fcm d mq)).
Proof. reflexivity. Qed.
Lemma data_conf d pb ts cs mu t : is_deconfined_phase mu t pb = Ret false -> maybe_corrected_data (corr d pb ts cs) mu t = maybe_corrected_data (fresh d (in_mq d) ts cs) mu t.
Proof. intros H. unfold maybe_corrected_data. cbn [corr cfg_correctedfieldconfig cfg_correctedf0 cfg_phase_boundary]. rewrite deconf_reduced, H. reflexivity. Qed.
Lemma data_deconf d pb ts cs mu t : positive_masses d -> is_deconfined_phase mu t pb = Ret true -> maybe_corrected_data (corr d pb ts cs) mu t = maybe_corrected_data (fresh d (in_mqc d) ts cs) mu t.
Proof. intros Hp H. unfold maybe_corrected_data. cbn [corr cfg_correctedfieldconfig cfg_correctedf0 cfg_phase_boundary]. rewrite deconf_reduced, H, (cf0_right d Hp). reflexivity. Qed.
Lemma temps_ne v : compute_vec v <> []. Proof. apply compute_vec_nonempty. Qed.

(** ** Tables *)
Lemma fresh_tables P0 P d mq ts cs : exists files, compute_propagators P0 P (fresh d mq ts cs) = Ret files.
Proof. destruct (compute_propagators P0 P (fresh d mq ts cs)) eqn:E; eauto. apply propagators_panic in E. destruct E as (mu & t & _ & _ & E). discriminate. Qed.
Lemma patchwork P0 P d pb ts cs files filesu filesc i j fu f : positive_masses d ->
  compute_propagators P0 P (corr d pb ts cs) = Ret files -> compute_propagators P0 P (fresh d (in_mq d) ts cs) = Ret filesu -> compute_propagators P0 P (fresh d (in_mqc d) ts cs) = Ret filesc ->
  (exists fs, nth_error files i = Some fs /\ nth_error fs j = Some f) -> (exists fs, nth_error filesu i = Some fs /\ nth_error fs j = Some fu) ->
  of_mu f = of_mu fu /\ of_t f = of_t fu /\ exists b, is_deconfined_phase (of_mu f) (of_t f) pb = Ret b /\
    if b then exists fs, nth_error filesc i = Some fs /\ nth_error fs j = Some f else f = fu.
Proof.
  intros Hp E Eu Ec (fs & F1 & F2) (fsu & G1 & G2).
  destruct (tables_patch P0 P _ _ _ _ i j fsu fs fu f (alike_corr d pb ts cs) (temps_ne ts) Eu E G1 F1 G2 F2) as (L1 & L2 & K). split; auto. split; auto.
  assert (NP : maybe_corrected_data (corr d pb ts cs) (of_mu fu) (of_t fu) <> Panic).
  { destruct (maybe_corrected_data (corr d pb ts cs) (of_mu fu) (of_t fu)) eqn:Z; [|discriminate]. exfalso.
    assert (E' := E). assert (X : compute_propagators P0 P (corr d pb ts cs) = Panic); [|congruence]. apply propagators_panic. exists (of_mu fu), (of_t fu).
    unfold compute_propagators in Eu. destruct (omap_ret _ _ _ Eu) as [L N]. assert (Hi : (i < length filesu)%nat) by (apply nth_error_Some; congruence).
    destruct (nth_error (cfg_chempots (fresh d (in_mq d) ts cs)) i) as [mu|] eqn:M; [|apply nth_error_None in M; lia]. pose proof (N _ _ _ M G1) as Q.
    pose proof (files_length P0 P _ _ _ Q (temps_ne ts)) as LL. assert (Hj : (j < length fsu)%nat) by (apply nth_error_Some; congruence).
    destruct (nth_error (cfg_temps (fresh d (in_mq d) ts cs)) j) as [t|] eqn:T; [|apply nth_error_None in T; lia]. destruct (file_label P0 P _ _ _ _ _ _ Q T G2) as [-> ->].
    split; [eapply nth_error_In; exact M|]. split; [|rewrite <- Z; f_equal; now destruct (file_label P0 P _ _ _ _ _ _ Q T G2)].
    destruct j as [|j]; [auto|]. right. cbn [entry_temp]. rewrite <- skip1_nth in T. eapply nth_error_In; exact T. }
  assert (B : exists b, is_deconfined_phase (of_mu f) (of_t f) pb = Ret b).
  { rewrite L1, L2. unfold maybe_corrected_data in NP. cbn [corr cfg_correctedfieldconfig cfg_correctedf0 cfg_phase_boundary] in NP. rewrite deconf_reduced in NP. destruct (is_deconfined_phase (of_mu fu) (of_t fu) pb); [congruence|eauto]. }
  destruct B as [b B]. exists b. split; auto. destruct b; [|apply K; symmetry; apply data_conf; congruence].
  unfold compute_propagators in Ec, Eu. pose proof (omap_ret _ _ _ Eu) as [Lu Nu]. pose proof (omap_ret _ _ _ Ec) as [Lc Nc]. assert (Hi : (i < length filesu)%nat) by (apply nth_error_Some; congruence).
  change (cfg_chempots (fresh d (in_mqc d) ts cs)) with (cfg_chempots (fresh d (in_mq d) ts cs)) in *.
  destruct (nth_error filesc i) as [fsc|] eqn:G1c; [|apply nth_error_None in G1c; lia]. exists fsc. split; auto.
  destruct (nth_error (cfg_chempots (fresh d (in_mq d) ts cs)) i) as [mu|] eqn:M; [|apply nth_error_None in M; lia].
  pose proof (files_length P0 P _ _ _ (Nu _ _ _ M G1) (temps_ne ts)) as LLu. pose proof (files_length P0 P _ _ _ (Nc _ _ _ M G1c) (temps_ne ts)) as LLc.
  change (cfg_temps (fresh d (in_mqc d) ts cs)) with (cfg_temps (fresh d (in_mq d) ts cs)) in LLc. assert (Hj : (j < length fsu)%nat) by (apply nth_error_Some; congruence).
  destruct (nth_error fsc j) as [fc|] eqn:G2c; [|apply nth_error_None in G2c; lia].
  destruct (tables_patch P0 P _ _ _ _ i j fsc fs fc f (alike_corrc d pb ts cs) (temps_ne ts) Ec E G1c F1 G2c F2) as (L1c & L2c & Kc). f_equal. symmetry. apply Kc. symmetry. apply data_deconf; auto. congruence.
Qed.

(** ** The boundary *)
Lemma grid_mono v i j a b : 0 <= step v -> (i <= j)%nat -> nth_error (compute_vec v) i = Some a -> nth_error (compute_vec v) j = Some b -> a <= b.
Proof. destruct v as [[v0 v1] dv]. unfold step. cbn [snd]. intros Hd L A B. apply grid_nth in A. apply grid_nth in B. subst. apply le_INR in L. nra. Qed.

Lemma last_ge pb x : falling pb -> In x pb -> fst x <= fst (last pb (0, 0)).
Proof.
  revert x. induction pb as [|y pb IH]; intros x F H; [destruct H|]. inversion F as [|? ? F1 F2]; subst. destruct pb as [|z pb]; [destruct H as [->|[]]; simpl; lra|].
  change (last (y :: z :: pb) (0, 0)) with (last (z :: pb) (0, 0)). destruct H as [->|H]; [|now apply IH].
  rewrite Forall_forall in F2. pose proof (F2 z (or_introl eq_refl)). pose proof (IH z F1 (or_introl eq_refl)). lra.
Qed.
Lemma below_confined full pb mu tc t : cut_at_zero full pb -> falling pb -> In (mu, tc) pb -> t = 0 \/ t <= tc -> is_deconfined_phase mu t full = Ret false.
Proof.
  intros Hc F H Ht. destruct (Req_EM_T t 0) as [->|N].
  - destruct pb as [|[m0 t0] pb]; [destruct H|]. assert (m0 <= mu). { destruct H as [H|H]; [injection H as -> ->; lra|]. inversion F as [|? ? F1 F2]; subst. rewrite Forall_forall in F2. pose proof (F2 _ H) as [Z _]. cbn [fst] in Z. lra. }
    destruct (deconf_zero_temp full pb m0 t0 mu Hc H0) as (b & E & B). rewrite E. destruct b; auto. exfalso. pose proof (proj1 B eq_refl) as B1. pose proof (last_ge _ _ F H) as B2. cbn [fst] in B2. lra.
  - destruct (deconf_correct full pb mu t tc Hc F N (or_introl H)) as (b & E & B). rewrite E. destruct b; auto. pose proof (proj1 B eq_refl). destruct Ht; [contradiction|lra].
Qed.

Lemma boundary_not_below P0 P d full pb ts cs cpb d2 cd2 i mu tc mu' tc' : 0 <= step ts ->
  compute_phase_diagram P0 P (fresh d (in_mq d) ts cs) = Ret (full, d2) -> compute_phase_diagram P0 P (corr d full ts cs) = Ret (cpb, cd2) ->
  cut_at_zero full pb -> falling pb -> nth_error full i = Some (mu, tc) -> nth_error cpb i = Some (mu', tc') -> In (mu, tc) pb -> tc <= tc'.
Proof.
  intros Hd E E' Hc F H H' I. destruct (diagram_nth _ _ _ _ _ _ _ _ E H) as (M & vals & V & T). destruct (diagram_nth _ _ _ _ _ _ _ _ E' H') as (M' & vals' & V' & T').
  change (cfg_chempots (corr d full ts cs)) with (cfg_chempots (fresh d (in_mq d) ts cs)) in M'. rewrite M in M'. injection M' as <-.
  change (cfg_temps (corr d full ts cs)) with (compute_vec ts) in T'. change (cfg_temps (fresh d (in_mq d) ts cs)) with (compute_vec ts) in T.
  pose proof (ir_length _ _ _ _ _ V (temps_ne ts)) as L. pose proof (ir_length _ _ _ _ _ V' (temps_ne ts)) as L'. change (cfg_temps (corr d full ts cs)) with (compute_vec ts) in L'. change (cfg_temps (fresh d (in_mq d) ts cs)) with (compute_vec ts) in L.
  pose proof (temps_ne ts) as N. assert (NV : vals <> []) by (intros ->; destruct (compute_vec ts); [congruence|discriminate]). assert (NV' : vals' <> []) by (intros ->; destruct (compute_vec ts); [congruence|discriminate]).
  destruct (fct_correct _ _ N NV) as (x & X & A). rewrite T in X. injection X as <-. destruct (fct_correct _ _ N NV') as (x & X & A'). rewrite T' in X. injection X as <-.
  apply (argmax_later (compute_vec ts) vals vals' tc tc'); auto.
  - intros a b x y Hab X Y. exact (grid_mono ts a b x y Hd Hab X Y).
  - intros j t Hj Ht. assert (D : maybe_corrected_data (fresh d (in_mq d) ts cs) mu (entry_temp j t) = maybe_corrected_data (corr d full ts cs) mu (entry_temp j t)).
    { symmetry. apply data_conf. apply (below_confined full pb mu tc); auto. destruct j; cbn [entry_temp]; auto. }
    destruct (ir_patch _ _ _ _ _ _ _ _ _ (alike_corr d full ts cs) V V' Hj D) as (v & -> & ->). reflexivity.
Qed.

Lemma boundary_beyond P0 P d full pb ts cs cpb cd2 xpb xd2 i mu tc : positive_masses d ->
  compute_phase_diagram P0 P (corr d full ts cs) = Ret (cpb, cd2) -> compute_phase_diagram P0 P (fresh d (in_mqc d) ts cs) = Ret (xpb, xd2) ->
  cut_at_zero full pb -> pb <> [] -> nth_error cpb i = Some (mu, tc) -> (forall x, In x pb -> fst x < mu) -> nth_error xpb i = Some (mu, tc).
Proof.
  intros Hp E Ex Hc Hn H Hm. pose proof (diagram_ret _ _ _ _ _ E) as (L & _). pose proof (diagram_ret _ _ _ _ _ Ex) as (Lx & _).
  destruct (nth_error xpb i) as [[mu' tc']|] eqn:Hx.
  - destruct (diagram_patch P0 P _ _ _ _ _ _ i mu' tc' mu tc (alike_corrc d full ts cs) (temps_ne ts) Ex E Hx H) as [-> K]. f_equal. f_equal. symmetry. apply K. intros t. symmetry. apply data_deconf; auto. now apply (deconf_above' full pb).
  - exfalso. apply nth_error_None in Hx. assert (i < length cpb)%nat by (apply nth_error_Some; congruence). rewrite L in H0. rewrite Lx in Hx. change (cfg_chempots (fresh d (in_mqc d) ts cs)) with (cfg_chempots (corr d full ts cs)) in Hx. lia.
Qed.

(** ** Equal masses *)
Lemma data_equal d pb ts cs mu t dd : positive_masses d -> fst (in_mqc d) = fst (in_mq d) -> maybe_corrected_data (corr d pb ts cs) mu t = Ret dd -> dd = (fcm d (in_mq d), config_f0 (in_f0 d) (fcm d (in_mq d))).
Proof.
  intros Hp Q E. assert (Z : fcm d (in_mqc d) = fcm d (in_mq d)) by (unfold fcm, qs; now rewrite Q). unfold maybe_corrected_data in E. cbn [corr cfg_correctedfieldconfig cfg_correctedf0 cfg_phase_boundary cfg_fieldconfig cfg_f0] in E.
  destruct (is_deconfined_phase mu t (reduce_phase_boundary pb)) as [|[]]; [discriminate| |]; injection E as <-; rewrite ?(cf0_right d Hp), ?Z; reflexivity.
Qed.
Lemma equal_data d pb ts cs mu t : positive_masses d -> fst (in_mqc d) = fst (in_mq d) -> maybe_corrected_data (corr d pb ts cs) mu t <> Panic -> maybe_corrected_data (corr d pb ts cs) mu t = maybe_corrected_data (fresh d (in_mq d) ts cs) mu t.
Proof. intros Hp Q E. destruct (maybe_corrected_data (corr d pb ts cs) mu t) eqn:Z; [congruence|]. rewrite (data_equal d pb ts cs mu t _ Hp Q Z). reflexivity. Qed.
Lemma equal_tables P0 P d pb ts cs files files' : positive_masses d -> fst (in_mqc d) = fst (in_mq d) ->
  compute_propagators P0 P (corr d pb ts cs) = Ret files -> compute_propagators P0 P (fresh d (in_mq d) ts cs) = Ret files' -> files = files'.
Proof.
  intros Hp Q E E'. assert (NP : forall mu t, In mu (compute_vec cs) -> t = 0 \/ In t (skipn 1 (compute_vec ts)) -> maybe_corrected_data (corr d pb ts cs) mu t <> Panic).
  { intros mu t H1 H2 Z. assert (compute_propagators P0 P (corr d pb ts cs) = Panic); [|congruence]. apply propagators_panic. eauto. }
  unfold compute_propagators in E, E'. pose proof (omap_ret _ _ _ E) as [L N]. pose proof (omap_ret _ _ _ E') as [L' N']. change (cfg_chempots (corr d pb ts cs)) with (compute_vec cs) in *. change (cfg_chempots (fresh d (in_mq d) ts cs)) with (compute_vec cs) in *.
  apply nth_ext'. intros i. destruct (nth_error (compute_vec cs) i) as [mu|] eqn:M.
  - destruct (omap_nth _ _ _ _ _ E M) as (fs & -> & F). destruct (omap_nth _ _ _ _ _ E' M) as (fs' & -> & F'). f_equal. apply nth_ext'. intros j.
    pose proof (files_length _ _ _ _ _ F (temps_ne ts)) as K. pose proof (files_length _ _ _ _ _ F' (temps_ne ts)) as K'. change (cfg_temps (corr d pb ts cs)) with (compute_vec ts) in K. change (cfg_temps (fresh d (in_mq d) ts cs)) with (compute_vec ts) in K'.
    destruct (nth_error (compute_vec ts) j) as [t|] eqn:T.
    + destruct (files_patch _ _ _ _ _ _ _ j t (alike_corr d pb ts cs) F' F T) as (x & -> & ->); auto. symmetry. apply equal_data; auto. apply NP; [eapply nth_error_In; eauto|]. destruct j; [left; reflexivity|right]. cbn [entry_temp]. rewrite <- skip1_nth in T. eapply nth_error_In; eauto.
    + apply nth_error_None in T. rewrite (proj2 (nth_error_None fs j)), (proj2 (nth_error_None fs' j)); auto; lia.
  - apply nth_error_None in M. rewrite (proj2 (nth_error_None files i)), (proj2 (nth_error_None files' i)); auto; lia.
Qed.
Lemma equal_diagram P0 P d pb ts cs pb1 d1 pb2 d2 : positive_masses d -> fst (in_mqc d) = fst (in_mq d) ->
  compute_phase_diagram P0 P (corr d pb ts cs) = Ret (pb1, d1) -> compute_phase_diagram P0 P (fresh d (in_mq d) ts cs) = Ret (pb2, d2) -> pb1 = pb2 /\ d1 = d2.
Proof.
  intros Hp Q E E'. assert (NP : forall mu t, In mu (compute_vec cs) -> t = 0 \/ In t (skipn 1 (compute_vec ts)) -> maybe_corrected_data (corr d pb ts cs) mu t <> Panic).
  { intros mu t H1 H2 Z. assert (compute_phase_diagram P0 P (corr d pb ts cs) = Panic); [|congruence]. apply diagram_panic; [apply temps_ne|]. right. eauto. }
  pose proof (diagram_ret _ _ _ _ _ E) as (L & _ & S). pose proof (diagram_ret _ _ _ _ _ E') as (L' & _ & S'). change (cfg_chempots (corr d pb ts cs)) with (compute_vec cs) in *. change (cfg_chempots (fresh d (in_mq d) ts cs)) with (compute_vec cs) in *.
  assert (X : pb1 = pb2); [|split; auto; subst; congruence].
  apply nth_ext'. intros i. destruct (nth_error pb1 i) as [[mu tc]|] eqn:H.
  - destruct (nth_error pb2 i) as [[mu' tc']|] eqn:H'; [|apply nth_error_None in H'; assert (i < length pb1)%nat by (apply nth_error_Some; congruence); lia].
    destruct (diagram_nth _ _ _ _ _ _ _ _ E H) as (M & vals & V & T). destruct (diagram_nth _ _ _ _ _ _ _ _ E' H') as (M' & vals' & V' & T').
    change (cfg_chempots (corr d pb ts cs)) with (compute_vec cs) in *. change (cfg_chempots (fresh d (in_mq d) ts cs)) with (compute_vec cs) in *. rewrite M in M'. injection M' as <-.
    pose proof (ir_length _ _ _ _ _ V (temps_ne ts)) as K. pose proof (ir_length _ _ _ _ _ V' (temps_ne ts)) as K'. change (cfg_temps (corr d pb ts cs)) with (compute_vec ts) in *. change (cfg_temps (fresh d (in_mq d) ts cs)) with (compute_vec ts) in *.
    assert (vals = vals'); [|subst; congruence]. apply nth_ext'. intros j. destruct (nth_error (compute_vec ts) j) as [t|] eqn:Tj.
    + destruct (ir_patch _ _ _ _ _ _ _ j t (alike_corr d pb ts cs) V' V Tj) as (x & -> & ->); auto. symmetry. apply equal_data; auto. apply NP; [eapply nth_error_In; eauto|]. destruct j; [left; reflexivity|right]. cbn [entry_temp]. rewrite <- skip1_nth in Tj. eapply nth_error_In; eauto.
    + apply nth_error_None in Tj. rewrite (proj2 (nth_error_None vals j)), (proj2 (nth_error_None vals' j)); auto; lia.
  - apply nth_error_None in H. symmetry. apply nth_error_None. lia.
Qed.

(** ** The boundary, for any propagators and configurations *)
Lemma not_below_gen P0 P temps chempots momenta om renpoint f0_init fc cfc c1 full pb d2 cpb cd2 i mu tc :
  set_correctedfieldconfig (Some cfc) (Config_new temps chempots momenta om renpoint f0_init fc) = Ret c1 -> 0 <= step temps ->
  compute_phase_diagram P0 P (Config_new temps chempots momenta om renpoint f0_init fc) = Ret (full, d2) ->
  compute_phase_diagram P0 P (set_phase_boundary (Some full) c1) = Ret (cpb, cd2) ->
  cut_at_zero full pb -> falling pb -> nth_error full i = Some (mu, tc) -> In (mu, tc) pb ->
  exists tc', nth_error cpb i = Some (mu, tc') /\ tc <= tc'.
Proof.
  set (c := Config_new temps chempots momenta om renpoint f0_init fc). intros S Hd E E' Hc F H I.
  assert (X : exists l, set_phase_boundary (Some full) c1 = mkConfig (cfg_pbase c) (cfg_om c) fc (Some cfc) (cfg_renpoint c) (cfg_f0 c) (cfg_temps c) (cfg_chempots c) (cfg_momenta c) (cfg_renpoint2 c) (Some l) (Some (reduce_phase_boundary full))).
  { unfold set_correctedfieldconfig, set_correctedf0 in S. cbn [cfg_write_correctedfieldconfig cfg_correctedfieldconfig] in S. destruct (corrected_sum _ _); [discriminate|]. injection S as <-. eexists. reflexivity. }
  destruct X as [l X]. rewrite X in E'. set (c' := mkConfig _ _ _ _ _ _ _ _ _ _ _ _) in E'.
  assert (A : alike c c') by repeat split. assert (N : cfg_temps c <> []) by apply temps_ne.
  pose proof (diagram_ret _ _ _ _ _ E) as (L0 & M0 & _). pose proof (diagram_ret _ _ _ _ _ E') as (L0' & M0' & _). change (cfg_chempots c') with (cfg_chempots c) in L0', M0'.
  destruct (nth_error cpb i) as [[mu' tc']|] eqn:H'; [|exfalso; apply nth_error_None in H'; assert (i < length full)%nat by (apply nth_error_Some; congruence); lia].
  assert (mu' = mu). { assert (Q : nth_error (map fst cpb) i = nth_error (map fst full) i) by congruence. rewrite !nth_error_map, H, H' in Q. now injection Q. } subst mu'.
  exists tc'. split; auto. destruct (diagram_nth _ _ _ _ _ _ _ _ E H) as (M & vals & V & T). destruct (diagram_nth _ _ _ _ _ _ _ _ E' H') as (_ & vals' & V' & T'). change (cfg_temps c') with (cfg_temps c) in T'.
  pose proof (ir_length _ _ _ _ _ V N) as L. pose proof (ir_length _ _ _ _ _ V' N) as L'. change (cfg_temps c') with (cfg_temps c) in L'.
  assert (NV : vals <> []) by (intros ->; destruct (cfg_temps c); [congruence|discriminate]). assert (NV' : vals' <> []) by (intros ->; destruct (cfg_temps c); [congruence|discriminate]).
  destruct (fct_correct _ _ N NV) as (x & Y & B). rewrite T in Y. injection Y as <-. destruct (fct_correct _ _ N NV') as (x & Y & B'). rewrite T' in Y. injection Y as <-.
  apply (argmax_later (cfg_temps c) vals vals' tc tc'); auto.
  - intros a b x y Hab X1 Y1. exact (grid_mono temps a b x y Hd Hab X1 Y1).
  - intros j t Hj Ht. assert (D : maybe_corrected_data c mu (entry_temp j t) = maybe_corrected_data c' mu (entry_temp j t)).
    { unfold maybe_corrected_data at 2. cbn [c' cfg_correctedfieldconfig cfg_correctedf0 cfg_phase_boundary]. rewrite deconf_reduced, (below_confined full pb mu tc); auto. destruct j; cbn [entry_temp]; auto. }
    destruct (ir_patch _ _ _ _ _ _ _ _ _ A V V' Hj D) as (v & -> & ->). reflexivity.
Qed.
