(** * Whole runs of the phase-diagram program: the statements *)
From Coq Require Import Reals List ZArith Psatz Lia Sorted.
From Coquelicot Require Import Coquelicot.
From Verif Require Import Num MConsts MVacuum MUtils MDress MTc MPhase SpecConsts SpecTc SpecPhase SpecRun PTc PTc2 PPhase PPhase2 PRun PRun2.
Import List ListNotations.
Open Scope R_scope.

Lemma run_fit J g fit d out : physical_tc_main J g fit d = Ret out -> exists pb, cut_at_zero (po_boundary out) pb /\ fit pb = Ret (po_fit out).
Proof. intros E. apply main_ret in E. destruct E as (_ & _ & _ & _ & _ & E & _). eexists. split; [apply reduce_cut|exact E]. Qed.

Lemma run_fit_ignores J g fit d d' out out' : same_but_corrected d d' -> physical_tc_main J g fit d = Ret out -> physical_tc_main J g fit d' = Ret out' ->
  po_fit out' = po_fit out /\ po_boundary out' = po_boundary out.
Proof.
  intros (H1 & H2 & H3 & H4 & H5 & H6 & H7 & H8 & H9 & H10 & H11 & H12) E E'. apply main_ret in E. apply main_ret in E'.
  destruct E as (_ & _ & _ & A & _ & F & _). destruct E' as (_ & _ & _ & A' & _ & F' & _). unfold fresh in *. rewrite <- H1, <- H2, <- H3, <- H4, <- H5, <- H8, <- H11, <- H12 in A'. rewrite A in A'. injection A' as B _. rewrite B in F. split; [congruence|auto].
Qed.

Lemma run_tables J g fit d out : positive_masses d -> physical_tc_main J g fit d = Ret out ->
  exists clong ctrans,
    compute_propagators (prop_l0 J g) (prop_l J g) (fresh d (in_mqc d) (in_fewtemps d) (in_fewchempots d)) = Ret clong /\
    compute_propagators (prop_t0 J g) (prop_t J g) (fresh d (in_mqc d) (in_fewtemps d) (in_fewchempots d)) = Ret ctrans /\
    forall plain corrected other i j fu f, In (plain, corrected, other) [(po_long out, po_clong out, clong); (po_trans out, po_ctrans out, ctrans)] ->
    (exists fs, nth_error plain i = Some fs /\ nth_error fs j = Some fu) -> (exists fs, nth_error corrected i = Some fs /\ nth_error fs j = Some f) ->
    of_mu f = of_mu fu /\ of_t f = of_t fu /\ exists b, is_deconfined_phase (of_mu f) (of_t f) (po_boundary out) = Ret b /\
      if b then exists fs, nth_error other i = Some fs /\ nth_error fs j = Some f else f = fu.
Proof.
  intros Hp E. apply main_ret in E. destruct E as (E1 & E2 & _ & _ & _ & _ & E8 & E9).
  destruct (fresh_tables (prop_l0 J g) (prop_l J g) d (in_mqc d) (in_fewtemps d) (in_fewchempots d)) as [cl CL].
  destruct (fresh_tables (prop_t0 J g) (prop_t J g) d (in_mqc d) (in_fewtemps d) (in_fewchempots d)) as [ct CT].
  exists cl, ct. split; auto. split; auto. intros plain corrected other i j fu f [I|[I|[]]] F G; injection I as <- <- <-.
  - exact (patchwork _ _ d _ _ _ _ _ _ i j fu f Hp E8 E1 CL G F).
  - exact (patchwork _ _ d _ _ _ _ _ _ i j fu f Hp E9 E2 CT G F).
Qed.

Lemma run_not_below J g fit d out pb i mu tc : physical_tc_main J g fit d = Ret out -> 0 <= step (in_manytemps d) ->
  cut_at_zero (po_boundary out) pb -> falling pb -> nth_error (po_boundary out) i = Some (mu, tc) -> In (mu, tc) pb ->
  exists tc', nth_error (po_cboundary out) i = Some (mu, tc') /\ tc <= tc'.
Proof.
  intros E Hs Hc F H I. apply main_ret in E. destruct E as (_ & _ & _ & E4 & E5 & _).
  pose proof (diagram_ret _ _ _ _ _ E4) as (L & M & _). pose proof (diagram_ret _ _ _ _ _ E5) as (L' & M' & _).
  change (cfg_chempots (corr d (po_boundary out) (in_manytemps d) (in_manychempots d))) with (cfg_chempots (fresh d (in_mq d) (in_manytemps d) (in_manychempots d))) in L', M'.
  destruct (nth_error (po_cboundary out) i) as [[mu' tc']|] eqn:H'.
  - assert (mu' = mu). { assert (X : nth_error (map fst (po_cboundary out)) i = nth_error (map fst (po_boundary out)) i) by congruence. rewrite !nth_error_map, H, H' in X. now injection X. } subst mu'.
    exists tc'. split; auto. exact (boundary_not_below _ _ d _ pb _ _ _ _ _ i mu tc mu tc' Hs E4 E5 Hc F H H' I).
  - exfalso. apply nth_error_None in H'. assert (i < length (po_boundary out))%nat by (apply nth_error_Some; congruence). lia.
Qed.

Lemma run_beyond J g fit d out pb i mu tc : positive_masses d -> physical_tc_main J g fit d = Ret out ->
  cut_at_zero (po_boundary out) pb -> nth_error (po_cboundary out) i = Some (mu, tc) -> (forall x, In x pb -> fst x < mu) ->
  exists xpb xd2, compute_phase_diagram (prop_l0 J g) (prop_l J g) (fresh d (in_mqc d) (in_manytemps d) (in_manychempots d)) = Ret (xpb, xd2) /\ nth_error xpb i = Some (mu, tc).
Proof.
  intros Hp E Hc H Hm. pose proof E as E0. apply main_ret in E. destruct E as (_ & _ & _ & E4 & E5 & _).
  destruct (compute_phase_diagram (prop_l0 J g) (prop_l J g) (fresh d (in_mqc d) (in_manytemps d) (in_manychempots d))) as [|[xpb xd2]] eqn:X.
  - exfalso. apply diagram_panic in X; [|apply temps_ne]. destruct X as [X|(a & b & _ & _ & X)]; [|discriminate].
    assert (Y : compute_phase_diagram (prop_l0 J g) (prop_l J g) (fresh d (in_mq d) (in_manytemps d) (in_manychempots d)) = Panic) by (apply diagram_panic; [apply temps_ne|left; exact X]). congruence.
  - exists xpb, xd2. split; auto. apply (boundary_beyond _ _ d (po_boundary out) pb (in_manytemps d) (in_manychempots d) (po_cboundary out) (po_cd2 out) xpb xd2 i mu tc Hp E5 X Hc); auto.
    intros ->. destruct (maybe_corrected_data (corr d (po_boundary out) (in_manytemps d) (in_manychempots d)) mu 0) eqn:Z.
    + assert (Y : compute_phase_diagram (prop_l0 J g) (prop_l J g) (corr d (po_boundary out) (in_manytemps d) (in_manychempots d)) = Panic); [|congruence].
      apply diagram_panic; [apply temps_ne|]. right. exists mu, 0. split; [|auto]. destruct (diagram_nth _ _ _ _ _ _ _ _ E5 H) as [Q _]. eapply nth_error_In; exact Q.
    + unfold maybe_corrected_data in Z. cbn [corr cfg_correctedfieldconfig cfg_correctedf0 cfg_phase_boundary] in Z. rewrite deconf_reduced in Z. unfold is_deconfined_phase in Z. rewrite (cut_unique _ _ Hc) in Z. discriminate.
Qed.

Lemma run_equal J g fit d out : positive_masses d -> fst (in_mqc d) = fst (in_mq d) -> physical_tc_main J g fit d = Ret out ->
  po_cboundary out = po_boundary out /\ po_cd2 out = po_d2 out /\ po_clong out = po_long out /\ po_ctrans out = po_trans out.
Proof.
  intros Hp Q E. apply main_ret in E. destruct E as (E1 & E2 & _ & E4 & E5 & _ & E8 & E9).
  destruct (equal_diagram _ _ _ _ _ _ _ _ _ _ Hp Q E5 E4) as [-> ->]. split; auto. split; auto. split; [exact (equal_tables _ _ _ _ _ _ _ _ Hp Q E8 E1)|exact (equal_tables _ _ _ _ _ _ _ _ Hp Q E9 E2)].
Qed.
