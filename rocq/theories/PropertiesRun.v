(** * Properties of whole runs of the phase-diagram program (C91) *)
From Coq Require Import Reals List Lra Lia.
From Coquelicot Require Import Coquelicot.
From Verif Require Import Num MConsts MVacuum MUtils MDress MTc MPhase SpecTc SpecPhase SpecRun PRun PRun2 PRun3 PExPhase PExRun.
Import List ListNotations.
Open Scope R_scope.

(** C91. The corrected tables are put together from two plain runs: at a confined point the file is the one of
    the uncorrected masses, at a deconfined point the one of the corrected masses. *)
Theorem C91_corrected_tables : forall J g fit d out, positive_masses d -> physical_tc_main J g fit d = Ret out ->
  exists clong ctrans,
    compute_propagators (prop_l0 J g) (prop_l J g) (fresh d (in_mqc d) (in_fewtemps d) (in_fewchempots d)) = Ret clong /\
    compute_propagators (prop_t0 J g) (prop_t J g) (fresh d (in_mqc d) (in_fewtemps d) (in_fewchempots d)) = Ret ctrans /\
    forall plain corrected other i j fu f, In (plain, corrected, other) [(po_long out, po_clong out, clong); (po_trans out, po_ctrans out, ctrans)] ->
    (exists fs, nth_error plain i = Some fs /\ nth_error fs j = Some fu) -> (exists fs, nth_error corrected i = Some fs /\ nth_error fs j = Some f) ->
    of_mu f = of_mu fu /\ of_t f = of_t fu /\ exists b, is_deconfined_phase (of_mu f) (of_t f) (po_boundary out) = Ret b /\
      if b then exists fs, nth_error other i = Some fs /\ nth_error fs j = Some f else f = fu.
Proof. exact run_tables. Qed.
Print Assumptions C91_corrected_tables.

(** Equal masses: the corrected run repeats the uncorrected one. *)
Theorem C91_equal_masses : forall J g fit d out, positive_masses d -> fst (in_mqc d) = fst (in_mq d) -> physical_tc_main J g fit d = Ret out ->
  po_cboundary out = po_boundary out /\ po_cd2 out = po_d2 out /\ po_clong out = po_long out /\ po_ctrans out = po_trans out.
Proof. exact run_equal. Qed.
Print Assumptions C91_equal_masses.

(** Beyond the end of the boundary, the corrected critical temperature is the one of a plain run with the corrected masses. *)
Theorem C91_beyond_the_boundary : forall J g fit d out pb i mu tc, positive_masses d -> physical_tc_main J g fit d = Ret out ->
  cut_at_zero (po_boundary out) pb -> nth_error (po_cboundary out) i = Some (mu, tc) -> (forall x, In x pb -> fst x < mu) ->
  exists xpb xd2, compute_phase_diagram (prop_l0 J g) (prop_l J g) (fresh d (in_mqc d) (in_manytemps d) (in_manychempots d)) = Ret (xpb, xd2) /\
    nth_error xpb i = Some (mu, tc).
Proof. exact run_beyond. Qed.
Print Assumptions C91_beyond_the_boundary.

(** On a strictly falling boundary the correction never lowers the critical temperature, whatever the propagators... *)
Theorem C91_correction_does_not_lower : forall P0 P temps chempots momenta om renpoint f0_init fc cfc c1 full pb d2 cpb cd2 i mu tc,
  set_correctedfieldconfig (Some cfc) (Config_new temps chempots momenta om renpoint f0_init fc) = Ret c1 -> 0 <= step temps ->
  compute_phase_diagram P0 P (Config_new temps chempots momenta om renpoint f0_init fc) = Ret (full, d2) ->
  compute_phase_diagram P0 P (set_phase_boundary (Some full) c1) = Ret (cpb, cd2) ->
  cut_at_zero full pb -> falling pb -> nth_error full i = Some (mu, tc) -> In (mu, tc) pb ->
  exists tc', nth_error cpb i = Some (mu, tc') /\ tc <= tc'.
Proof. exact not_below_gen. Qed.
Print Assumptions C91_correction_does_not_lower.

Theorem C91_program_does_not_lower : forall J g fit d out pb i mu tc, physical_tc_main J g fit d = Ret out -> 0 <= step (in_manytemps d) ->
  cut_at_zero (po_boundary out) pb -> falling pb -> nth_error (po_boundary out) i = Some (mu, tc) -> In (mu, tc) pb ->
  exists tc', nth_error (po_cboundary out) i = Some (mu, tc') /\ tc <= tc'.
Proof. exact run_not_below. Qed.
Print Assumptions C91_program_does_not_lower.

(** ...but on a plateau of the boundary it can: there the points of the boundary count as deconfined (see C51). *)
Theorem C91_plateau_refuted : exists P0 P c cfc c1 pb d2 pb' d2' mu tc tc',
  compute_phase_diagram P0 P c = Ret (pb, d2) /\ set_correctedfieldconfig (Some cfc) c = Ret c1 /\
  compute_phase_diagram P0 P (set_phase_boundary (Some pb) c1) = Ret (pb', d2') /\
  weakly_falling pb /\ Forall (fun x => snd x <> 0) pb /\ In (mu, tc) pb /\ In (mu, tc') pb' /\ tc' < tc.
Proof. exact plateau_refuted. Qed.
Print Assumptions C91_plateau_refuted.

(** The fit announced and stored as that of the corrected phase diagram is a fit to the uncorrected one; it does
    not depend on the corrected masses. *)
Theorem C91_fitted_data : forall J g fit d out, physical_tc_main J g fit d = Ret out ->
  exists pb, cut_at_zero (po_boundary out) pb /\ fit pb = Ret (po_fit out).
Proof. exact run_fit. Qed.
Print Assumptions C91_fitted_data.

Theorem C91_fit_ignores_correction : forall J g fit d d' out out', same_but_corrected d d' ->
  physical_tc_main J g fit d = Ret out -> physical_tc_main J g fit d' = Ret out' ->
  po_fit out' = po_fit out /\ po_boundary out' = po_boundary out.
Proof. exact run_fit_ignores. Qed.
Print Assumptions C91_fit_ignores_correction.

(** A propagator with a falling boundary, and its corrected boundary. *)
Theorem C91_example : exists c1, set_correctedfieldconfig (Some (fcm toy_in (in_mqc toy_in))) toy_c = Ret c1 /\
  compute_phase_diagram toyone toy3 toy_c = Ret ([(0, 2); (1, 1); (2, 0); (3, 0)], []) /\
  compute_phase_diagram toyone toy3 (set_phase_boundary (Some [(0, 2); (1, 1); (2, 0); (3, 0)]) c1) = Ret ([(0, 2); (1, 2); (2, 1); (3, 1)], []) /\
  cut_at_zero [(0, 2); (1, 1); (2, 0); (3, 0)] [(0, 2); (1, 1)] /\ falling [(0, 2); (1, 1)].
Proof. exact ex_run. Qed.

(** A run that succeeds for every integration routine. *)
Theorem C91_example_run : forall J g, positive_masses one_temp /\
  exists out, physical_tc_main J g (fun pb => Ret (map snd pb)) one_temp = Ret out /\ po_fit out = [1; 1; 1; 1].
Proof. exact ex_succeeds. Qed.
Print Assumptions C91_example_run.
