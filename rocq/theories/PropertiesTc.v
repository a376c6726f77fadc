(** * Properties C47-C56: concurrent setters and the phase-diagram program *)
From Coq Require Import Reals List Sorted Bool ZArith Psatz.
From Verif Require Import Num MConsts MVacuum MUtils MDress MTc MFloat SpecConsts SpecTc PTc PTc2 PExTc.
Import ListNotations.
Open Scope R_scope.

(** C47. The desired invariant fails for some interleaving ... *)
Theorem C47_concurrent_setters_refuted : exists sched nc nf,
  let '(g, t1, t2) := run_race OpsR sched (default_globals OpsR) (prog_set_nc nc) (prog_set_nf nf) in
  t_code t1 = [] /\ t_code t2 = [] /\ g_nc g = nc /\ g_nf g = nf /\
  g_nf_div_nc g <> INR nf / INR nc.
Proof. exact race_refuted. Qed.
Print Assumptions C47_concurrent_setters_refuted.

(** ... and these are the only possible outcomes, for every interleaving. *)
Theorem C47_all_outcomes : forall (F : Type) (O : FloatOps F) (g0 : globals F) nc nf sched g t1 t2,
  run_race O sched g0 (prog_set_nc nc) (prog_set_nf nf) = (g, t1, t2) ->
  t_code t1 = [] -> t_code t2 = [] ->
  g_nc g = nc /\ g_nf g = nf /\
  (g_nf_div_nc g = f_div O (f_of_u32 O nf) (f_of_u32 O nc) \/
   g_nf_div_nc g = f_div O (f_of_u32 O (g_nf g0)) (f_of_u32 O nc) \/
   g_nf_div_nc g = f_div O (f_of_u32 O nf) (f_of_u32 O (g_nc g0))).
Proof. exact @race_outcomes. Qed.
Print Assumptions C47_all_outcomes.

Theorem C47_serial_setters_consistent : forall (F : Type) (O : FloatOps F) (g0 : globals F) nc nf sched,
  sched = [true; true; true; true; false; false; false; false] \/
  sched = [false; false; false; false; true; true; true; true] ->
  let '(g, t1, t2) := run_race O sched g0 (prog_set_nc nc) (prog_set_nf nf) in
  t_code t1 = [] /\ t_code t2 = [] /\ g_nc g = nc /\ g_nf g = nf /\
  g_nf_div_nc g = f_div O (f_of_u32 O nf) (f_of_u32 O nc).
Proof. exact @race_serial. Qed.
Print Assumptions C47_serial_setters_consistent.

Example C47_example :
  let '(g, t1, t2) := run_race OpsR [true; false; true; false; true; false; true; false]
     (default_globals OpsR) (prog_set_nc 4) (prog_set_nf 2) in
  t_code t1 = [] /\ t_code t2 = [] /\ g_nf_div_nc g = INR 2 / INR 4.
Proof. exact (conj eq_refl (conj eq_refl eq_refl)). Qed.

(** C48. *)
Theorem C48_first_global_maximiser : forall ts ds, ts <> [] -> ds <> [] ->
  exists t, find_critical_temperature ts ds = Ret t /\ first_argmax ts ds t.
Proof. exact fct_correct. Qed.
Print Assumptions C48_first_global_maximiser.

Theorem C48_panics_iff_empty : forall ts ds,
  find_critical_temperature ts ds = Panic <-> ts = [] \/ ds = [].
Proof. exact (fct_panic Rgtb). Qed.
Print Assumptions C48_panics_iff_empty.

Theorem C48_leading_nan : forall (t0 : R) ts (ds : list F64),
  find_critical_temperature_gen f64_gt (t0 :: ts) (f64_nan :: ds) = Ret t0.
Proof. exact fct_nan. Qed.
Print Assumptions C48_leading_nan.

Example C48_example : first_argmax [10; 20; 30; 40] [1; 5; 2; 5] 20.
Proof.
  exists 1%nat, 5. repeat split; auto.
  - intros [|[|[|[|j]]]] tj dj; simpl; intros E1 E2; try (destruct j; discriminate); inversion E2; lra.
  - intros [|j] tj dj H E1 E2; simpl in *; [inversion E2; lra|]. inversion H as [|? H1]; inversion H1.
Qed.

(** C49. *)
Theorem C49_longest_prefix_without_zero : forall full,
  cut_at_zero full (reduce_phase_boundary full) /\
  (forall pb, cut_at_zero full pb -> pb = reduce_phase_boundary full).
Proof. exact (fun full => conj (reduce_cut full) (fun pb H => eq_sym (cut_unique full pb H))). Qed.
Print Assumptions C49_longest_prefix_without_zero.

Theorem C49_idempotent : forall full,
  reduce_phase_boundary (reduce_phase_boundary full) = reduce_phase_boundary full.
Proof. exact reduce_idem. Qed.
Print Assumptions C49_idempotent.

Example C49_example : reduce_phase_boundary [(0, 2); (1, 1); (2, 0); (3, 5)] = [(0, 2); (1, 1)].
Proof.
  apply cut_unique. exists [(2, 0); (3, 5)]. split; [reflexivity|]. split; [|right; eauto].
  repeat constructor; simpl; lra.
Qed.

(** C50. *)
Theorem C50_agrees_with_interpolation : forall full m0 t0 pb mu t,
  cut_at_zero full ((m0, t0) :: pb) -> falling ((m0, t0) :: pb) ->
  m0 <= mu <= fst (last ((m0, t0) :: pb) (0, 0)) -> t <> 0 ->
  exists tc, on_polygon ((m0, t0) :: pb) mu tc /\
    (forall tc', on_polygon ((m0, t0) :: pb) mu tc' -> tc' = tc) /\
    exists b, is_deconfined_phase mu t full = Ret b /\ (b = true <-> tc < t).
Proof. exact deconf_range. Qed.
Print Assumptions C50_agrees_with_interpolation.

Theorem C50_zero_temperature : forall full pb m0 t0 mu,
  cut_at_zero full ((m0, t0) :: pb) -> m0 <= mu ->
  exists b, is_deconfined_phase mu 0 full = Ret b /\
    (b = true <-> fst (last ((m0, t0) :: pb) (0, 0)) < mu).
Proof. exact deconf_zero_temp. Qed.
Print Assumptions C50_zero_temperature.

Theorem C50_above_range_deconfined : forall full pb mu t,
  cut_at_zero full pb -> pb <> [] -> (forall x, In x pb -> fst x < mu) ->
  is_deconfined_phase mu t full = Ret true.
Proof. exact deconf_above'. Qed.
Print Assumptions C50_above_range_deconfined.

Theorem C50_panics_iff : forall mu t full,
  is_deconfined_phase mu t full = Panic <->
  exists pb, cut_at_zero full pb /\ (pb = [] \/ exists m0 t0 pb', pb = (m0, t0) :: pb' /\ mu < m0).
Proof. exact deconf_panic'. Qed.
Print Assumptions C50_panics_iff.

Example C50_example : falling [(0, 3); (1, 2); (4, 1)] /\ on_polygon [(0, 3); (1, 2); (4, 1)] (5/2) (3/2) /\
  is_deconfined_phase (5/2) (3/2) [(0, 3); (1, 2); (4, 1); (5, 0)] = Ret false /\ is_deconfined_phase (5/2) (8/5) [(0, 3); (1, 2); (4, 1); (5, 0)] = Ret true.
Proof. exact ex_deconf. Qed.

(** C51. Fails on a flat segment; holds for strictly falling boundaries. *)
Theorem C51_flat_boundary_refuted : exists pb mu t,
  cut_at_zero pb pb /\ weakly_falling pb /\ In (mu, t) pb /\ is_deconfined_phase mu t pb = Ret true.
Proof. exact flat_refuted. Qed.
Print Assumptions C51_flat_boundary_refuted.

Theorem C51_strict_boundary_confined : forall full pb mu t,
  cut_at_zero full pb -> falling pb -> In (mu, t) pb -> is_deconfined_phase mu t full = Ret false.
Proof. exact boundary_confined. Qed.
Print Assumptions C51_strict_boundary_confined.

Example C51_example : is_deconfined_phase 1 2 [(0, 3); (1, 2); (4, 1)] = Ret false /\ is_deconfined_phase 1 3 [(0, 3); (1, 3); (4, 1)] = Ret true.
Proof. exact ex_flat. Qed.

(** C52. *)
Theorem C52_polynomial_value : forall mu params, params <> [] ->
  parametric_phase_diagram mu params = Ret (poly params mu).
Proof. exact ppd_correct. Qed.
Print Assumptions C52_polynomial_value.

Theorem C52_panics_iff_empty : forall mu params, parametric_phase_diagram mu params = Panic <-> params = [].
Proof. exact ppd_panic. Qed.
Print Assumptions C52_panics_iff_empty.

Example C52_example : poly [1; -2; 3] 2 = 9.
Proof. unfold poly. simpl. lra. Qed.

(** C53. *)
Theorem C53_corrected_f0 : forall temps chempots momenta om renpoint f0_init nc mg quarks cquarks,
  0 < mg -> map fst quarks = map fst cquarks ->
  Forall (fun q => 0 < snd q) quarks -> Forall (fun q => 0 < snd q) cquarks ->
  exists c', set_correctedfieldconfig (Some (FieldConfig_new nc mg cquarks))
    (Config_new temps chempots momenta om renpoint f0_init (FieldConfig_new nc mg quarks)) = Ret c' /\
    cfg_correctedf0 c' =
    Some (cfg_f0 (Config_new temps chempots momenta om renpoint f0_init (FieldConfig_new nc mg cquarks))).
Proof. exact corrected_f0_right. Qed.
Print Assumptions C53_corrected_f0.

(** The reference value used above, spelled out. *)
Theorem C53_f0_formula : forall temps chempots momenta om renpoint f0_init nc mg quarks,
  cfg_f0 (Config_new temps chempots momenta om renpoint f0_init (FieldConfig_new nc mg quarks)) =
  f0_init + 4 / (9 * INR nc) * fold_right (fun q acc => INR (fst q) * ln (mg / snd q) + acc) 0 quarks.
Proof. exact f0_formula. Qed.
Print Assumptions C53_f0_formula.

Theorem C53_longer_list_panics : forall temps chempots momenta om renpoint f0_init fc cfc,
  (length (fc_quarks fc) < length (fc_quarks cfc))%nat ->
  set_correctedfieldconfig (Some cfc) (Config_new temps chempots momenta om renpoint f0_init fc) = Panic.
Proof. exact corrected_longer_panics. Qed.
Print Assumptions C53_longer_list_panics.

(** A shorter corrected list is accepted silently with a different constant. *)
Theorem C53_shorter_list_refuted : exists temps chempots momenta om renpoint f0_init nc mg quarks cquarks c',
  (0 < mg /\ Forall (fun q => 0 < snd q) quarks /\ Forall (fun q => 0 < snd q) cquarks /\
   (length cquarks < length quarks)%nat) /\
  set_correctedfieldconfig (Some (FieldConfig_new nc mg cquarks))
    (Config_new temps chempots momenta om renpoint f0_init (FieldConfig_new nc mg quarks)) = Ret c' /\
  cfg_correctedf0 c' <>
    Some (cfg_f0 (Config_new temps chempots momenta om renpoint f0_init (FieldConfig_new nc mg cquarks))).
Proof. exact corrected_shorter_refuted. Qed.
Print Assumptions C53_shorter_list_refuted.

Example C53_example : map (@fst nat R) [(2%nat, / 3); (1%nat, 4)] = map fst [(2%nat, 5); (1%nat, / 7)] /\
  Forall (fun q : nat * R => 0 < snd q) [(2%nat, / 3); (1%nat, 4)].
Proof. split; [reflexivity|]. repeat constructor; simpl; lra. Qed.

(** C54. *)
Theorem C54_data_selection : forall temps chempots momenta om renpoint f0_init fc h c corr pbo mu t,
  cfg_run (Config_new temps chempots momenta om renpoint f0_init fc) h = Ret c ->
  last_selected sel_corr None h corr -> last_selected sel_pb None h pbo ->
  match corr, pbo with
  | None, None => maybe_corrected_data c mu t =
      Ret (fc, cfg_f0 (Config_new temps chempots momenta om renpoint f0_init fc))
  | Some cfc, Some pb =>
      (is_deconfined_phase mu t pb = Panic -> maybe_corrected_data c mu t = Panic) /\
      (is_deconfined_phase mu t pb = Ret false -> maybe_corrected_data c mu t =
         Ret (fc, cfg_f0 (Config_new temps chempots momenta om renpoint f0_init fc))) /\
      (is_deconfined_phase mu t pb = Ret true -> exists cf0, maybe_corrected_data c mu t = Ret (cfc, cf0) /\
         exists c1, set_correctedfieldconfig (Some cfc)
           (Config_new temps chempots momenta om renpoint f0_init fc) = Ret c1 /\ cfg_correctedf0 c1 = Some cf0)
  | _, _ => maybe_corrected_data c mu t = Panic
  end.
Proof. exact data_selection. Qed.
Print Assumptions C54_data_selection.

Example C54_example : exists c,
  cfg_run cfgA [CSetCorrected (Some fcB); CSetTemps (1, 2, 3); CSetBoundary (Some [(0, 1)])] = Ret c /\
  last_selected sel_corr None [CSetCorrected (Some fcB); CSetTemps (1, 2, 3); CSetBoundary (Some [(0, 1)])] (Some fcB).
Proof.
  eexists. split; [reflexivity|]. right. exists [], (CSetCorrected (Some fcB)), [CSetTemps (1, 2, 3); CSetBoundary (Some [(0, 1)])].
  split; [reflexivity|]. split; [reflexivity|]. intros k [<-|[<-|[]]]; reflexivity.
Qed.

(** C55. *)
Theorem C55_corrected_field_refuted : exists c cfc cf0 mu t pb,
  cfg_run cfgA [CSetCorrected (Some fcA); CSetBoundary (Some pb)] = Ret c /\
  maybe_corrected_data (cfg_write_correctedfieldconfig (Some cfc) c) mu t = Ret (cfc, cf0) /\
  exists c1, set_correctedfieldconfig (Some cfc) cfgA = Ret c1 /\ cfg_correctedf0 c1 <> Some cf0.
Proof. exact public_corrected_refuted. Qed.
Print Assumptions C55_corrected_field_refuted.

Theorem C55_fieldconfig_refuted : exists fc mu t,
  exists f0, maybe_corrected_data (cfg_write_fieldconfig fc cfgA) mu t = Ret (fc, f0) /\
  f0 <> cfg_f0 (Config_new (0,0,1) (0,0,1) (0,0,1) 0 1 0 fc).
Proof. exact public_fieldconfig_refuted. Qed.
Print Assumptions C55_fieldconfig_refuted.

(** Writing the corrected field alone even makes the program panic. *)
Theorem C55_lone_write_panics : forall temps chempots momenta om renpoint f0_init fc cfc mu t,
  maybe_corrected_data (cfg_write_correctedfieldconfig (Some cfc)
    (Config_new temps chempots momenta om renpoint f0_init fc)) mu t = Panic.
Proof. exact (fun _ _ _ _ _ _ _ _ _ _ => eq_refl). Qed.
Print Assumptions C55_lone_write_panics.

(** C56. *)
Theorem C56_grid : forall vmin vmax dv, vmin <= vmax -> 0 < dv ->
  exists n : nat, length (compute_vec (vmin, vmax, dv)) = S n /\
    Rabs (INR n - (vmax - vmin) / dv) <= / 2 /\
    (forall k, (k <= n)%nat -> nth_error (compute_vec (vmin, vmax, dv)) k = Some (vmin + dv * INR k)) /\
    (forall v, nth_error (compute_vec (vmin, vmax, dv)) n = Some v -> Rabs (v - vmax) <= dv / 2).
Proof. exact grid_correct. Qed.
Print Assumptions C56_grid.

Example C56_example : compute_vec (2, 9, 3) = [2; 5; 8] /\ compute_vec (2, 10, 3) = [2; 5; 8; 11].
Proof. exact ex_grids. Qed.
