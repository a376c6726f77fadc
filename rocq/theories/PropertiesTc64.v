(** * C96: the phase classification in binary64

    [real_table full] is the table of real numbers represented by the binary64 table [full];
    [cut_at_zero], [falling] and [on_polygon] are the notions of C49-C51. *)
From Coq Require Import ZArith Reals List.
From Flocq Require Import Core IEEE754.Binary IEEE754.Bits.
From Verif Require Import MFloat MGrid MUtils MFermi MTc MTc64 SpecGrid SpecTc SpecTc64 PTc64b PTc64c PExTc64.
Import List ListNotations.
Open Scope R_scope.

(** The interpolated temperature has a relative error of at most ten roundings of the temperatures of its segment. *)
Theorem C96_interpolation_error : forall mu0 t0 mmu tb mu : binary64, fin mu0 -> fin t0 -> fin mmu -> fin tb -> fin mu ->
  Rabs (val mu0) <= bpow radix2 100 -> Rabs (val t0) <= bpow radix2 100 -> Rabs (val mmu) <= bpow radix2 100 -> Rabs (val tb) <= bpow radix2 100 ->
  val mu0 + bpow radix2 (-100) <= val mmu -> val mu0 < val mu < val mmu ->
  fin (interpolate_f64 mu0 t0 mmu tb mu) /\
  Rabs (val (interpolate_f64 mu0 t0 mmu tb mu) - (val t0 + (val tb - val t0) / (val mmu - val mu0) * (val mu - val mu0)))
    <= 10 * (bpow radix2 (-53) * (Rabs (val t0) + Rabs (val tb))) + bpow radix2 (-900).
Proof. exact PTc64.interpolate_ok. Qed.
Print Assumptions C96_interpolation_error.

(** The answer is that of exact arithmetic, unless the temperature is within that error of an interpolated value;
    the shape of the table does not matter. *)
Theorem C96_agrees_with_exact : forall mu t full, fin mu -> fin t -> numbers full -> spaced full ->
  is_deconfined_phase_f64 mu t full = is_deconfined_phase (val mu) (val t) (real_table full) \/
  (exists b, is_deconfined_phase_f64 mu t full = Ret b) /\ (exists b, is_deconfined_phase (val mu) (val t) (real_table full) = Ret b) /\
  exists pb, cut_at_zero (real_table full) pb /\ within_rounding pb (10 * bpow radix2 (-53)) (val mu) (val t).
Proof. exact agrees. Qed.
Print Assumptions C96_agrees_with_exact.

(** It panics exactly where exact arithmetic does. *)
Theorem C96_panics_iff : forall mu t full, fin mu -> fin t -> numbers full -> spaced full ->
  (is_deconfined_phase_f64 mu t full = Panic <->
   exists pb, cut_at_zero (real_table full) pb /\ (pb = [] \/ exists m0 t0 pb', pb = (m0, t0) :: pb' /\ val mu < m0)).
Proof. exact panics64. Qed.
Print Assumptions C96_panics_iff.

(** On a strictly falling boundary with temperatures up to [M], points off the polygon by more than 20 roundings of
    [M] are classified by the side on which they lie... *)
Theorem C96_classification : forall mu t full pb tc M, fin mu -> fin t -> numbers full -> spaced full ->
  cut_at_zero (real_table full) pb -> falling pb -> val t <> 0 -> on_polygon pb (val mu) tc -> (forall x, In x pb -> Rabs (snd x) <= M) ->
  exists b, is_deconfined_phase_f64 mu t full = Ret b /\
    (tc + (20 * bpow radix2 (-53) * M + bpow radix2 (-900)) < val t -> b = true) /\
    (val t < tc - (20 * bpow radix2 (-53) * M + bpow radix2 (-900)) -> b = false).
Proof. exact classify64. Qed.
Print Assumptions C96_classification.

(** ...exactly so at a tabulated chemical potential, at zero temperature and beyond the table. *)
Theorem C96_tabulated_exact : forall mu t full pb tc, fin mu -> fin t -> numbers full -> spaced full ->
  cut_at_zero (real_table full) pb -> falling pb -> val t <> 0 -> In (val mu, tc) pb ->
  exists b, is_deconfined_phase_f64 mu t full = Ret b /\ (b = true <-> tc < val t).
Proof. exact exact_tabulated. Qed.
Print Assumptions C96_tabulated_exact.

Theorem C96_zero_temperature : forall mu t full m0 t0 pb, fin mu -> fin t -> numbers full -> spaced full ->
  cut_at_zero (real_table full) ((m0, t0) :: pb) -> m0 <= val mu -> val t = 0 ->
  exists b, is_deconfined_phase_f64 mu t full = Ret b /\ (b = true <-> fst (last ((m0, t0) :: pb) (0, 0)) < val mu).
Proof. exact zero_temp64. Qed.
Print Assumptions C96_zero_temperature.

Theorem C96_above_range_deconfined : forall mu t full pb, fin mu -> fin t -> numbers full -> spaced full ->
  cut_at_zero (real_table full) pb -> pb <> [] -> (forall x, In x pb -> fst x < val mu) -> is_deconfined_phase_f64 mu t full = Ret true.
Proof. exact above64. Qed.
Print Assumptions C96_above_range_deconfined.

(** The default grids: the coarse chemical potentials of the corrected propagators are on the fine grid of the
    boundary, except the fourth and the seventh (0.3 and 0.6), which are one rounding above it. *)
Theorem C96_default_chempots : forall k, (k < 9)%nat ->
  (k <> 3%nat /\ k <> 6%nat <-> exists i, (i < 81)%nat /\ val (nth i physical_manychempots f64_nan) = val (nth k physical_fewchempots f64_nan)) /\
  (k = 3%nat \/ k = 6%nat -> val (nth (10 * k) physical_manychempots f64_nan) < val (nth k physical_fewchempots f64_nan) < val (nth (10 * k + 1) physical_manychempots f64_nan)).
Proof. exact (fun k H => conj (fine_grid k H) (fun K => conj (few_miss k K) (few_next k ltac:(destruct K; subst; repeat constructor)))). Qed.
Print Assumptions C96_default_chempots.

(** If the boundary goes on beyond such a point, this does not change the classification at the temperatures of the
    corrected propagators: it is the comparison with the tabulated critical temperature. *)
Theorem C96_default_run : forall ts, Forall (fun t => In t physical_manytemps) ts ->
  forall pb, cut_at_zero (real_table (combine physical_manychempots ts)) pb -> falling pb ->
  forall k j m tc, (k <= 8)%nat -> (1 <= j <= 6)%nat -> nth_error pb (10 * k) = Some (m, tc) -> (10 * k + 1 < length pb)%nat ->
  exists b, is_deconfined_phase_f64 (nth k physical_fewchempots f64_nan) (nth j physical_fewtemps f64_nan) (combine physical_manychempots ts) = Ret b /\
    (b = true <-> tc < val (nth j physical_fewtemps f64_nan)).
Proof. exact default_run. Qed.
Print Assumptions C96_default_run.

(** If the boundary ends there, it does: up to the critical temperature the point of the fine grid is confined,
    while its copy on the coarse grid lies beyond the table and is deconfined. *)
Theorem C96_end_of_boundary : forall ts, Forall (fun t => In t physical_manytemps) ts ->
  forall pb, cut_at_zero (real_table (combine physical_manychempots ts)) pb -> falling pb ->
  forall k tc t, k = 3%nat \/ k = 6%nat -> fin t -> length pb = (10 * k + 1)%nat ->
  nth_error pb (10 * k) = Some (val (nth (10 * k) physical_manychempots f64_nan), tc) -> 0 <= val t <= tc ->
  is_deconfined_phase_f64 (nth (10 * k) physical_manychempots f64_nan) t (combine physical_manychempots ts) = Ret false /\
  is_deconfined_phase_f64 (nth k physical_fewchempots f64_nan) t (combine physical_manychempots ts) = Ret true.
Proof.
  exact (fun ts Hi pb Hc Hf k tc t K Ft L E H => conj (fine_there ts Hi pb Hc Hf k tc t K Ft L E H) (ends_there ts Hi pb Hc Hf k t K Ft L)).
Qed.
Print Assumptions C96_end_of_boundary.

(** So the same point can be classified differently on the two grids. *)
Theorem C96_same_point_refuted : exists ts pb tc t, Forall (fun t => In t physical_manytemps) ts /\ length ts = 81%nat /\
  cut_at_zero (real_table (combine physical_manychempots ts)) pb /\ falling pb /\
  nth_error pb 30 = Some (val (nth 30 physical_manychempots f64_nan), tc) /\ In t physical_manytemps /\ 0 < val t < tc /\
  is_deconfined_phase_f64 (nth 30 physical_manychempots f64_nan) t (combine physical_manychempots ts) = Ret false /\
  is_deconfined_phase_f64 (nth 3 physical_fewchempots f64_nan) t (combine physical_manychempots ts) = Ret true.
Proof. exact end_refuted. Qed.
Print Assumptions C96_same_point_refuted.

(** A boundary that falls by one grid step per chemical potential and ends at mu = 0.4. *)
Example C96_example : let full := combine physical_manychempots (ex_ts 41) in let pb := real_table (ex_pb 41) in
  Forall (fun t => In t physical_manytemps) (ex_ts 41) /\ cut_at_zero (real_table full) pb /\ falling pb /\ length pb = 41%nat /\
  numbers full /\ spaced full /\
  is_deconfined_phase_f64 (nth 3 physical_fewchempots f64_nan) (nth 3 physical_fewtemps f64_nan) full = Ret false /\
  is_deconfined_phase_f64 (nth 3 physical_fewchempots f64_nan) (nth 4 physical_fewtemps f64_nan) full = Ret true /\
  is_deconfined_phase_f64 (nth 3 physical_fewchempots f64_nan) f64_zero full = Ret false /\
  is_deconfined_phase_f64 (nth 5 physical_fewchempots f64_nan) (nth 1 physical_fewtemps f64_nan) full = Ret true /\
  is_deconfined_phase_f64 (f64_lit (-1) 1) f64_one full = Panic.
Proof. exact ex_default. Qed.
