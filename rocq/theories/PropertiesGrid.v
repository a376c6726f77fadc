(** * C88: the sampling grids of the programs in binary64

    [val x] is the real number represented by [x], [fin x] says that [x] is finite. The
    parameters of the programs satisfy the hypotheses by a wide margin. *)
From Coq Require Import ZArith Reals List.
From Flocq Require Import Core IEEE754.Binary IEEE754.Bits.
From Verif Require Import MFloat MGrid SpecGrid PGrid PGrid2 PGrid3 PGrid4.
Open Scope R_scope.

(** Points [min + step * k]: finite, never decreasing, the first one exactly [min], and each
    within three roundings of the exact value. *)
Theorem C88_step_points : forall (vmin dv : binary64), fin vmin -> fin dv ->
  Rabs (val vmin) <= bpow radix2 1000 -> 0 <= val dv <= bpow radix2 900 ->
  val (step_point vmin dv 0) = val vmin /\
  forall k, (Z.of_nat k <= 2 ^ 53)%Z ->
    fin (step_point vmin dv k) /\ (forall j, (j <= k)%nat -> val (step_point vmin dv j) <= val (step_point vmin dv k)) /\
    Rabs (val (step_point vmin dv k) - (val vmin + val dv * INR k)) <= bpow radix2 (-51) * (Rabs (val vmin) + val dv * INR k) + bpow radix2 (-1000).
Proof. exact step_points. Qed.
Print Assumptions C88_step_points.

(** Points [min + range * k / n], k from 0 to n. *)
Theorem C88_fraction_points : forall (vmin vrange : binary64) (n : nat), fin vmin -> fin vrange ->
  Rabs (val vmin) <= bpow radix2 1000 -> 0 <= val vrange <= bpow radix2 900 -> (0 < n)%nat -> (Z.of_nat n <= 2 ^ 53)%Z ->
  val (frac_point vmin vrange n 0) = val vmin /\
  forall k, (k <= n)%nat ->
    fin (frac_point vmin vrange n k) /\ (forall j, (j <= k)%nat -> val (frac_point vmin vrange n j) <= val (frac_point vmin vrange n k)) /\
    Rabs (val (frac_point vmin vrange n k) - (val vmin + val vrange * INR k / INR n)) <= bpow radix2 (-50) * (Rabs (val vmin) + val vrange) + bpow radix2 (-1000).
Proof. exact frac_points. Qed.
Print Assumptions C88_fraction_points.

(** How many points, and where the last one lies: truncating the number of steps, the grid
    stops at most one step below the requested maximum (or exceeds it by a rounding error);
    rounding it, at most half a step away; dividing the range, at the maximum. *)
Theorem C88_grid_ends : forall vmin vmax dv, sane vmin vmax dv ->
  let q := (val vmax - val vmin) / val dv in
  (INR (length (step_grid vmin vmax dv)) - 1 <= q * (1 + bpow radix2 (-51)) /\
   q * (1 - bpow radix2 (-51)) < INR (length (step_grid vmin vmax dv)) /\
   forall d, val vmax - val dv - slack vmin vmax <= val (last (step_grid vmin vmax dv) d) <= val vmax + slack vmin vmax) /\
  (Rabs (INR (length (round_grid (vmin, vmax, dv))) - 1 - q) <= 1 / 2 + bpow radix2 (-51) * q /\
   forall d, Rabs (val (last (round_grid (vmin, vmax, dv)) d) - val vmax) <= val dv / 2 + slack vmin vmax) /\
  (2 <= q ->
   length (frac_grid vmin vmax dv) = length (step_grid vmin vmax dv) /\
   forall d, Rabs (val (last (frac_grid vmin vmax dv) d) - val vmax) <= slack vmin vmax).
Proof. exact grid_ends. Qed.
Print Assumptions C88_grid_ends.

(** The grids of the programs: number of points and position of every point. *)
Theorem C88_program_grids :
  grid_near overall_momenta (Z.to_nat 300) (fun i => 1 / 100 + 1 / 100 * INR i) /\
  grid_near overall_temperatures (Z.to_nat 39) (fun i => 1 / 100 + 5 / 1000 * INR i) /\
  grid_near physical_fewtemps (Z.to_nat 7) (fun i => 293 / 10000 * INR i) /\
  grid_near physical_moretemps (Z.to_nat 16) (fun i => 117 / 10000 * INR i) /\
  grid_near physical_manytemps (Z.to_nat 1466) (fun i => 12 / 100000 * INR i) /\
  grid_near physical_fewchempots (Z.to_nat 9) (fun i => 1 / 10 * INR i) /\
  grid_near physical_morechempots (Z.to_nat 33) (fun i => 25 / 1000 * INR i) /\
  grid_near physical_manychempots (Z.to_nat 81) (fun i => 1 / 100 * INR i) /\
  grid_near physical_momenta (Z.to_nat 300) (fun i => 1 / 100 + 1 / 100 * INR i) /\
  grid_near ym_momenta (Z.to_nat 281) (fun i => 2 / 10 + 1 / 100 * INR i) /\
  grid_near htl_momenta (Z.to_nat 25) (fun i => 1 / 100 + 2 / 100 * INR i) /\
  grid_near qcd_momenta (Z.to_nat 391) (fun i => 1 / 10 + 1 / 100 * INR i) /\
  grid_near quark_momenta (Z.to_nat 991) (fun i => 1 / 100 + 1 / 1000 * INR i) /\
  grid_near density_chempots (Z.to_nat 4000) (fun i => Ropp 2 + 1 / 1000 * INR i) /\
  grid_near compare_momenta2 (Z.to_nat 998) (fun i => (3 / 100 + 1 / 100 * INR i) * (3 / 100 + 1 / 100 * INR i)).
Proof. exact program_grids. Qed.
Print Assumptions C88_program_grids.

(** The grid of qcd_gluon_polarization_quark_integrand.rs does not have the requested spacing:
    (2 - 0.1)/0.001 = 1900 steps are requested, the quotient rounds to just below 1900, and
    1899 wider steps are taken. *)
Theorem C88_integrand_spacing_refuted :
  (2 - 1 / 10) / (1 / 1000) = 1900 /\
  grid_near integrand_momenta (Z.to_nat 1900) (fun i => 1 / 10 + 19 / 10 * (INR i / 1899)) /\
  exists i d, (i < 1900)%Z /\ Rabs (val (nth (Z.to_nat i) integrand_momenta d) - (1 / 10 + 1 / 1000 * IZR i)) > 9 / 10000.
Proof. exact integrand_spacing. Qed.
Print Assumptions C88_integrand_spacing_refuted.

(** Endpoints that are not the requested maximum: 3 is exceeded by one rounding, 0.5 and
    0.1758 are not reached. Zero chemical potential is hit exactly. *)
Theorem C88_endpoints : forall d,
  3 < val (last ym_momenta d) /\ val (last htl_momenta d) < 4901 / 10000 /\ val (last physical_moretemps d) < 17552 / 100000 /\
  fin (nth (Z.to_nat 2000) density_chempots d) /\ val (nth (Z.to_nat 2000) density_chempots d) = 0.
Proof. exact endpoints. Qed.
Print Assumptions C88_endpoints.

(** Decimal literals are modelled as the nearest binary64 numbers. *)
Theorem C88_literals : forall a b, (Z.abs a <= 2 ^ 53)%Z -> (0 < b <= 2 ^ 53)%Z ->
  fin (f64_lit a b) /\ val (f64_lit a b) = round radix2 (FLT_exp (-1074) 53) ZnearestE (IZR a / IZR b).
Proof. exact lit_ok. Qed.
Print Assumptions C88_literals.

(** Labels and file names in MeV: right for every whole number of MeV up to 1 GeV, so that
    distinct temperatures get distinct files; 1.001 GeV is labelled 1000. *)
Theorem C88_labels :
  (forall m, (0 <= m <= 1000)%Z -> mev_label (f64_lit m 1000) = m) /\
  (forall t, fin t -> 0 <= val t <= bpow radix2 20 ->
     1000 * val t * (1 - bpow radix2 (-53)) - bpow radix2 (-1075) - 1 < IZR (mev_label t) <= 1000 * val t * (1 + bpow radix2 (-53)) + bpow radix2 (-1075)) /\
  mev_label (f64_lit 1001 1000) = 1000%Z /\ mev_label (f64_lit 1000 1000) = 1000%Z.
Proof. exact labels. Qed.
Print Assumptions C88_labels.

(** The hypotheses are met by the parameters of the programs. *)
Example C88_example_sane : sane (f64_lit 1 100) (f64_lit 3 1) (f64_lit 1 100) /\ sane (f64_lit 1 10) (f64_lit 2 1) (f64_lit 1 1000).
Proof. exact sane_examples. Qed.
