(** * Sampling grids of the programs in binary64

    qcd-sme/examples/*.rs and tc_long_prop/src/bin/*.rs. Unlike the rest of the model this
    file uses IEEE binary64 (Flocq), because the number of points depends on rounding. *)
From Coq Require Import ZArith List.
From Flocq Require Import IEEE754.BinarySingleNaN IEEE754.Binary IEEE754.Bits.
From Verif Require Import MFloat.
Import ListNotations.
Open Scope Z_scope.

Definition f64_of_Z (z : Z) : F64 := binary_normalize 53 1024 (eq_refl _) (eq_refl _) mode_NE z 0 false.
(** The literal with decimal value a/b (a, b integers below 2^53, so that the division
    rounds the exact quotient once, as the compiler does). *)
Definition f64_lit (a b : Z) : F64 := b64_div mode_NE (f64_of_Z a) (f64_of_Z b).
(** [x as usize], [x as u32] for an unsigned type of [bits] bits: truncation, saturating, NaN to 0. *)
Definition f64_as_uint (bits : Z) (x : F64) : Z :=
  match x with
  | Binary.B754_nan _ _ _ => 0
  | Binary.B754_infinity true => 0
  | Binary.B754_infinity false => 2 ^ bits - 1
  | _ => Z.min (2 ^ bits - 1) (Z.max 0 (Btrunc 53 1024 x))
  end.
(** [x.round()]: to the nearest integer, ties away from zero. *)
Definition f64_round (x : F64) : F64 := Bnearbyint 53 1024 (eq_refl _) (unop_nan_pl64) mode_NA x.

Notation "x [+] y" := (b64_plus mode_NE x y) (at level 50, left associativity).
Notation "x [-] y" := (b64_minus mode_NE x y) (at level 50, left associativity).
Notation "x [*] y" := (b64_mult mode_NE x y) (at level 40, left associativity).
Notation "x [/] y" := (b64_div mode_NE x y) (at level 40, left associativity).

(* [((max - min) / d) as usize] *)
Definition grid_n (vmin vmax dv : F64) : nat := Z.to_nat (f64_as_uint 64 ((vmax [-] vmin) [/] dv)).
(* [min + d * (k as f64)] *)
Definition step_point (vmin dv : F64) (k : nat) : F64 := vmin [+] dv [*] f64_of_nat k.
(* [min + range * (k as f64) / (n as f64)] *)
Definition frac_point (vmin vrange : F64) (n k : nat) : F64 := vmin [+] vrange [*] f64_of_nat k [/] f64_of_nat n.

(* one_mass_overall.rs 26-28, 100-102, 210-212; two_masses_overall.rs 30-32, 104-106, 217-219;
   ym_thermal_gluon_propagator.rs 13-17; qed_htl_limit.rs 41-45 *)
Definition step_grid (vmin vmax dv : F64) : list F64 :=
  map (step_point vmin dv) (seq 0 (S (grid_n vmin vmax dv))).
(* physical_tc.rs 184-189 *)
Definition round_grid (v : F64 * F64 * F64) : list F64 :=
  let '(vmin, vmax, dv) := v in
  map (step_point vmin dv) (seq 0 (S (Z.to_nat (f64_as_uint 64 (f64_round ((vmax [-] vmin) [/] dv)))))).
(* qcd_gluon_propagator.rs 15-22; qcd_gluon_polarization_quark.rs 15-22;
   qcd_gluon_quark_polarization.rs 10-17; qcd_gluon_polarization_quark_integrand.rs 17-24 *)
Definition frac_grid (vmin vmax dv : F64) : list F64 :=
  let n := grid_n vmin vmax dv in
  map (frac_point vmin (vmax [-] vmin) n) (seq 0 (S n)).
(* qcd_quark_charge_density.rs 6-12; qcd_quark_chemical_potential.rs 7-13: u32 and an exclusive range *)
Definition open_grid (vmin vmax dv : F64) : list F64 :=
  let n := Z.to_nat (f64_as_uint 32 ((vmax [-] vmin) [/] dv)) in
  map (frac_point vmin (vmax [-] vmin) n) (seq 0 n).
(* qcd_gluon_propagator_compare.rs 50-60: squared momenta *)
Definition compare_grid (pmin pmax dp : F64) : list F64 :=
  let prange := pmax [-] pmin in
  let n := grid_n pmin pmax dp in
  map (fun k => let p := pmin [+] f64_of_nat k [/] f64_of_nat n [*] prange in p [*] p) (seq 0 (S n)).

(** The grids of the programs. *)
Definition overall_momenta := step_grid (f64_lit 1 100) (f64_lit 3 1) (f64_lit 1 100).             (* one_mass_overall.rs 13, two_masses_overall.rs 14 *)
Definition overall_temperatures := step_grid (f64_lit 1 100) (f64_lit 2 10) (f64_lit 5 1000).      (* one_mass_overall.rs 99, 209; two_masses_overall.rs 103, 216 *)
Definition physical_fewtemps := round_grid (f64_lit 0 1, f64_lit 1758 10000, f64_lit 293 10000).   (* physical_tc.rs 600-610 *)
Definition physical_moretemps := round_grid (f64_lit 0 1, f64_lit 1758 10000, f64_lit 117 10000).
Definition physical_manytemps := round_grid (f64_lit 0 1, f64_lit 1758 10000, f64_lit 12 100000).
Definition physical_fewchempots := round_grid (f64_lit 0 1, f64_lit 8 10, f64_lit 1 10).
Definition physical_morechempots := round_grid (f64_lit 0 1, f64_lit 8 10, f64_lit 25 1000).
Definition physical_manychempots := round_grid (f64_lit 0 1, f64_lit 8 10, f64_lit 1 100).
Definition physical_momenta := round_grid (f64_lit 1 100, f64_lit 3 1, f64_lit 1 100).
Definition ym_momenta := step_grid (f64_lit 2 10) (f64_lit 3 1) (f64_lit 1 100).
Definition htl_momenta := step_grid (f64_lit 1 100) (f64_lit 5 10) (f64_lit 2 100).
Definition qcd_momenta := frac_grid (f64_lit 1 10) (f64_lit 4 1) (f64_lit 1 100).
Definition quark_momenta := frac_grid (f64_lit 1 100) (f64_lit 1 1) (f64_lit 1 1000).
Definition integrand_momenta := frac_grid (f64_lit 1 10) (f64_lit 2 1) (f64_lit 1 1000).
Definition compare_momenta2 := compare_grid (f64_lit 3 100) (f64_lit 10 1) (f64_lit 1 100).
Definition density_chempots := open_grid (f64_lit (-2) 1) (f64_lit 2 1) (f64_lit 1 1000).

(* ym_thermal_gluon_propagator.rs 22, 91, 100, ...; ym_thermal_gluon_poles.rs 101:
   [(t * 1000.) as u32] in file names and labels *)
Definition mev_label (t : F64) : Z := f64_as_uint 32 (t [*] f64_lit 1000 1).
