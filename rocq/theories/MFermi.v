(** * The Fermi momentum and its users in binary64

    [mu.mul_add(mu, -(m * m))] is a fused multiply-add: [mu * mu] is not rounded, [m * m] is. The real
    model cannot see the difference, so this file uses IEEE binary64 (Flocq). *)
From Coq Require Import ZArith List.
From Flocq Require Import IEEE754.BinarySingleNaN IEEE754.Binary IEEE754.Bits.
From Verif Require Import MFloat MGrid MUtils MTc.
Import ListNotations.
Open Scope Z_scope.

Definition f64_le (x y : F64) : bool := match b64_compare x y with Some Lt | Some Eq => true | _ => false end.
Definition f64_one : F64 := f64_lit 1 1.
Definition f64_PI : F64 := b64_of_bits 4614256656552045848.   (* std::f64::consts::PI, 0x400921FB54442D18 *)

(* common/thermal.rs 166-169 *)
Definition fermi_momentum_f64 (m mu : F64) : F64 :=
  b64_sqrt mode_NE (b64_fma mode_NE mu mu (b64_opp (m [*] m))).

(* low_level/oneloop/thermal/gluon.rs 160-192, 705-757, 1155-1195: the functions
   polarization_quark_{l,t}_thermal_part_zero_temp_landau_w_method at finite and at zero Matsubara
   frequency and at zero momentum; [integ b] is the result of the integration from 0 to [b] *)
Definition zero_temp_wrapper_f64 {A : Type} (zero : A) (integ : F64 -> A) (mq mu : F64) : A :=
  if f64_lt (b64_abs mu) (b64_abs mq) then zero else integ (fermi_momentum_f64 mq mu).

(* qcd/thermal.rs 310-318 *)
Definition charge_density_zero_temp_f64 (nc : nat) (m mu : F64) : F64 :=
  if f64_le (b64_abs mu) (b64_abs m) then f64_zero
  else
    let s := if f64_gt mu m then f64_one else f64_lit (-1) 1 in
    let fm := fermi_momentum_f64 m mu in
    f64_of_nat nc [*] s [*] (fm [*] fm [*] fm) [/] (f64_lit 3 1 [*] (f64_PI [*] f64_PI)).

(** num-complex over f64: real times complex, complex times real, sum, real minus complex, and
    [1. / z] (types.rs 113-115). *)
Definition C64 : Type := F64 * F64.
Definition c64_zero : C64 := (f64_zero, f64_zero).
Definition c64_scale (x : F64) (z : C64) : C64 := (x [*] fst z, x [*] snd z).
Definition c64_times (z : C64) (x : F64) : C64 := (fst z [*] x, snd z [*] x).
Definition c64_plus (z w : C64) : C64 := (fst z [+] fst w, snd z [+] snd w).
Definition c64_rminus (x : F64) (z : C64) : C64 := (x [-] fst z, f64_zero [-] snd z).
Definition c64_inv (z : C64) : C64 :=
  let n := fst z [*] fst z [+] snd z [*] snd z in
  (f64_one [*] fst z [/] n, f64_zero [-] f64_one [*] snd z [/] n).

Section Propagator.
(** the vacuum inverse dressing function as a function of s, and the result of the integration of
    the quark polarization for given p, mass and upper limit (the integration routine is not modelled) *)
Variable vac : F64 -> F64.
Variable integ : F64 -> F64 -> F64 -> C64.
Variables (mg om mu : F64) (quarks : list (nat * F64)).

(* qcd/thermal.rs 198-219 (longitudinal), 221-242 (transverse), for real om and p *)
Definition dressing_inv_zero_temp_f64 (p : F64) : C64 :=
  let sdim := om [*] om [+] p [*] p in
  let s := sdim [/] (mg [*] mg) in
  let quark_contribution := fold_left c64_plus
    (map (fun q => c64_times (zero_temp_wrapper_f64 c64_zero (integ p (snd q)) (snd q) mu) (f64_of_nat (fst q))) quarks) c64_zero in
  let prefactor := f64_lit 16 1 [*] f64_PI [*] f64_PI [/] f64_lit 3 1 in
  c64_rminus (vac s) (c64_scale (f64_one [/] sdim [*] prefactor) quark_contribution).

(* qcd/thermal.rs 244-282 *)
Definition propagator_zero_temp_f64 (p : F64) : C64 :=
  c64_scale (f64_one [/] (om [*] om [+] p [*] p)) (c64_inv (dressing_inv_zero_temp_f64 p)).

(* bin/physical_tc.rs 466-477: the first entry of [vals], the value at zero temperature *)
Definition ir_zero_temp_f64 (pbase renpoint : F64) : F64 :=
  let renfac := renpoint [*] renpoint [/] (mg [*] mg) in
  let z := fst (propagator_zero_temp_f64 renpoint) [*] renfac in
  fst (propagator_zero_temp_f64 (pbase [*] mg)) [/] z.
End Propagator.

(* bin/physical_tc.rs 472-499: the critical temperatures in binary64. The field configuration is the
   uncorrected one; [warm mu] is the data at the nonzero temperatures of the grid *)
Definition critical_temperatures_f64 (vac : F64 -> F64) (integ : F64 -> F64 -> F64 -> F64 -> C64) (warm : F64 -> list F64)
    (mg om pbase renpoint : F64) (quarks : list (nat * F64)) (temps chempots : list F64) : list (outcome F64) :=
  map (fun mu => find_critical_temperature_gen f64_gt temps
    (ir_zero_temp_f64 vac (integ mu) mg om mu quarks pbase renpoint :: warm mu)) chempots.

(* tc_long_prop/src/lib.rs 80-82 *)
Fixpoint reduce_phase_boundary_f64 (pb : list (F64 * F64)) : list (F64 * F64) :=
  match pb with
  | [] => []
  | (mu, t) :: pb' => if f64_eq t f64_zero then [] else (mu, t) :: reduce_phase_boundary_f64 pb'
  end.

(** The masses of the default configuration (physical_tc.rs 593-594, configs/default_config.yml). *)
Definition default_masses_f64 : list F64 := [f64_lit 350 1000; f64_lit 450 1000; f64_lit 15 10].
Definition default_corrected_masses_f64 : list F64 := [f64_lit 125 1000; f64_lit 225 1000; f64_lit 12 10].
