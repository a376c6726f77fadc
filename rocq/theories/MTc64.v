(** * The phase classification of tc_long_prop in binary64

    tc_long_prop/src/lib.rs. The comparisons are exact and only the interpolated temperature is rounded; NaN
    compares false with everything. *)
From Coq Require Import ZArith List.
From Flocq Require Import IEEE754.BinarySingleNaN IEEE754.Binary IEEE754.Bits.
From Verif Require Import MFloat MGrid MUtils MFermi.
Import ListNotations.
Open Scope Z_scope.

(* tc_long_prop/src/lib.rs 177: t0 + (tt - t0) / (mmu - mu0) * (mu - mu0) *)
Definition interpolate_f64 (mu0 t0 mmu tb mu : F64) : F64 :=
  t0 [+] (tb [-] t0) [/] (mmu [-] mu0) [*] (mu [-] mu0).

(* tc_long_prop/src/lib.rs 165-182: the scan; [prev] is [phase_boundary[i - 1]], whose index panics when i = 0 *)
Fixpoint scan_boundary_f64 (mu t : F64) (prev : option (F64 * F64)) (pb : list (F64 * F64)) : outcome bool :=
  match pb with
  | [] => Ret true
  | (mmu, tb) :: pb' =>
      if f64_eq mmu mu then Ret (f64_gt t tb)
      else if f64_eq tb t then Ret (f64_gt mu mmu)
      else if f64_gt mmu mu then
        match prev with
        | None => Panic
        | Some (mu0, t0) => Ret (f64_gt t (interpolate_f64 mu0 t0 mmu tb mu))
        end
      else scan_boundary_f64 mu t (Some (mmu, tb)) pb'
  end.

(* tc_long_prop/src/lib.rs 139-183 *)
Definition is_deconfined_phase_f64 (mu t : F64) (phase_boundary : list (F64 * F64)) : outcome bool :=
  let pb := reduce_phase_boundary_f64 phase_boundary in
  match pb with
  | [] => Panic
  | (fmu, ft) :: _ =>
      if f64_lt mu fmu then Panic
      else if f64_eq t f64_zero then Ret (f64_gt mu (fst (last pb (f64_zero, f64_zero))))
      else if (f64_eq mu f64_zero && f64_eq fmu f64_zero)%bool then Ret (f64_gt t ft)
      else scan_boundary_f64 mu t None pb
  end.
