(** * Numerical spectral functions in binary64: examples *)
From Coq Require Import ZArith Reals.
From Flocq Require Import Core IEEE754.Binary IEEE754.Bits.
From Verif Require Import MFloat MGrid MFermi MRes64 MSpectral64 SpecGrid SpecSpectral64.
Open Scope R_scope.

(** i above the line Im z = y, -i on and below it *)
Definition jump (y : F64) (z : C64) : C64 := (f64_zero, if f64_gt (snd z) y then f64_one else f64_lit (-1) 1).
Lemma ex_sp : mirror_symmetric (fun z => z) /\
  f64_gt (fst (spectral_function_c64 (fun z => z) (f64_one, f64_zero))) (f64_lit (-319) 1000000000000000) = true /\
  f64_lt (fst (spectral_function_c64 (fun z => z) (f64_one, f64_zero))) (f64_lit (-318) 1000000000000000) = true /\
  f64_lt (fst (spectral_function_c64 (jump f64_zero) (f64_one, f64_zero))) (f64_lit (-31) 100) = true /\
  f64_eq (fst (spectral_function_c64 (jump (f64_lit 32768 1)) (f64_one, f64_lit 32768 1))) f64_zero = true.
Proof. split; [exact (fun z w H => H)|]. vm_compute. repeat split; reflexivity. Qed.
