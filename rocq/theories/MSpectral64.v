(** * Numerical spectral functions in binary64

    qcd-sme/src/utils.rs. *)
From Coq Require Import ZArith List.
From Flocq Require Import IEEE754.BinarySingleNaN IEEE754.Binary IEEE754.Bits.
From Verif Require Import MFloat MGrid MFermi MRes64.
Open Scope Z_scope.

(* qcd-sme/src/consts.rs 15 *)
Definition c64_I : C64 := (f64_zero, f64_one).
(** num-complex: product of complex numbers, complex over real *)
Definition c64_mult (z w : C64) : C64 :=
  (fst z [*] fst w [-] snd z [*] snd w, fst z [*] snd w [+] snd z [*] fst w).
Definition c64_over (z : C64) (x : F64) : C64 := (fst z [/] x, snd z [/] x).

(* qcd-sme/src/utils.rs 61-63 *)
Definition spectral_function_with_eps_c64 (f : C64 -> C64) (z : C64) (eps : F64) : C64 :=
  c64_over (c64_mult c64_I (c64_minus (f (c64_plus z (c64_times c64_I eps))) (f (c64_minus z (c64_times c64_I eps)))))
    (f64_lit 2 1 [*] f64_PI).

(* qcd-sme/src/utils.rs 68-70; the step is that of the residues *)
Definition spectral_function_c64 (f : C64 -> C64) (z : C64) : C64 := spectral_function_with_eps_c64 f z residue_eps.
