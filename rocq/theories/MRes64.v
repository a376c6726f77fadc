(** * Numerical residues in binary64

    qcd-sme/src/utils.rs, at the real and at the complex type of the crate. *)
From Coq Require Import ZArith List.
From Flocq Require Import IEEE754.BinarySingleNaN IEEE754.Binary IEEE754.Bits.
From Verif Require Import MFloat MGrid MFermi MDistr64.
Open Scope Z_scope.

(* qcd-sme/src/utils.rs 48-50 at type R; [inv] is types.rs 76-78 *)
Definition compute_residue_with_eps_f64 (f : F64 -> F64) (z eps : F64) : F64 :=
  f64_inv (f64_inv (f (z [+] eps)) [-] f64_inv (f (z [-] eps))) [*] f64_lit 2 1 [*] eps.

(** num-complex: complex plus and minus real act on the real part only; difference of complex numbers *)
Definition c64_plus_re (z : C64) (x : F64) : C64 := (fst z [+] x, snd z).
Definition c64_minus_re (z : C64) (x : F64) : C64 := (fst z [-] x, snd z).
Definition c64_minus (z w : C64) : C64 := (fst z [-] fst w, snd z [-] snd w).

(* qcd-sme/src/utils.rs 48-50 at type C; [inv] is types.rs 113-115 *)
Definition compute_residue_with_eps_c64 (f : C64 -> C64) (z : C64) (eps : F64) : C64 :=
  c64_times (c64_times (c64_inv (c64_minus (c64_inv (f (c64_plus_re z eps))) (c64_inv (f (c64_minus_re z eps))))) (f64_lit 2 1)) eps.

(* qcd-sme/src/utils.rs 54-56 *)
Definition residue_eps : F64 := f64_lit 1 1000000000000.
Definition compute_residue_f64 (f : F64 -> F64) (z : F64) : F64 := compute_residue_with_eps_f64 f z residue_eps.
Definition compute_residue_c64 (f : C64 -> C64) (z : C64) : C64 := compute_residue_with_eps_c64 f z residue_eps.
