(** * Energies and thermal distributions in binary64

    [f64::exp] is the exponential of the platform's libm; here it is a parameter [E]. *)
From Coq Require Import ZArith List.
From Flocq Require Import IEEE754.BinarySingleNaN IEEE754.Binary IEEE754.Bits.
From Verif Require Import MFloat MGrid MFermi.
Open Scope Z_scope.

(* common/mod.rs 70-78, for real mass *)
Definition energy_f64 (p m : F64) : F64 := b64_sqrt mode_NE (m [*] m [+] p [*] p).

(* types.rs 75-78 *)
Definition f64_inv (x : F64) : F64 := f64_one [/] x.

Section Distr.
Variable E : F64 -> F64.

(* low_level/common/mod.rs 59-66 *)
Definition statistic_distribution_exponential_f64 (en beta mu : F64) : F64 := E ((en [-] mu) [*] beta).
(* low_level/common/mod.rs 68-71 *)
Definition statistic_distribution_exponential_zero_chempot_f64 (en beta : F64) : F64 := E (en [*] beta).

(* common/thermal.rs 171-178 *)
Definition fermi_distribution_f64 (en beta mu : F64) : F64 :=
  f64_inv (statistic_distribution_exponential_f64 en beta mu [+] f64_one).
(* common/thermal.rs 180-190 *)
Definition fermi_distribution_zero_temp_f64 (en mu : F64) : F64 :=
  if f64_gt en mu then f64_zero else f64_one.
(* common/thermal.rs 192-200 *)
Definition fermi_distribution_double_f64 (en beta mu : F64) : F64 :=
  f64_inv (statistic_distribution_exponential_f64 en beta mu [+] f64_one) [+]
  f64_inv (statistic_distribution_exponential_f64 en beta (b64_opp mu) [+] f64_one).
(* common/thermal.rs 202-211 *)
Definition fermi_distribution_double_zero_temp_f64 (en mu : F64) : F64 :=
  fermi_distribution_zero_temp_f64 en mu [+] fermi_distribution_zero_temp_f64 en (b64_opp mu).
(* common/thermal.rs 213-216 *)
Definition fermi_distribution_zero_chempot_f64 (en beta : F64) : F64 :=
  f64_inv (statistic_distribution_exponential_zero_chempot_f64 en beta [+] f64_one).
(* common/thermal.rs 218-225 *)
Definition bose_distribution_f64 (en beta mu : F64) : F64 :=
  f64_inv (statistic_distribution_exponential_f64 en beta mu [-] f64_one).
(* common/thermal.rs 227-230 *)
Definition bose_distribution_zero_chempot_f64 (en beta : F64) : F64 :=
  f64_inv (statistic_distribution_exponential_zero_chempot_f64 en beta [-] f64_one).
End Distr.
