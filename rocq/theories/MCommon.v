(** * Energies and statistical distributions
    (qcd-sme/src/common/mod.rs, common/thermal.rs, low_level/common/mod.rs)

    Simplification: the Rust functions with a chemical potential allow
    [mu: T2] of a different type than [en: T1] provided [T1 - T2 : T1]; here both
    have the same type [T] (a real [mu] with complex [en] is [ofR mu]). *)
From Coq Require Import Reals.
From Coquelicot Require Import Coquelicot.
From Verif Require Import Num.
Open Scope R_scope.
Open Scope num_scope.

(* common/mod.rs 71-73 *)
Definition energy_squared {T : Type} {N : Num T} (p : R) (m : T) : T :=
  m * m + ofR (p * p).

(* common/mod.rs 76-78 *)
Definition energy {T : Type} {N : Num T} (p : R) (m : T) : T :=
  nsqrt (energy_squared p m).

(* low_level/common/mod.rs 60-66 *)
Definition statistic_distribution_exponential {T : Type} {N : Num T} (en : T) (beta : R) (mu : T) : T :=
  nexp ((en - mu) * ofR beta).

(* low_level/common/mod.rs 69-71 *)
Definition statistic_distribution_exponential_zero_chempot {T : Type} {N : Num T} (en : T) (beta : R) : T :=
  nexp (en * ofR beta).

(* common/thermal.rs 167-169 *)
Definition fermi_momentum (m mu : R) : R :=
  nsqrt (mu * mu + - (m * m)).

(* common/thermal.rs 172-178 *)
Definition fermi_distribution {T : Type} {N : Num T} (en : T) (beta : R) (mu : T) : T :=
  ninv (statistic_distribution_exponential en beta mu + ofR 1).

(* common/thermal.rs 181-190 *)
Definition fermi_distribution_zero_temp {T : Type} {N : Num T} (en mu : T) : T :=
  if Rlt_dec (nre mu) (nre en) then ofR 0 else ofR 1.

(* common/thermal.rs 193-200 *)
Definition fermi_distribution_double {T : Type} {N : Num T} (en : T) (beta : R) (mu : T) : T :=
  ninv (statistic_distribution_exponential en beta mu + ofR 1)
  + ninv (statistic_distribution_exponential en beta (- mu) + ofR 1).

(* common/thermal.rs 203-211 *)
Definition fermi_distribution_double_zero_temp {T : Type} {N : Num T} (en mu : T) : T :=
  fermi_distribution_zero_temp en mu + fermi_distribution_zero_temp en (- mu).

(* common/thermal.rs 214-216 *)
Definition fermi_distribution_zero_chempot {T : Type} {N : Num T} (en : T) (beta : R) : T :=
  ninv (statistic_distribution_exponential_zero_chempot en beta + ofR 1).

(* common/thermal.rs 219-225 *)
Definition bose_distribution {T : Type} {N : Num T} (en : T) (beta : R) (mu : T) : T :=
  ninv (statistic_distribution_exponential en beta mu - ofR 1).

(* common/thermal.rs 228-230 *)
Definition bose_distribution_zero_chempot {T : Type} {N : Num T} (en : T) (beta : R) : T :=
  ninv (statistic_distribution_exponential_zero_chempot en beta - ofR 1).
