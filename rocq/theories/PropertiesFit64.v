(** * C97: the fitted phase boundary in binary64 *)
From Coq Require Import ZArith Reals List.
From Flocq Require Import Core IEEE754.Binary IEEE754.Bits.
From Verif Require Import MFloat MGrid MUtils MFit64 SpecGrid SpecTc SpecFit64 PFit64b.
Import List ListNotations.
Open Scope R_scope.

(** The value is a number, off by at most 4n + 2 roundings of the sum of the magnitudes of the terms (n the degree). *)
Theorem C97_evaluation_error : forall mu params, fin mu -> Rabs (val mu) <= 1 -> coefficients params -> params <> [] -> degree params <= 2 ^ 19 ->
  exists r, parametric_phase_diagram_f64 mu params = Ret r /\ fin r /\
    Rabs (val r - exact_value params mu) <= (4 * degree params + 2) * (bpow radix2 (-53) * term_sum params mu + bpow radix2 (-1075)).
Proof. exact horner_error. Qed.
Print Assumptions C97_evaluation_error.

(** Relative to the value itself if no coefficient is negative. *)
Theorem C97_positive_coefficients : forall mu params, fin mu -> 0 <= val mu <= 1 -> coefficients params -> Forall (fun p => 0 <= val p) params -> params <> [] -> degree params <= 2 ^ 19 ->
  exists r, parametric_phase_diagram_f64 mu params = Ret r /\ fin r /\
    Rabs (val r - exact_value params mu) <= (4 * degree params + 2) * (bpow radix2 (-53) * exact_value params mu + bpow radix2 (-1075)).
Proof. exact positive_coeffs. Qed.
Print Assumptions C97_positive_coefficients.

(** At zero chemical potential it is exactly the constant term. *)
Theorem C97_at_zero : forall mu p0 rest, fin mu -> val mu = 0 -> coefficients (p0 :: rest) ->
  exists r, parametric_phase_diagram_f64 mu (p0 :: rest) = Ret r /\ fin r /\ val r = val p0.
Proof. exact at_zero. Qed.
Print Assumptions C97_at_zero.

Theorem C97_panics_iff_empty : forall mu params, parametric_phase_diagram_f64 mu params = Panic <-> params = [].
Proof. exact panics_empty. Qed.
Print Assumptions C97_panics_iff_empty.

(** 1 - 2 mu + 3 mu^2 at mu = 1/2. *)
Example C97_example : coefficients ex_params /\ degree ex_params <= 2 ^ 19 /\ (fin (f64_lit 1 2) /\ val (f64_lit 1 2) = 1 / 2) /\
  exact_value ex_params (f64_lit 1 2) = 3 / 4 /\ term_sum ex_params (f64_lit 1 2) = 11 / 4 /\
  exists r, parametric_phase_diagram_f64 (f64_lit 1 2) ex_params = Ret r /\ f64_eq r (f64_lit 3 4) = true.
Proof. exact ex_fit. Qed.
