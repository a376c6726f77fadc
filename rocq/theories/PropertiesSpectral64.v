(** * C100: numerical spectral functions in binary64 *)
From Coq Require Import ZArith Reals.
From Flocq Require Import Core IEEE754.Binary IEEE754.Bits.
From Verif Require Import MFloat MGrid MFermi MRes64 MSpectral64 SpecGrid SpecRes64 SpecSpectral64 PSpectral64 PSpectral64b.
Open Scope R_scope.

(** At a real point of a function that is real on the real axis, the result is real and equal to -Im f(x + i eps) / pi
    within six roundings. *)
Theorem C100_real_points : forall f x eps, moderate x -> moderate eps -> mirror_symmetric f ->
  exists p, (moderate (fst p) /\ moderate (snd p)) /\ val (fst p) = val x /\ val (snd p) = val eps /\
    let r := spectral_function_with_eps_c64 f (x, f64_zero) eps in
    fin (fst r) /\ fin (snd r) /\ val (snd r) = 0 /\
    Rabs (val (fst r) + val (snd (f p)) / PI) <= 6 * bpow radix2 (-53) * (Rabs (val (snd (f p))) / PI) + 2 * bpow radix2 (-1075).
Proof. exact sp_real. Qed.
Print Assumptions C100_real_points.

(** Far from the real axis the step is lost: zero or NaN for every function, discontinuous or not. *)
Theorem C100_far_points : forall f z eps, moderate (fst z) -> val (fst z) <> 0 -> far (snd z) -> tiny_step eps ->
  let r := spectral_function_with_eps_c64 f z eps in zero_or_nan (fst r) /\ zero_or_nan (snd r).
Proof. exact sp_far. Qed.
Print Assumptions C100_far_points.

(** The identity, and a jump that is seen on the real axis but not at 1 + 32768 i. *)
Example C100_example : mirror_symmetric (fun z => z) /\
  f64_gt (fst (spectral_function_c64 (fun z => z) (f64_one, f64_zero))) (f64_lit (-319) 1000000000000000) = true /\
  f64_lt (fst (spectral_function_c64 (fun z => z) (f64_one, f64_zero))) (f64_lit (-318) 1000000000000000) = true /\
  f64_lt (fst (spectral_function_c64 (jump f64_zero) (f64_one, f64_zero))) (f64_lit (-31) 100) = true /\
  f64_eq (fst (spectral_function_c64 (jump (f64_lit 32768 1)) (f64_one, f64_lit 32768 1))) f64_zero = true.
Proof. exact ex_sp. Qed.
