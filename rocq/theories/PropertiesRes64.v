(** * C99: numerical residues in binary64 *)
From Coq Require Import ZArith Reals.
From Flocq Require Import Core IEEE754.Binary IEEE754.Bits.
From Verif Require Import MFloat MGrid MFermi MDistr64 MRes64 SpecGrid SpecRes64 PExRes64.
Open Scope R_scope.

(** The residue of 1 / (x - z) at z is found to be one up to a relative (|z| + 1) / 4000. *)
Theorem C99_unit_pole : forall z, fin z -> Rabs (val z) <= 1000 ->
  fin (compute_residue_f64 (unit_pole f64_one z) z) /\ Rabs (val (compute_residue_f64 (unit_pole f64_one z) z) - 1) <= (Rabs (val z) + 1) / 4000.
Proof. exact near_unit. Qed.
Print Assumptions C99_unit_pole.

(** Also at complex points, whatever the imaginary part; the imaginary part of the residue is exactly zero. *)
Theorem C99_complex_unit_pole : forall z, fin (fst z) -> fin (snd z) -> Rabs (val (fst z)) <= 1000 ->
  let r := compute_residue_c64 (unit_complex_pole f64_one f64_zero z) z in
  fin (fst r) /\ fin (snd r) /\ val (snd r) = 0 /\ Rabs (val (fst r) - 1) <= (Rabs (val (fst z)) + 1) / 4000.
Proof. exact near_unit_c. Qed.
Print Assumptions C99_complex_unit_pole.

(** Not so at larger points: at 10000 little more than half of the residue is found. *)
Theorem C99_unit_pole_refuted : exists z, fin z /\ val z = 10000 /\
  fin (compute_residue_f64 (unit_pole f64_one z) z) /\ val (compute_residue_f64 (unit_pole f64_one z) z) < 55 / 100.
Proof. exact bad_unit. Qed.
Print Assumptions C99_unit_pole_refuted.

(** From 32768 on the step is lost in rounding, and no function has a finite residue. *)
Theorem C99_far_points_not_finite : forall f z eps, far z -> tiny_step eps -> ~ fin (compute_residue_with_eps_f64 f z eps).
Proof. exact lost_R. Qed.
Print Assumptions C99_far_points_not_finite.

(** At complex points both parts are NaN then. *)
Theorem C99_far_complex_points_nan : forall f z eps, far (fst z) -> tiny_step eps -> both_nan (compute_residue_with_eps_c64 f z eps).
Proof. exact lost_C. Qed.
Print Assumptions C99_far_complex_points_nan.

Theorem C99_default_step : tiny_step residue_eps /\ Rabs (val residue_eps - / 10 ^ 12) <= / 10 ^ 27.
Proof. exact default_step. Qed.
Print Assumptions C99_default_step.

Example C99_example : far two15 /\ is_finite 53 1024 (compute_residue_f64 (unit_pole f64_one two15) two15) = false /\
  f64_gt (compute_residue_f64 (fun x => x) two15) (f64_lit 1000000000000 1) = true /\
  f64_gt (compute_residue_f64 (unit_pole f64_one f64_one) f64_one) (f64_lit 9999 10000) = true /\ f64_lt (compute_residue_f64 (unit_pole f64_one f64_one) f64_one) (f64_lit 10001 10000) = true.
Proof. exact ex_res. Qed.
