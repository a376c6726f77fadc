(** * Numerical residues in binary64: statements and examples *)
From Coq Require Import ZArith Reals Psatz Lia List Bool.
From Flocq Require Import Core IEEE754.BinarySingleNaN IEEE754.Binary IEEE754.Bits.
From Verif Require Import MFloat MGrid MFermi MDistr64 MRes64 SpecGrid SpecRes64 PGrid PGrid2 PDistr64 PFerm64b PTc64b PRes64 PRes64b PRes64c.
Open Scope R_scope.

Lemma lost_R f z eps : far z -> tiny_step eps -> ~ fin (compute_residue_with_eps_f64 f z eps).
Proof. intros H (F & B). exact (residue_lost f z eps H F B). Qed.
Lemma lost_C f z eps : far (fst z) -> tiny_step eps -> both_nan (compute_residue_with_eps_c64 f z eps).
Proof. intros H (F & B). exact (residue_lost_c f z eps H F B). Qed.
Lemma default_step : tiny_step residue_eps /\ Rabs (val residue_eps - / 10 ^ 12) <= / 10 ^ 27.
Proof. exact (conj eps_ok (proj2 eps_small)). Qed.
Lemma near_unit z : fin z -> Rabs (val z) <= 1000 ->
  fin (compute_residue_f64 (unit_pole f64_one z) z) /\ Rabs (val (compute_residue_f64 (unit_pole f64_one z) z) - 1) <= (Rabs (val z) + 1) / 4000.
Proof. exact (residue_near z). Qed.
Lemma near_unit_c z : fin (fst z) -> fin (snd z) -> Rabs (val (fst z)) <= 1000 ->
  let r := compute_residue_c64 (unit_complex_pole f64_one f64_zero z) z in
  fin (fst r) /\ fin (snd r) /\ val (snd r) = 0 /\ Rabs (val (fst r) - 1) <= (Rabs (val (fst z)) + 1) / 4000.
Proof. exact (residue_near_c z). Qed.
Lemma bad_unit : exists z, fin z /\ val z = 10000 /\ fin (compute_residue_f64 (unit_pole f64_one z) z) /\ val (compute_residue_f64 (unit_pole f64_one z) z) < 55 / 100.
Proof.
  exists (f64_lit 10000 1). destruct (lit_int 10000 ltac:(simpl; lia)) as (F & V). split; [exact F|]. split; [exact V|].
  assert (Fr : fin (compute_residue_f64 (unit_pole f64_one (f64_lit 10000 1)) (f64_lit 10000 1))) by (vm_compute; reflexivity).
  split; [exact Fr|]. destruct (near_ok 549755813888 1000000000000 (compute_residue_f64 (unit_pole f64_one (f64_lit 10000 1)) (f64_lit 10000 1)) ltac:(lia)) as (_ & N); [vm_compute; reflexivity|].
  apply Rabs_le_inv in N. lra.
Qed.
Definition two15 : F64 := f64_lit 32768 1.
Lemma ex_res : far two15 /\ is_finite 53 1024 (compute_residue_f64 (unit_pole f64_one two15) two15) = false /\
  f64_gt (compute_residue_f64 (fun x => x) two15) (f64_lit 1000000000000 1) = true /\
  f64_gt (compute_residue_f64 (unit_pole f64_one f64_one) f64_one) (f64_lit 9999 10000) = true /\ f64_lt (compute_residue_f64 (unit_pole f64_one f64_one) f64_one) (f64_lit 10001 10000) = true.
Proof.
  split; [|vm_compute; repeat split; reflexivity]. destruct (lit_int 32768 ltac:(simpl; lia)) as (F & V). split; [exact F|]. unfold two15. rewrite V. change (IZR 32768) with (bpow radix2 15). rewrite (Rabs_pos_eq (bpow radix2 15)) by apply bpow_ge_0. split; apply bpow_le; lia.
Qed.
