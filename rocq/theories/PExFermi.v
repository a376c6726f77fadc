(** * Examples: the Fermi momentum in binary64 *)
From Coq Require Import ZArith Reals Psatz Lia List Bool.
From Flocq Require Import Core IEEE754.BinarySingleNaN IEEE754.Binary IEEE754.Bits.
From Verif Require Import MFloat MGrid MUtils MTc MCommon MFermi SpecGrid SpecFermi PGrid PGrid2 PGrid3 PGrid4 PFerm64 PFerm64b PFerm64c.
Import List ListNotations.
Open Scope R_scope.

Lemma moderate_le x : Rabs (val x) <= 1 -> moderate x.
Proof. intros H. apply Rle_trans with (1 := H). change 1 with (bpow radix2 0). apply bpow_le. lia. Qed.
Lemma l45 : fin (f64_lit 450 1000) /\ Rabs (val (f64_lit 450 1000) - 450 / 1000) <= / 10 ^ 5.
Proof. apply (lit_near 450 1000); [lia|vm_compute; reflexivity]. Qed.
Lemma l46 : fin (f64_lit 460 1000) /\ Rabs (val (f64_lit 460 1000) - 460 / 1000) <= / 10 ^ 5.
Proof. apply (lit_near 460 1000); [lia|vm_compute; reflexivity]. Qed.
Lemma v45 : 44 / 100 <= val (f64_lit 450 1000) <= 455 / 1000.
Proof. destruct l45 as (_ & H). apply Rabs_le_inv in H. cbn [pow] in H. lra. Qed.
Lemma v46 : 456 / 1000 <= val (f64_lit 460 1000) <= 47 / 100.
Proof. destruct l46 as (_ & H). apply Rabs_le_inv in H. cbn [pow] in H. lra. Qed.
Lemma thr_refuted : (forall m, fermi_momentum m m = 0) /\ exists m, fin m /\ moderate m /\ 0 < val m /\ f64_isnan (fermi_momentum_f64 m m) = true.
Proof.
  split.
  - intros m. unfold fermi_momentum. change (sqrt (m * m + - (m * m)) = 0). replace (m * m + - (m * m)) with 0 by ring. apply sqrt_0.
  - exists (f64_lit 450 1000). pose proof v45. split; [apply l45|split; [apply moderate_le; rewrite Rabs_pos_eq; lra|split; [lra|apply (wrapper45 false (fun _ => false))]]].
Qed.
Lemma fm46 : bpow radix2 (-300) <= val (fermi_momentum_f64 (f64_lit 450 1000) (f64_lit 460 1000)).
Proof.
  assert (F : fin (fermi_momentum_f64 (f64_lit 450 1000) (f64_lit 460 1000))) by (vm_compute; reflexivity).
  destruct (lit_near 5 100) as (F5 & H5); [lia|vm_compute; reflexivity|]. apply Rabs_le_inv in H5. cbn [pow] in H5.
  assert (L : val (f64_lit 5 100) < val (fermi_momentum_f64 (f64_lit 450 1000) (f64_lit 460 1000))) by (apply lt_ok; [exact F5|exact F|vm_compute; reflexivity]).
  apply Rle_trans with (bpow radix2 (-8)); [apply bpow_le; lia|]. change (bpow radix2 (-8)) with (/ 256). lra.
Qed.
Lemma fermi_ex : f64_isnan (fermi_momentum_f64 (f64_lit 450 1000) (f64_lit 450 1000)) = true /\
  f64_isnan (fermi_momentum_f64 (f64_lit 350 1000) (f64_lit 350 1000)) = false /\
  (fin (f64_lit 450 1000) /\ moderate (f64_lit 450 1000) /\ bpow radix2 (-484) <= Rabs (val (f64_lit 450 1000))) /\
  (fin (f64_lit 460 1000) /\ moderate (f64_lit 460 1000) /\ Rabs (val (f64_lit 450 1000)) < Rabs (val (f64_lit 460 1000))) /\
  bpow radix2 (-300) <= val (fermi_momentum_f64 (f64_lit 450 1000) (f64_lit 460 1000)).
Proof.
  pose proof v45. pose proof v46.
  assert (L : bpow radix2 (-484) <= Rabs (val (f64_lit 450 1000))).
  { rewrite Rabs_pos_eq by lra. apply Rle_trans with (bpow radix2 (-2)); [apply bpow_le; lia|]. change (bpow radix2 (-2)) with (/ 4). lra. }
  assert (M5 : moderate (f64_lit 450 1000)) by (apply moderate_le; rewrite Rabs_pos_eq; lra).
  assert (M6 : moderate (f64_lit 460 1000)) by (apply moderate_le; rewrite Rabs_pos_eq; lra).
  assert (Q : Rabs (val (f64_lit 450 1000)) < Rabs (val (f64_lit 460 1000))) by (rewrite (Rabs_pos_eq (val (f64_lit 450 1000))), (Rabs_pos_eq (val (f64_lit 460 1000))) by lra; lra).
  assert (N : f64_isnan (fermi_momentum_f64 (f64_lit 350 1000) (f64_lit 350 1000)) = false) by (vm_compute; reflexivity).
  exact (conj (proj2 (wrapper45 false (fun _ => false))) (conj N (conj (conj (proj1 l45) (conj M5 L)) (conj (conj (proj1 l46) (conj M6 Q)) fm46)))).
Qed.
Definition ex_tcs : list F64 := map (fun o => match o with Ret t => t | Panic => f64_nan end)
  (critical_temperatures_f64 (fun _ => f64_one) (fun _ _ _ b => (b, f64_zero)) (fun mu => if f64_isnan mu then [] else [f64_lit (10 ^ 12) 1])
      (f64_lit 656 1000) (f64_lit 1 100000) (f64_lit 1 100) (f64_lit 4 1) [(2%nat, f64_lit 350 1000); (1%nat, f64_lit 450 1000)]
      physical_manytemps physical_manychempots).
Lemma boundary_ex : nan_to_nan (fun _ _ _ b => (b, f64_zero)) /\
  exists ts, critical_temperatures_f64 (fun _ => f64_one) (fun _ _ _ b => (b, f64_zero)) (fun mu => if f64_isnan mu then [] else [f64_lit (10 ^ 12) 1])
      (f64_lit 656 1000) (f64_lit 1 100000) (f64_lit 1 100) (f64_lit 4 1) [(2%nat, f64_lit 350 1000); (1%nat, f64_lit 450 1000)]
      physical_manytemps physical_manychempots = map (@Ret F64) ts /\
    length (reduce_phase_boundary_f64 (combine physical_manychempots ts)) = 45%nat /\
    forallb (fun t => f64_eq t (nth 1 physical_manytemps f64_nan)) (skipn 46 ts) = true.
Proof.
  split; [exact nan_ex|]. exists ex_tcs. split; [|split].
  - unfold ex_tcs, critical_temperatures_f64. rewrite !map_map. apply map_ext. intros mu. destruct temps_first as (ts & -> & _). reflexivity.
  - vm_compute. reflexivity.
  - vm_compute. reflexivity.
Qed.
