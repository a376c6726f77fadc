(** * The grids of the programs: the points of each one *)
From Coq Require Import ZArith Reals Psatz Lia List Bool.
From Flocq Require Import Core IEEE754.BinarySingleNaN IEEE754.Binary IEEE754.Bits.
From Verif Require Import MFloat MGrid SpecGrid PGrid PGrid2.
Import ListNotations.
Open Scope R_scope.

Lemma overall_momenta_ok : grid_near overall_momenta (Z.to_nat 300) (fun i => 1 / 100 + 1 / 100 * INR i).
Proof. grid (fun i : Z => (1 + i)%Z) 100%Z. Qed.
Lemma overall_temperatures_ok : grid_near overall_temperatures (Z.to_nat 39) (fun i => 1 / 100 + 5 / 1000 * INR i).
Proof. grid (fun i : Z => (10 + 5 * i)%Z) 1000%Z. Qed.
Lemma physical_fewtemps_ok : grid_near physical_fewtemps (Z.to_nat 7) (fun i => 293 / 10000 * INR i).
Proof. grid (fun i : Z => (293 * i)%Z) 10000%Z. Qed.
Lemma physical_moretemps_ok : grid_near physical_moretemps (Z.to_nat 16) (fun i => 117 / 10000 * INR i).
Proof. grid (fun i : Z => (117 * i)%Z) 10000%Z. Qed.
Lemma physical_manytemps_ok : grid_near physical_manytemps (Z.to_nat 1466) (fun i => 12 / 100000 * INR i).
Proof. grid (fun i : Z => (12 * i)%Z) 100000%Z. Qed.
Lemma physical_fewchempots_ok : grid_near physical_fewchempots (Z.to_nat 9) (fun i => 1 / 10 * INR i).
Proof. grid (fun i : Z => (1 * i)%Z) 10%Z. Qed.
Lemma physical_morechempots_ok : grid_near physical_morechempots (Z.to_nat 33) (fun i => 25 / 1000 * INR i).
Proof. grid (fun i : Z => (25 * i)%Z) 1000%Z. Qed.
Lemma physical_manychempots_ok : grid_near physical_manychempots (Z.to_nat 81) (fun i => 1 / 100 * INR i).
Proof. grid (fun i : Z => (1 * i)%Z) 100%Z. Qed.
Lemma physical_momenta_ok : grid_near physical_momenta (Z.to_nat 300) (fun i => 1 / 100 + 1 / 100 * INR i).
Proof. grid (fun i : Z => (1 + i)%Z) 100%Z. Qed.
Lemma ym_momenta_ok : grid_near ym_momenta (Z.to_nat 281) (fun i => 2 / 10 + 1 / 100 * INR i).
Proof. grid (fun i : Z => (20 + i)%Z) 100%Z. Qed.
Lemma htl_momenta_ok : grid_near htl_momenta (Z.to_nat 25) (fun i => 1 / 100 + 2 / 100 * INR i).
Proof. grid (fun i : Z => (1 + 2 * i)%Z) 100%Z. Qed.
Lemma qcd_momenta_ok : grid_near qcd_momenta (Z.to_nat 391) (fun i => 1 / 10 + 1 / 100 * INR i).
Proof. grid (fun i : Z => (10 + i)%Z) 100%Z. Qed.
Lemma quark_momenta_ok : grid_near quark_momenta (Z.to_nat 991) (fun i => 1 / 100 + 1 / 1000 * INR i).
Proof. grid (fun i : Z => (10 + i)%Z) 1000%Z. Qed.
Lemma integrand_momenta_ok : grid_near integrand_momenta (Z.to_nat 1900) (fun i => 1 / 10 + 19 / 10 * (INR i / 1899)).
Proof. grid (fun i : Z => (1899 + 19 * i)%Z) 18990%Z. Qed.
Lemma density_chempots_ok : grid_near density_chempots (Z.to_nat 4000) (fun i => Ropp 2 + 1 / 1000 * INR i).
Proof. grid (fun i : Z => (-2000 + i)%Z) 1000%Z. Qed.
Lemma compare_momenta2_ok : grid_near compare_momenta2 (Z.to_nat 998) (fun i => (3 / 100 + 1 / 100 * INR i) * (3 / 100 + 1 / 100 * INR i)).
Proof. grid (fun i : Z => ((3 + i) * (3 + i))%Z) 10000%Z. Qed.

(** ** Endpoints and particular points *)
Lemma last_nth {A} (l : list A) d : last l d = nth (length l - 1) l d.
Proof.
  induction l as [|x [|y l] IH]; try reflexivity. change (last (x :: y :: l) d) with (last (y :: l) d). rewrite IH. simpl. now rewrite Nat.sub_0_r.
Qed.
Lemma near_last l n g d : grid_near l n g -> (0 < n)%nat -> Rabs (val (last l d) - g (n - 1)%nat) <= / 10 ^ 13.
Proof. intros (L & _ & _ & N) H. rewrite last_nth, L. apply N. lia. Qed.
Lemma grid_last l n g d d' : grid_near l n g -> (0 < n)%nat -> last l d = nth (n - 1) l d'.
Proof. intros (L & _) H. rewrite last_nth, L. apply nth_indep. lia. Qed.
Lemma grid_indep l n g i d d' : grid_near l n g -> (i < n)%nat -> nth i l d = nth i l d'.
Proof. intros (L & _) H. apply nth_indep. lia. Qed.
Lemma tiny : / 10 ^ 13 <= / 10 ^ 5.
Proof. apply Rinv_le_contravar; [apply pow_lt; lra|apply Rle_pow; [lra|lia]]. Qed.
Lemma ym_overshoots d : 3 < val (last ym_momenta d).
Proof.
  assert (E : last ym_momenta d = nth (Z.to_nat 281 - 1) ym_momenta f64_nan) by exact (grid_last _ _ _ d f64_nan ym_momenta_ok ltac:(lia)). rewrite E. replace 3 with (val (f64_of_nat 3)) by (rewrite (proj2 (of_nat_ok 3 ltac:(lia))); simpl; lra).
  apply lt_ok; vm_compute; reflexivity.
Qed.
Lemma last_lt l n g d b : grid_near l (Z.to_nat n) g -> (0 < n)%Z -> g (Z.to_nat n - 1)%nat < b - / 10 ^ 5 -> val (last l d) < b.
Proof. intros G Hn H. pose proof (near_last _ _ _ d G ltac:(lia)) as H0. apply Rabs_le_inv in H0. pose proof tiny. lra. Qed.
Lemma htl_stops_short d : val (last htl_momenta d) < 4901 / 10000.
Proof. refine (last_lt _ 25 _ d _ htl_momenta_ok eq_refl _). cbv beta. replace (Z.to_nat 25 - 1)%nat with (Z.to_nat 24) by reflexivity. rewrite INR_IZR_INZ, Z2Nat.id by lia. lra. Qed.
Lemma moretemps_stops_short d : val (last physical_moretemps d) < 17552 / 100000.
Proof. refine (last_lt _ 16 _ d _ physical_moretemps_ok eq_refl _). cbv beta. replace (Z.to_nat 16 - 1)%nat with (Z.to_nat 15) by reflexivity. rewrite INR_IZR_INZ, Z2Nat.id by lia. lra. Qed.
Lemma eq_ok x y : fin x -> fin y -> f64_eq x y = true -> val x = val y.
Proof.
  intros Fx Fy H. unfold f64_eq, b64_compare in H. rewrite (Bcompare_correct 53 1024 x y Fx Fy) in H. fold (val x) (val y) in H. destruct (Rcompare_spec (val x) (val y)); auto; discriminate.
Qed.
Lemma density_zero d : fin (nth (Z.to_nat 2000) density_chempots d) /\ val (nth (Z.to_nat 2000) density_chempots d) = 0.
Proof.
  assert (E : nth (Z.to_nat 2000) density_chempots d = nth (Z.to_nat 2000) density_chempots f64_nan) by exact (grid_indep _ _ _ (Z.to_nat 2000) d f64_nan density_chempots_ok ltac:(lia)). rewrite E. assert (F : fin (nth (Z.to_nat 2000) density_chempots f64_nan)) by (vm_compute; reflexivity). split; [exact F|].
  destruct (of_nat_ok 0 ltac:(simpl; lia)) as (F0 & V0). simpl INR in V0. rewrite <- V0. apply eq_ok; [exact F|exact F0|vm_compute; reflexivity].
Qed.

(** ** Labels in MeV *)
Lemma labels_ok : forallb (fun m => (mev_label (f64_lit m 1000) =? m)%Z) (map Z.of_nat (seq 0 1001)) = true.
Proof. vm_compute. reflexivity. Qed.
Lemma label_whole m : (0 <= m <= 1000)%Z -> mev_label (f64_lit m 1000) = m.
Proof.
  intros H. pose proof labels_ok as L. rewrite forallb_forall in L. apply Z.eqb_eq, L. apply in_map_iff. exists (Z.to_nat m). split; [lia|]. apply in_seq. lia.
Qed.
Lemma label_clash : mev_label (f64_lit 1001 1000) = 1000%Z /\ mev_label (f64_lit 1000 1000) = 1000%Z.
Proof. split; vm_compute; reflexivity. Qed.
