(** * Grids in binary64: the statements *)
From Coq Require Import ZArith Reals Psatz Lia List.
From Flocq Require Import Core IEEE754.Binary IEEE754.Bits.
From Verif Require Import MFloat MGrid SpecGrid PGrid PGrid2 PGrid3.
Open Scope R_scope.

Lemma step_points : forall (vmin dv : binary64), fin vmin -> fin dv ->
  Rabs (val vmin) <= bpow radix2 1000 -> 0 <= val dv <= bpow radix2 900 ->
  val (step_point vmin dv 0) = val vmin /\
  forall k, (Z.of_nat k <= 2 ^ 53)%Z ->
    fin (step_point vmin dv k) /\ (forall j, (j <= k)%nat -> val (step_point vmin dv j) <= val (step_point vmin dv k)) /\
    Rabs (val (step_point vmin dv k) - (val vmin + val dv * INR k)) <= bpow radix2 (-51) * (Rabs (val vmin) + val dv * INR k) + bpow radix2 (-1000).
Proof.
  intros vmin dv F1 F2 B1 B2. split; [now apply step_first|]. intros k Hk. split; [now apply step_val|]. split; [intros j L; now apply step_mono|]. now apply step_err.
Qed.
Lemma frac_points : forall (vmin vrange : binary64) (n : nat), fin vmin -> fin vrange ->
  Rabs (val vmin) <= bpow radix2 1000 -> 0 <= val vrange <= bpow radix2 900 -> (0 < n)%nat -> (Z.of_nat n <= 2 ^ 53)%Z ->
  val (frac_point vmin vrange n 0) = val vmin /\
  forall k, (k <= n)%nat ->
    fin (frac_point vmin vrange n k) /\ (forall j, (j <= k)%nat -> val (frac_point vmin vrange n j) <= val (frac_point vmin vrange n k)) /\
    Rabs (val (frac_point vmin vrange n k) - (val vmin + val vrange * INR k / INR n)) <= bpow radix2 (-50) * (Rabs (val vmin) + val vrange) + bpow radix2 (-1000).
Proof.
  intros vmin vr n F1 F2 B1 B2 Hn HN. split; [now apply frac_first|]. intros k Hk. split; [now apply frac_val|]. split; [intros j L; now apply frac_mono|]. now apply frac_err.
Qed.
Lemma last_map {A B} (f : A -> B) n (g : nat -> A) d : last (map f (map g (seq 0 (S n)))) d = f (g n).
Proof. rewrite map_map, seq_S, map_app. simpl. apply last_last. Qed.
Lemma last_seq {B} (f : nat -> B) n d : last (map f (seq 0 (S n))) d = f n.
Proof. rewrite seq_S, map_app. simpl. apply last_last. Qed.
Lemma grid_ends : forall vmin vmax dv, sane vmin vmax dv ->
  let q := (val vmax - val vmin) / val dv in
  (INR (length (step_grid vmin vmax dv)) - 1 <= q * (1 + bpow radix2 (-51)) /\
   q * (1 - bpow radix2 (-51)) < INR (length (step_grid vmin vmax dv)) /\
   forall d, val vmax - val dv - slack vmin vmax <= val (last (step_grid vmin vmax dv) d) <= val vmax + slack vmin vmax) /\
  (Rabs (INR (length (round_grid (vmin, vmax, dv))) - 1 - q) <= 1 / 2 + bpow radix2 (-51) * q /\
   forall d, Rabs (val (last (round_grid (vmin, vmax, dv)) d) - val vmax) <= val dv / 2 + slack vmin vmax) /\
  (2 <= q ->
   length (frac_grid vmin vmax dv) = length (step_grid vmin vmax dv) /\
   forall d, Rabs (val (last (frac_grid vmin vmax dv) d) - val vmax) <= slack vmin vmax).
Proof.
  intros vmin vmax dv (F1 & F2 & F3 & B1 & B2 & B3 & B4) q.
  pose proof (trunc_count vmin vmax dv F1 F2 (Bmin vmin B1) (Bmax vmax B2) B3 B4) as (C1 & C2). fold q in C1, C2.
  assert (L : length (step_grid vmin vmax dv) = S (grid_n vmin vmax dv)) by (unfold step_grid; now rewrite map_length, seq_length).
  split; [|split].
  - rewrite L, S_INR. split; [lra|]. split; [lra|]. intros d. unfold step_grid. rewrite last_seq. unfold slack. now apply step_last.
  - split; [now apply round_count; auto; [apply Bmin|apply Bmax]|]. intros d. pose proof (round_last vmin vmax dv F1 F2 F3 B1 B2 B3 B4) as R. cbv zeta in R. unfold slack.
    replace (last (round_grid (vmin, vmax, dv)) d) with (last (round_grid (vmin, vmax, dv)) vmin); [exact R|]. unfold round_grid. now rewrite !last_seq.
  - intros Q2. split; [unfold frac_grid; rewrite L, map_length, seq_length; reflexivity|]. intros d. unfold frac_grid. cbv zeta. rewrite last_seq. unfold slack. now apply frac_last.
Qed.
Lemma program_grids :
  grid_near overall_momenta (Z.to_nat 300) (fun i => 1 / 100 + 1 / 100 * INR i) /\
  grid_near overall_temperatures (Z.to_nat 39) (fun i => 1 / 100 + 5 / 1000 * INR i) /\
  grid_near physical_fewtemps (Z.to_nat 7) (fun i => 293 / 10000 * INR i) /\
  grid_near physical_moretemps (Z.to_nat 16) (fun i => 117 / 10000 * INR i) /\
  grid_near physical_manytemps (Z.to_nat 1466) (fun i => 12 / 100000 * INR i) /\
  grid_near physical_fewchempots (Z.to_nat 9) (fun i => 1 / 10 * INR i) /\
  grid_near physical_morechempots (Z.to_nat 33) (fun i => 25 / 1000 * INR i) /\
  grid_near physical_manychempots (Z.to_nat 81) (fun i => 1 / 100 * INR i) /\
  grid_near physical_momenta (Z.to_nat 300) (fun i => 1 / 100 + 1 / 100 * INR i) /\
  grid_near ym_momenta (Z.to_nat 281) (fun i => 2 / 10 + 1 / 100 * INR i) /\
  grid_near htl_momenta (Z.to_nat 25) (fun i => 1 / 100 + 2 / 100 * INR i) /\
  grid_near qcd_momenta (Z.to_nat 391) (fun i => 1 / 10 + 1 / 100 * INR i) /\
  grid_near quark_momenta (Z.to_nat 991) (fun i => 1 / 100 + 1 / 1000 * INR i) /\
  grid_near density_chempots (Z.to_nat 4000) (fun i => Ropp 2 + 1 / 1000 * INR i) /\
  grid_near compare_momenta2 (Z.to_nat 998) (fun i => (3 / 100 + 1 / 100 * INR i) * (3 / 100 + 1 / 100 * INR i)).
Proof.
  exact (conj overall_momenta_ok (conj overall_temperatures_ok (conj physical_fewtemps_ok (conj physical_moretemps_ok (conj physical_manytemps_ok (conj physical_fewchempots_ok (conj physical_morechempots_ok
    (conj physical_manychempots_ok (conj physical_momenta_ok (conj ym_momenta_ok (conj htl_momenta_ok (conj qcd_momenta_ok (conj quark_momenta_ok (conj density_chempots_ok compare_momenta2_ok)))))))))))))).
Qed.
Lemma integrand_far d : Rabs (val (nth (Z.to_nat 1899) integrand_momenta d) - (1 / 10 + 1 / 1000 * IZR 1899)) > 9 / 10000.
Proof.
  assert (G : forall l, grid_near l (Z.to_nat 1900) (fun i => 1 / 10 + 19 / 10 * (INR i / 1899)) -> Rabs (val (nth (Z.to_nat 1899) l d) - (1 / 10 + 1 / 1000 * IZR 1899)) > 9 / 10000).
  { intros l (_ & _ & _ & N). pose proof (N (Z.to_nat 1899) d ltac:(lia)) as H. cbv beta in H. rewrite INR_IZR_INZ, Z2Nat.id in H by lia. apply Rabs_le_inv in H. pose proof tiny. rewrite Rabs_pos_eq; lra. }
  exact (G _ integrand_momenta_ok).
Qed.
Lemma integrand_spacing :
  (2 - 1 / 10) / (1 / 1000) = 1900 /\
  grid_near integrand_momenta (Z.to_nat 1900) (fun i => 1 / 10 + 19 / 10 * (INR i / 1899)) /\
  exists i d, (i < 1900)%Z /\ Rabs (val (nth (Z.to_nat i) integrand_momenta d) - (1 / 10 + 1 / 1000 * IZR i)) > 9 / 10000.
Proof. split; [lra|]. split; [exact integrand_momenta_ok|]. exists 1899%Z, f64_nan. split; [reflexivity|]. apply integrand_far. Qed.
Lemma endpoints : forall d,
  3 < val (last ym_momenta d) /\ val (last htl_momenta d) < 4901 / 10000 /\ val (last physical_moretemps d) < 17552 / 100000 /\
  fin (nth (Z.to_nat 2000) density_chempots d) /\ val (nth (Z.to_nat 2000) density_chempots d) = 0.
Proof. intros d. exact (conj (ym_overshoots d) (conj (htl_stops_short d) (conj (moretemps_stops_short d) (density_zero d)))). Qed.
Lemma labels :
  (forall m, (0 <= m <= 1000)%Z -> mev_label (f64_lit m 1000) = m) /\
  (forall t, fin t -> 0 <= val t <= bpow radix2 20 ->
     1000 * val t * (1 - bpow radix2 (-53)) - bpow radix2 (-1075) - 1 < IZR (mev_label t) <= 1000 * val t * (1 + bpow radix2 (-53)) + bpow radix2 (-1075)) /\
  mev_label (f64_lit 1001 1000) = 1000%Z /\ mev_label (f64_lit 1000 1000) = 1000%Z.
Proof. exact (conj label_whole (conj label_near label_clash)). Qed.
Lemma big1 : 1024 <= bpow radix2 50 /\ bpow radix2 (-900) <= / 2048 /\ 8 <= bpow radix2 899 /\ 4096 <= bpow radix2 50.
Proof.
  repeat split.
  - change 1024 with (bpow radix2 10). apply bpow_le. lia.
  - change (/ 2048) with (bpow radix2 (-11)). apply bpow_le. lia.
  - change 8 with (bpow radix2 3). apply bpow_le. lia.
  - change 4096 with (bpow radix2 12). apply bpow_le. lia.
Qed.
Lemma lit_near a b : (0 < b)%Z -> near a b (f64_lit a b) = true -> fin (f64_lit a b) /\ Rabs (val (f64_lit a b) - IZR a / IZR b) <= / 10 ^ 5.
Proof. intros Hb H. destruct (near_ok a b _ Hb H) as (F & N). split; auto. pose proof tiny. lra. Qed.
Lemma sane_by (x y z : F64) (a b c : R) :
  fin x /\ Rabs (val x - a) <= / 10 ^ 5 -> fin y /\ Rabs (val y - b) <= / 10 ^ 5 -> fin z /\ Rabs (val z - c) <= / 10 ^ 5 ->
  0 <= a <= 1 -> 2 <= b <= 3 -> / 1000 <= c <= / 10 -> sane x y z.
Proof.
  intros (F1 & V1) (F2 & V2) (F3 & V3) Ha Hb Hc. destruct big1 as (G1 & G2 & G3 & G4). apply Rabs_le_inv in V1, V2, V3.
  repeat split; auto; try (apply Rabs_le; lra); try lra.
  - apply Rmult_le_reg_r with (val z); [lra|]. unfold Rdiv. rewrite Rmult_assoc, Rinv_l by lra. lra.
  - apply Rle_trans with (2 := G4). apply Rmult_le_reg_r with (val z); [lra|]. unfold Rdiv. rewrite Rmult_assoc, Rinv_l by lra. lra.
Qed.
Lemma sane_examples : sane (f64_lit 1 100) (f64_lit 3 1) (f64_lit 1 100) /\ sane (f64_lit 1 10) (f64_lit 2 1) (f64_lit 1 1000).
Proof.
  split; (eapply sane_by; [apply lit_near; [reflexivity|vm_compute; reflexivity]..| | |]); lra.
Qed.
