(** * The cold limit: collected statements *)
From Coq Require Import Reals Lra Lia List.
From Coquelicot Require Import Coquelicot.
From Verif Require Import Num CField MCommon MThermal MThermalZM MThermalZP MPolar SpecInteg PCplx PDistr PVac PDress2 PCoh PCoh2 PLogs PMass PMassZ PMass2 PCombo PComboR PLim PLimC SpecLim PCold.
Import List ListNotations.
Open Scope R_scope.
Notation CINF := (Rbar_locally p_infty).

Lemma slit_energy q (m : C) : slit (m * m + RtoC (q * q))%C -> 0 < fst (energy q m).
Proof. intros H. unfold energy, energy_squared. numcbn. now apply Csqrt_re_pos. Qed.
Lemma cold_C q p (om m1 m2 m : C) n : 0 < q -> p <> 0 -> (om * om + RtoC (p * p))%C <> RtoC 0 ->
  slit (m1 * m1 + RtoC (q * q))%C -> slit (m2 * m2 + RtoC (q * q))%C -> slit (m * m + RtoC (q * q))%C ->
  tendsC CINF (fun beta => nth n (bubbles_mm q om p m1 m2 beta) (RtoC 0)) (RtoC 0) /\
  tendsC CINF (fun beta => nth n (bubbles_same q om p m beta) (RtoC 0)) (RtoC 0) /\
  tendsC CINF (fun beta => nth n (bubbles_m0 q om p m beta) (RtoC 0)) (RtoC 0) /\
  tendsC CINF (fun beta => nth n (bubbles_0 q om p beta) (RtoC 0)) (RtoC 0) /\
  tendsC CINF (fun beta => nth n (tadpoles q m beta) (RtoC 0)) (RtoC 0).
Proof. intros Hq Hp Hs H1 H2 H3. apply slit_energy in H1, H2, H3. exact (conj (mm_cold q m1 m2 H1 H2 om p n) (conj (same_cold q m Hq H3 om p n Hp Hs) (conj (m0_cold q m Hq H3 om p n Hp Hs) (conj (zero_cold q Hq om p n Hp Hs) (tadpole_cold q m n H3))))). Qed.
Lemma cold_zm_C q p (m1 m2 m : C) n : 0 < q -> p <> 0 ->
  slit (m1 * m1 + RtoC (q * q))%C -> slit (m2 * m2 + RtoC (q * q))%C -> slit (m * m + RtoC (q * q))%C ->
  tendsC CINF (fun beta => nth n (zm_bubbles_mm q p m1 m2 beta) (RtoC 0)) (RtoC 0) /\
  tendsC CINF (fun beta => nth n (zm_bubbles_same q p m beta) (RtoC 0)) (RtoC 0) /\
  tendsC CINF (fun beta => nth n (zm_bubbles_m0 q p m beta) (RtoC 0)) (RtoC 0) /\
  tendsC CINF (fun beta => nth n (zm_bubbles_0 q p beta) (RtoC 0)) (RtoC 0).
Proof. intros Hq Hp H1 H2 H3. apply slit_energy in H1, H2, H3. exact (conj (zm_mm_cold q m1 m2 H1 H2 p n) (conj (zm_same_cold q m Hq H3 p n Hp) (conj (zm_m0_cold q m Hq H3 p n Hp) (zm_zero_cold q Hq p n Hp)))). Qed.
Lemma cold_zp_C q (om m1 m2 m : C) n : 0 < q ->
  slit (m1 * m1 + RtoC (q * q))%C -> slit (m2 * m2 + RtoC (q * q))%C -> slit (m * m + RtoC (q * q))%C ->
  tendsC CINF (fun beta => nth n (zp_bubbles_mm q om m1 m2 beta) (RtoC 0)) (RtoC 0) /\
  tendsC CINF (fun beta => nth n (zp_bubbles_same q om m beta) (RtoC 0)) (RtoC 0) /\
  tendsC CINF (fun beta => nth n (zp_bubbles_m0 q om m beta) (RtoC 0)) (RtoC 0) /\
  tendsC CINF (fun beta => nth n (zp_bubbles_0 q om beta) (RtoC 0)) (RtoC 0).
Proof. intros Hq H1 H2 H3. apply slit_energy in H1, H2, H3. exact (conj (zp_mm_cold q m1 m2 H1 H2 om n) (conj (zp_same_cold q m Hq H3 om n) (conj (zp_m0_cold q m Hq H3 om n) (zp_zero_cold q Hq om n)))). Qed.
Lemma cold_glue q p (om : C) m n : 0 < q -> p <> 0 -> (om * om + RtoC (p * p))%C <> RtoC 0 ->
  tendsC CINF (fun beta => nth n (glue_parts q om p m beta) (RtoC 0)) (RtoC 0) /\
  tendsC CINF (fun beta => nth n (zm_glue_parts q p m beta) (RtoC 0)) (RtoC 0) /\
  tendsC CINF (fun beta => nth n (zp_glue_parts q om m beta) (RtoC 0)) (RtoC 0).
Proof. intros Hq Hp Hs. exact (conj (glue_cold q m Hq om p n Hp Hs) (conj (zm_glue_cold q m Hq p n Hp) (zp_glue_cold q m Hq om n))). Qed.

Ltac co H := eapply tendsC_ext; [apply filter_forall; intros b; rewrite (H b); reflexivity|].
Lemma slit_real q (m : R) : 0 < q -> slit (RtoC m * RtoC m + RtoC (q * q))%C.
Proof. intros H. right. simpl. pose proof (Rle_0_sqr m). unfold Rsqr in *. nra. Qed.
Lemma cold_R q p (om m1 m2 m : R) n : 0 < q -> p <> 0 ->
  tendsC CINF (fun beta => nth n (bubbles_mm q om p m1 m2 beta) (RtoC 0)) (RtoC 0) /\
  tendsC CINF (fun beta => nth n (bubbles_same q om p m beta) (RtoC 0)) (RtoC 0) /\
  tendsC CINF (fun beta => nth n (bubbles_m0 q om p m beta) (RtoC 0)) (RtoC 0) /\
  tendsC CINF (fun beta => nth n (bubbles_0 q om p beta) (RtoC 0)) (RtoC 0) /\
  tendsC CINF (fun beta => nth n (map RtoC (tadpoles q m beta)) (RtoC 0)) (RtoC 0) /\
  tendsC CINF (fun beta => nth n (map RtoC (tadpoles_0 q beta)) (RtoC 0)) (RtoC 0) /\
  tendsC CINF (fun beta => nth n (glue_parts q om p m beta) (RtoC 0)) (RtoC 0).
Proof.
  intros Hq Hp. pose proof (sum_pos om p Hp) as Hs. pose proof (slit_real q) as Hsl.
  destruct (cold_C q p (RtoC om) (RtoC m1) (RtoC m2) (RtoC m) n Hq Hp Hs (Hsl _ Hq) (Hsl _ Hq) (Hsl _ Hq)) as (A1 & A2 & A3 & A4 & _).
  repeat match goal with |- _ /\ _ => split end.
  - co (mm_RRR q om p m1 m2). exact A1.
  - co (same_RR q om p m). exact A2.
  - co (m0_RR q om p m). exact A3.
  - co (zero_R q om p). exact A4.
  - now apply tadpole_coldR.
  - now apply tadpole0_cold.
  - co (glue_R q om p m). now apply glue_cold.
Qed.
Lemma cold_zm_R q p (m1 m2 m : R) n : 0 < q -> p <> 0 ->
  tendsC CINF (fun beta => nth n (zm_bubbles_mm q p m1 m2 beta) (RtoC 0)) (RtoC 0) /\
  tendsC CINF (fun beta => nth n (zm_bubbles_same q p m beta) (RtoC 0)) (RtoC 0) /\
  tendsC CINF (fun beta => nth n (zm_bubbles_m0 q p m beta) (RtoC 0)) (RtoC 0) /\
  tendsC CINF (fun beta => nth n (zm_bubbles_0 q p beta) (RtoC 0)) (RtoC 0) /\
  tendsC CINF (fun beta => nth n (zm_glue_parts q p m beta) (RtoC 0)) (RtoC 0).
Proof.
  intros Hq Hp. pose proof (slit_real q) as Hsl.
  destruct (cold_zm_C q p (RtoC m1) (RtoC m2) (RtoC m) n Hq Hp (Hsl _ Hq) (Hsl _ Hq) (Hsl _ Hq)) as (A1 & A2 & A3 & A4).
  repeat match goal with |- _ /\ _ => split end.
  - co (zm_mm_RR q p m1 m2). exact A1.
  - co (zm_same_R q p m). exact A2.
  - co (zm_m0_R q p m). exact A3.
  - exact A4.
  - now apply zm_glue_cold.
Qed.
Lemma cold_zp_R q (om m1 m2 m : R) n : 0 < q ->
  tendsC CINF (fun beta => nth n (zp_bubbles_mm q om m1 m2 beta) (RtoC 0)) (RtoC 0) /\
  tendsC CINF (fun beta => nth n (zp_bubbles_same q om m beta) (RtoC 0)) (RtoC 0) /\
  tendsC CINF (fun beta => nth n (zp_bubbles_m0 q om m beta) (RtoC 0)) (RtoC 0) /\
  tendsC CINF (fun beta => nth n (zp_bubbles_0 q om beta) (RtoC 0)) (RtoC 0) /\
  tendsC CINF (fun beta => nth n (zp_glue_parts q om m beta) (RtoC 0)) (RtoC 0).
Proof.
  intros Hq. pose proof (slit_real q) as Hsl.
  destruct (cold_zp_C q (RtoC om) (RtoC m1) (RtoC m2) (RtoC m) n Hq (Hsl _ Hq) (Hsl _ Hq) (Hsl _ Hq)) as (A1 & A2 & A3 & A4).
  repeat match goal with |- _ /\ _ => split end.
  - co (zp_mm_RRR q om m1 m2). exact A1.
  - co (zp_same_RR q om m). exact A2.
  - co (zp_m0_RR q om m). exact A3.
  - co (zp_zero_R q om). exact A4.
  - co (zp_glue_R q om m). now apply zp_glue_cold.
Qed.
