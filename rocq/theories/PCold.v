(** * Zero-temperature limit of the Bose integrands *)
From Coq Require Import Reals Lra Lia List.
From Coquelicot Require Import Coquelicot.
From Verif Require Import Num CField MCommon MThermal MThermalZM MThermalZP MPolar SpecInteg PCplx PDistr PVac PDress2 PCoh PCoh2 PLogs PMass PMassZ PMass2 PCombo PComboR PLim PLimC.
Import List ListNotations.
Open Scope R_scope.

Notation CINF := (Rbar_locally p_infty).

Lemma exp_ge_sq y : 0 <= y -> y * y / 4 <= exp y - 1.
Proof.
  intros Hy. assert (H : 1 + y / 2 <= exp (y / 2)) by (apply exp_ineq1_le). replace y with (y / 2 + y / 2) at 3 by field. rewrite exp_plus. nra.
Qed.
Lemma exp_ge_lin y : y <= exp y - 1.
Proof. pose proof (exp_ineq1_le y). lra. Qed.

Definition boseC (e : C) (b : R) : C := bose_distribution_zero_chempot e b.
Lemma Cmod_Cexp z : Cmod (Cexp z) = exp (fst z).
Proof.
  unfold Cmod, Cexp. cbn [fst snd]. replace (exp (fst z) * cos (snd z)) with (cos (snd z) * exp (fst z)) by ring.
  replace ((cos (snd z) * exp (fst z)) ^ 2 + (exp (fst z) * sin (snd z)) ^ 2) with (exp (fst z) * exp (fst z) * ((sin (snd z))² + (cos (snd z))²)) by (unfold Rsqr; ring).
  rewrite sin2_cos2, Rmult_1_r. apply sqrt_square. apply Rlt_le, exp_pos.
Qed.
Lemma Cmod_sub1 w : Cmod w - 1 <= Cmod (w - RtoC 1)%C.
Proof.
  pose proof (Cmod_triangle (w - RtoC 1)%C (RtoC 1)) as H. replace (w - RtoC 1 + RtoC 1)%C with w in H by ring. rewrite Cmod_1 in H. lra.
Qed.
Lemma bose_mod e b : 0 < fst e -> 0 < b -> 0 < exp (fst e * b) - 1 /\ Cmod (bose_distribution_zero_chempot e b) <= / (exp (fst e * b) - 1).
Proof.
  intros He Hb. assert (Hp : 0 < fst e * b) by (apply Rmult_lt_0_compat; auto). assert (H1 : 0 < exp (fst e * b) - 1) by (pose proof (exp_ge_lin (fst e * b)); lra).
  split; auto. unfold bose_distribution_zero_chempot, statistic_distribution_exponential_zero_chempot. numcbn.
  pose proof (Cmod_sub1 (Cexp (e * RtoC b))) as H. rewrite Cmod_Cexp in H. simpl in H. replace (fst e * b - snd e * 0) with (fst e * b) in H by ring.
  rewrite Cmod_inv. 2: { intros E. rewrite E, Cmod_0 in H. lra. }
  apply Rinv_le_contravar; auto.
Qed.
Lemma Cmod_ge_snd z : Rabs (snd z) <= Cmod z.
Proof. apply Rle_trans with (2 := Rmax_Cmod z). apply Rmax_r. Qed.
Lemma tendsC_squeeze (f : R -> C) g : CINF (fun b => Cmod (f b) <= g b) -> tends CINF g 0 -> tendsC CINF f (RtoC 0).
Proof.
  intros H Hg. split; simpl; apply (tends_squeeze0 _ g); auto; revert H; apply filter_imp; intros b Hb.
  - eapply Rle_trans; [apply Cmod_ge_fst|auto].
  - eapply Rle_trans; [apply Cmod_ge_snd|auto].
Qed.
Lemma bose_cold (e : C) : 0 < fst e -> tendsC CINF (fun b => bose_distribution_zero_chempot e b) (RtoC 0).
Proof.
  intros He. apply (tendsC_squeeze _ (fun b => / fst e * / b)).
  - apply (ev_infty _ 0). intros b Hb. destruct (bose_mod e b He Hb) as [H1 H2]. eapply Rle_trans; [exact H2|]. rewrite <- Rinv_mult.
    apply Rinv_le_contravar; [apply Rmult_lt_0_compat; auto|apply exp_ge_lin].
  - apply (tends_eq _ (/ fst e * 0)); [ring|]. pose proof tends_inv_infty. apply tends_mult; [apply tends_const|auto].
Qed.
Lemma bose_cold_beta (e : C) : 0 < fst e -> tendsC CINF (fun b => (RtoC b * bose_distribution_zero_chempot e b)%C) (RtoC 0).
Proof.
  intros He. apply (tendsC_squeeze _ (fun b => 4 / (fst e * fst e) * / b)).
  - apply (ev_infty _ 0). intros b Hb. destruct (bose_mod e b He Hb) as [H1 H2]. rewrite Cmod_mult, Cmod_real, Rabs_pos_eq by lra.
    assert (Hp : 0 < fst e * b) by (apply Rmult_lt_0_compat; auto).
    apply Rle_trans with (b * / ((fst e * b) * (fst e * b) / 4)).
    + apply Rmult_le_compat_l; [lra|]. eapply Rle_trans; [exact H2|]. apply Rinv_le_contravar; [nra|]. apply exp_ge_sq. lra.
    + right. field. split; lra.
  - apply (tends_eq _ (4 / (fst e * fst e) * 0)); [ring|]. pose proof tends_inv_infty. apply tends_mult; [apply tends_const|auto].
Qed.
(** b(-e) = -1 - b(e) *)
Lemma bose_neg (e : C) b : 0 < fst e -> 0 < b -> bose_distribution_zero_chempot (- e)%C b = (- RtoC 1 - bose_distribution_zero_chempot e b)%C.
Proof.
  intros He Hb. unfold bose_distribution_zero_chempot, statistic_distribution_exponential_zero_chempot. numcbn.
  assert (E : (Cexp (- e * RtoC b) * Cexp (e * RtoC b))%C = RtoC 1). { rewrite <- Cexp_add. replace (- e * RtoC b + e * RtoC b)%C with (RtoC 0) by ring. apply Cexp_0. }
  assert (Hp : 0 < fst e * b) by (apply Rmult_lt_0_compat; auto). assert (H1 : 0 < exp (fst e * b) - 1) by (pose proof (exp_ge_lin (fst e * b)); lra).
  pose proof (Cmod_sub1 (Cexp (e * RtoC b))) as H. rewrite Cmod_Cexp in H. simpl in H. replace (fst e * b - snd e * 0) with (fst e * b) in H by ring.
  assert (N1 : (Cexp (e * RtoC b) - RtoC 1)%C <> RtoC 0). { intros E'. rewrite E', Cmod_0 in H. lra. }
  assert (N0 := Cexp_neq_0 (e * RtoC b)%C).
  assert (E2 : Cexp (- e * RtoC b)%C = (/ Cexp (e * RtoC b))%C). { rewrite <- (Cmult_1_r (/ _)%C), <- E. field. auto. }
  rewrite E2. generalize dependent (Cexp (e * RtoC b)%C). intros w _ _ N1 N0 _.
  assert (N2 : (RtoC 1 - w)%C <> RtoC 0). { intros E'. apply N1. replace (w - RtoC 1)%C with (- (RtoC 1 - w))%C by ring. rewrite E'. ring. }
  assert (N3 : (/ w - RtoC 1)%C <> RtoC 0). { intros E'. apply N2. replace (RtoC 1 - w)%C with (w * (/ w - RtoC 1))%C by (field; auto). rewrite E'. ring. }
  field. repeat split; auto.
Qed.
Lemma boseneg_cold (e : C) : 0 < fst e -> tendsC CINF (fun b => bose_distribution_zero_chempot (- e)%C b) (- RtoC 1)%C.
Proof.
  intros He. apply (tendsC_ext (fun b => (- RtoC 1 - bose_distribution_zero_chempot e b)%C)).
  - apply (ev_infty _ 0). intros b Hb. now rewrite bose_neg.
  - apply (tendsC_eq _ (- RtoC 1 - RtoC 0)%C); [ring|]. apply tendsC_minus; [apply tendsC_const|now apply bose_cold].
Qed.

Lemma bose_coldR (x : R) : 0 < x -> tendsC CINF (fun b => RtoC (bose_distribution_zero_chempot x b)) (RtoC 0).
Proof.
  intros Hx. apply (tendsC_ext (fun b => bose_distribution_zero_chempot (RtoC x) b)); [apply filter_forall; intros b; apply bose_RC|]. now apply bose_cold.
Qed.

Ltac lim := eapply tendsC_eq; cycle 1; [unfold Cdiv; tendCf|unfold Cdiv; ring].
Section Cold.
Variables (q : R) (m1 m2 : C).
Hypothesis H1 : 0 < fst (energy q m1).
Hypothesis H2 : 0 < fst (energy q m2).
Lemma mm_cold (om : C) (p : R) n : tendsC CINF (fun beta => nth n (bubbles_mm q om p m1 m2 beta) (RtoC 0)) (RtoC 0).
Proof.
  pose proof (bose_cold _ H1) as B1. pose proof (bose_cold _ H2) as B2.
  unfold bubbles_mm. destruct n as [|[|[|[|[|[|[|n]]]]]]]; cbn [nth]; try apply tendsC_const; un_th; cbv zeta; numcbn; generalize PI2; intros; lim.
Qed.
Lemma zm_mm_cold (p : R) n : tendsC CINF (fun beta => nth n (zm_bubbles_mm q p m1 m2 beta) (RtoC 0)) (RtoC 0).
Proof.
  pose proof (bose_cold _ H1) as B1. pose proof (bose_cold _ H2) as B2.
  unfold zm_bubbles_mm. destruct n as [|[|[|[|[|[|[|n]]]]]]]; cbn [nth]; try apply tendsC_const; canonzm; generalize PI2; intros; lim.
Qed.
Lemma zp_mm_cold (om : C) n : tendsC CINF (fun beta => nth n (zp_bubbles_mm q om m1 m2 beta) (RtoC 0)) (RtoC 0).
Proof.
  pose proof (bose_cold _ H1) as B1. pose proof (bose_cold _ H2) as B2.
  unfold zp_bubbles_mm. destruct n as [|[|[|[|[|[|[|n]]]]]]]; cbn [nth]; try apply tendsC_const; canonzp; generalize PI2; intros; lim.
Qed.
End Cold.

Lemma tadpole_cold (q : R) (m : C) n : 0 < fst (energy q m) -> tendsC CINF (fun beta => nth n (tadpoles q m beta) (RtoC 0)) (RtoC 0).
Proof.
  intros H. pose proof (bose_cold _ H) as B. pose proof (boseneg_cold _ H) as Bn. pose proof (bose_cold_beta _ H) as Bb.
  assert (L : forall k1 k2 : C, tendsC CINF (fun b => (bose_distribution_zero_chempot (energy q m) b * k1 + RtoC b * bose_distribution_zero_chempot (energy q m) b * bose_distribution_zero_chempot (- energy q m)%C b * k2)%C) (RtoC 0)).
  { intros k1 k2. eapply tendsC_eq; cycle 1; [apply tendsC_plus; [tendCf|apply tendsC_mult; [apply tendsC_mult; [exact Bb|exact Bn]|apply tendsC_const]]|ring]. }
  unfold tadpoles. destruct n as [|[|[|[|[|[|[|[|[|[|n]]]]]]]]]]; cbn [nth]; try apply tendsC_const;
  unfold j_m_i, j_m_l_i, j_m_t_i, d_j_m_i, d_j_m_l_i, d_j_m_t_i, d2_j_m_i, d2_j_m_l_i, d2_j_m_t_i; cbv zeta; numcbn; revert L; generalize PI2; intros pi2 L.
  all: try lim.
  - eapply tendsC_ext; [|exact (L (/ (energy q m * energy q m * energy q m * RtoC 8 * RtoC pi2)) (- energy q m * / (energy q m * energy q m * energy q m * RtoC 8 * RtoC pi2)))%C].
    apply filter_forall. intros b. unfold Cdiv. ring.
  - eapply tendsC_ext; [|exact (L (/ RtoC (8 * pi2) * / energy q m) (/ RtoC (8 * pi2)))%C].
    apply filter_forall. intros b. unfold Cdiv. ring.
Qed.

Lemma energyC_pos q (m : R) : 0 < q -> 0 < fst (energy q (RtoC m)).
Proof. intros H. rewrite energy_RC. change (0 < energy q m). rewrite energy_R. apply sqrt_lt_R0. pose proof (Rle_0_sqr m). unfold Rsqr in *. nra. Qed.
Lemma tadpole_coldR (q m : R) n : 0 < q -> tendsC CINF (fun beta => nth n (map RtoC (tadpoles q m beta)) (RtoC 0)) (RtoC 0).
Proof.
  intros H. apply (tendsC_ext (fun beta => nth n (tadpoles q (RtoC m) beta) (RtoC 0))); [apply filter_forall; intros b; now rewrite tadpoles_R|].
  now apply tadpole_cold, energyC_pos.
Qed.
Lemma tadpole0_cold (q : R) n : 0 < q -> tendsC CINF (fun beta => nth n (map RtoC (tadpoles_0 q beta)) (RtoC 0)) (RtoC 0).
Proof.
  intros H. apply (tendsC_ext (fun beta => nth n (map RtoC (tadpoles q 0 beta)) (RtoC 0))); [apply filter_forall; intros b; now rewrite tadpoles_0_R|].
  now apply tadpole_coldR.
Qed.

(** Special masses. *)
Section Special.
Variables (q : R) (m : C).
Hypothesis Hq : 0 < q.
Hypothesis Hm : 0 < fst (energy q m).
Ltac sp H := eapply tendsC_ext; [apply filter_forall; intros b; rewrite (H b); reflexivity|].
Lemma energy0C : 0 < fst (energy q (RtoC 0)).
Proof. now apply energyC_pos. Qed.
Lemma same_cold (om : C) p n : p <> 0 -> (om * om + RtoC (p * p))%C <> RtoC 0 -> tendsC CINF (fun beta => nth n (bubbles_same q om p m beta) (RtoC 0)) (RtoC 0).
Proof. intros Hp Hs. sp (fun b => eq_sym (proj1 (special_C q om m p b Hq Hp Hs))). now apply mm_cold. Qed.
Lemma m0_cold (om : C) p n : p <> 0 -> (om * om + RtoC (p * p))%C <> RtoC 0 -> tendsC CINF (fun beta => nth n (bubbles_m0 q om p m beta) (RtoC 0)) (RtoC 0).
Proof. intros Hp Hs. sp (fun b => eq_sym (proj1 (proj2 (special_C q om m p b Hq Hp Hs)))). apply mm_cold; auto using energy0C. Qed.
Lemma zm_same_cold p n : p <> 0 -> tendsC CINF (fun beta => nth n (zm_bubbles_same q p m beta) (RtoC 0)) (RtoC 0).
Proof. intros Hp. sp (fun b => eq_sym (proj1 (special_zm_C q m p b Hq Hp))). now apply zm_mm_cold. Qed.
Lemma zm_m0_cold p n : p <> 0 -> tendsC CINF (fun beta => nth n (zm_bubbles_m0 q p m beta) (RtoC 0)) (RtoC 0).
Proof. intros Hp. sp (fun b => eq_sym (proj1 (proj2 (special_zm_C q m p b Hq Hp)))). apply zm_mm_cold; auto using energy0C. Qed.
Lemma zp_same_cold (om : C) n : tendsC CINF (fun beta => nth n (zp_bubbles_same q om m beta) (RtoC 0)) (RtoC 0).
Proof. sp (fun b => eq_sym (proj1 (special_zp_C q om m b Hq))). now apply zp_mm_cold. Qed.
Lemma zp_m0_cold (om : C) n : tendsC CINF (fun beta => nth n (zp_bubbles_m0 q om m beta) (RtoC 0)) (RtoC 0).
Proof. sp (fun b => eq_sym (proj1 (proj2 (special_zp_C q om m b Hq)))). apply zp_mm_cold; auto using energy0C. Qed.
End Special.
Section Special0.
Variables (q : R).
Hypothesis Hq : 0 < q.
Ltac sp H := eapply tendsC_ext; [apply filter_forall; intros b; rewrite (H b); reflexivity|].
Lemma zero_cold (om : C) p n : p <> 0 -> (om * om + RtoC (p * p))%C <> RtoC 0 -> tendsC CINF (fun beta => nth n (bubbles_0 q om p beta) (RtoC 0)) (RtoC 0).
Proof. intros Hp Hs. sp (fun b => eq_sym (proj2 (proj2 (special_C q om (RtoC 0) p b Hq Hp Hs)))). apply m0_cold; auto using energy0C. Qed.
Lemma zm_zero_cold p n : p <> 0 -> tendsC CINF (fun beta => nth n (zm_bubbles_0 q p beta) (RtoC 0)) (RtoC 0).
Proof. intros Hp. sp (fun b => eq_sym (proj2 (proj2 (special_zm_C q (RtoC 0) p b Hq Hp)))). apply zm_m0_cold; auto using energy0C. Qed.
Lemma zp_zero_cold (om : C) n : tendsC CINF (fun beta => nth n (zp_bubbles_0 q om beta) (RtoC 0)) (RtoC 0).
Proof. sp (fun b => eq_sym (proj2 (proj2 (special_zp_C q om (RtoC 0) b Hq)))). apply zp_m0_cold; auto using energy0C. Qed.
End Special0.

(** Ghost self-energy and gluon polarization. *)
Lemma nth_nil n : nth n ([] : list C) (RtoC 0) = RtoC 0.
Proof. now destruct n. Qed.
Lemma GLUE_nil s wt wl m2 im2 n : nth n (GLUE s wt wl m2 im2 [] [] [] [] []) (RtoC 0) = RtoC 0.
Proof.
  unfold GLUE, GHc, GPc. destruct n as [|[|[|[|n]]]]; cbn [nth]; try reflexivity; unfold Cdiv; ring.
Qed.
Lemma GLUE_cold m2 im2 s wt wl (fbs fbm fb0 ftm ft0 : R -> list C) :
  (forall n, tendsC CINF (fun x => nth n (fbs x) (RtoC 0)) (RtoC 0)) -> (forall n, tendsC CINF (fun x => nth n (fbm x) (RtoC 0)) (RtoC 0)) ->
  (forall n, tendsC CINF (fun x => nth n (fb0 x) (RtoC 0)) (RtoC 0)) -> (forall n, tendsC CINF (fun x => nth n (ftm x) (RtoC 0)) (RtoC 0)) ->
  (forall n, tendsC CINF (fun x => nth n (ft0 x) (RtoC 0)) (RtoC 0)) ->
  forall n, tendsC CINF (fun x => nth n (GLUE s wt wl m2 im2 (fbs x) (fbm x) (fb0 x) (ftm x) (ft0 x)) (RtoC 0)) (RtoC 0).
Proof.
  intros H1 H2 H3 H4 H5 n. apply (tendsC_eq _ (nth n (GLUE s wt wl m2 im2 [] [] [] [] []) (RtoC 0))); [apply GLUE_nil|].
  apply (GLUE_tends m2 im2 (fun _ => s) (fun _ => wt) (fun _ => wl)); try apply tendsC_const; intros k; rewrite nth_nil; auto.
Qed.
Section Glue.
Variables (q m : R).
Hypothesis Hq : 0 < q.
Let Hm := energyC_pos q m Hq.
Ltac gl H := eapply tendsC_ext; [apply filter_forall; intros b; rewrite H; reflexivity|]; apply GLUE_cold; auto using tadpole_coldR, tadpole0_cold; intros k.
Ltac co H := eapply tendsC_ext; [apply filter_forall; intros b; rewrite (H b); reflexivity|].
Lemma glue_cold (om : C) p n : p <> 0 -> (om * om + RtoC (p * p))%C <> RtoC 0 -> tendsC CINF (fun beta => nth n (glue_parts q om p m beta) (RtoC 0)) (RtoC 0).
Proof.
  intros Hp Hs. gl glue_GLUE.
  - co (same_CR q om p m). now apply same_cold.
  - co (m0_CR q om p m). now apply m0_cold.
  - now apply zero_cold.
Qed.
Lemma zm_glue_cold p n : p <> 0 -> tendsC CINF (fun beta => nth n (zm_glue_parts q p m beta) (RtoC 0)) (RtoC 0).
Proof.
  intros Hp. gl zm_glue_GLUE.
  - co (zm_same_R q p m). now apply zm_same_cold.
  - co (zm_m0_R q p m). now apply zm_m0_cold.
  - now apply zm_zero_cold.
Qed.
Lemma zp_glue_cold (om : C) n : tendsC CINF (fun beta => nth n (zp_glue_parts q om m beta) (RtoC 0)) (RtoC 0).
Proof.
  gl zp_glue_GLUE.
  - co (zp_same_CR q om m). now apply zp_same_cold.
  - co (zp_m0_CR q om m). now apply zp_m0_cold.
  - now apply zp_zero_cold.
Qed.
End Glue.

