(** * Zero-temperature limit of the dressing functions and propagators *)
From Coq Require Import Reals Lra Lia List Psatz.
From Coquelicot Require Import Coquelicot.
From Verif Require Import Num CField MCommon MConsts MVacuum MThermal MThermalZM MThermalZP MPolar MDress MQuark SpecInteg SpecInt SpecLim SpecDress SpecCold PCplx PDistr PVac PDress PDress2 PInt PCfg PLim PLimC PCold PColdLim.
Import List ListNotations.
Open Scope R_scope.

Lemma tends3C_intro (f : R -> C * C * C) l i k : (forall b, f b = (i b, / i b, k * / i b)%C) -> tendsC CINF i (fst (fst l)) ->
  (fst (fst l) <> RtoC 0 -> snd (fst l) = (/ fst (fst l))%C /\ snd l = (k * / fst (fst l))%C) -> tends3C CINF f l.
Proof.
  intros E T H. split.
  - eapply tendsC_ext; [|exact T]. apply filter_forall. intros b. now rewrite E.
  - intros N. destruct (H N) as [-> ->]. split.
    + apply (tendsC_ext (fun b => / i b)%C); [apply filter_forall; intros b; now rewrite E|]. now apply tendsC_inv.
    + apply (tendsC_ext (fun b => k * / i b)%C); [apply filter_forall; intros b; now rewrite E|]. apply tendsC_mult; [apply tendsC_const|now apply tendsC_inv].
Qed.
Lemma tends3R_intro (f : R -> R * R * R) l i k : (forall b, f b = (i b, / i b, / i b / k)) -> k <> 0 -> tends CINF i (fst (fst l)) ->
  (fst (fst l) <> 0 -> snd (fst l) = / fst (fst l) /\ snd l = / fst (fst l) / k) -> tends3R CINF f l.
Proof.
  intros E K T H. split.
  - eapply tends_ext; [|exact T]. apply filter_forall. intros b. now rewrite E.
  - intros N. destruct (H N) as [-> ->]. split.
    + apply (tends_ext (fun b => / i b)); [apply filter_forall; intros b; now rewrite E|]. now apply tends_inv.
    + apply (tends_ext (fun b => / i b / k)); [apply filter_forall; intros b; now rewrite E|]. apply tends_div; [auto|now apply tends_inv|apply tends_const].
Qed.
Lemma wsum_C_lim (quarks : list (nat * R)) (f : R -> R -> C) (l : R -> C) : (forall mq, tendsC CINF (fun b => f b mq) (l mq)) ->
  tendsC CINF (fun b => wsum_C (map (fun q => (INR (fst q), f b (snd q))) quarks)) (wsum_C (map (fun q => (INR (fst q), l (snd q))) quarks)).
Proof.
  intros H. induction quarks as [|q t IH]; [apply tendsC_const|]. unfold wsum_C in *. cbn [map fold_right fst snd].
  apply tendsC_plus; [apply tendsC_mult; [apply tendsC_const|apply H]|exact IH].
Qed.
Lemma wsum_R_lim (quarks : list (nat * R)) (f : R -> R -> R) (l : R -> R) : (forall mq, tends CINF (fun b => f b mq) (l mq)) ->
  tends CINF (fun b => wsum_R (map (fun q => (INR (fst q), f b (snd q))) quarks)) (wsum_R (map (fun q => (INR (fst q), l (snd q))) quarks)).
Proof.
  intros H. induction quarks as [|q t IH]; [exact (tends_const 0)|]. unfold wsum_R in *. cbn [map fold_right fst snd].
  apply tends_plus; [apply tends_mult; [apply tends_const|apply H]|exact IH].
Qed.

Section D.
Variables (J : Integrator) (g : globals R) (mu : R).
Hypothesis HJ : exact_integrator J.
Hypothesis Hnc : (0 < g_nc g)%nat.
Variables (m g0 f0 : R) (nc : nat) (quarks : list (nat * R)).
Hypothesis Hm : m <> 0.
Let I0 : Integral R := G7K15 0 0.

Ltac red1 L n := match goal with |- ?x = _ => rewrite (nth_Forall _ _ n _ L eq_refl) end.
Ltac wsimp := unfold wsum_C, wsum_R; cbn [map fold_right fst snd].

Section Gen.
Variables (om p mq : R).
Hypothesis Hom : om <> 0.
Hypothesis Hp : 0 < p.
Let K : om * om + p * p <> 0. Proof. nra. Qed.
Let CC mq' := cold_C_ok J g mq' mu I0 HJ Hnc om Hom p m Hp Hm.
Ltac gl L n k := let H := fresh in
  pose proof (nth_Forall _ _ k _ (CC mq) eq_refl) as H; cbn [fst snd] in H;
  eapply tendsC_ext; [apply filter_forall; intros b; symmetry; exact (nth_Forall _ _ n _ (L b) eq_refl)|];
  eapply tendsC_eq; [|apply tendsC_plus; [apply tendsC_const|apply tendsC_mult; [apply tendsC_const|wsimp; apply tendsC_plus; [apply tendsC_mult; [apply tendsC_const|exact H]|apply tendsC_const]]]]; cbn [fst snd RtoC3 vac_ghost vac_gluon].
Ltac gq L Z n k kq nz := let H := fresh in let H' := fresh in
  pose proof (nth_Forall _ _ k _ (CC mq) eq_refl) as H; cbn [fst snd] in H;
  pose proof (nth_Forall _ _ kq _ (CC mq) eq_refl) as H'; cbn [fst snd] in H';
  eapply tendsC_ext; [apply filter_forall; intros b; symmetry; exact (nth_Forall _ _ n _ (L b) eq_refl)|];
  eapply tendsC_eq; [|apply tendsC_plus; [apply tendsC_const|apply tendsC_mult; [apply tendsC_const|wsimp; apply tendsC_plus; [apply tendsC_mult; [apply tendsC_const|exact H]|
    apply tendsC_plus; [apply tendsC_mult; [apply tendsC_const|exact H']|apply tendsC_const]]]]];
  cbn [fst snd]; symmetry; etransitivity; [exact (nth_Forall _ _ nz _ Z eq_refl)|]; wsimp; ring.
Ltac gc L Z n k nz T := let H := fresh in
  pose proof (nth_Forall _ _ k _ (CC mq) eq_refl) as H; cbn [fst snd] in H;
  eapply tendsC_ext; [apply filter_forall; intros b; symmetry; exact (nth_Forall _ _ n _ (L b) eq_refl)|];
  eapply tendsC_eq; [|apply tendsC_plus; [apply tendsC_const|apply tendsC_mult; [apply tendsC_const|
    apply (tendsC_plus (fun b => _) (fun b => wsum_C (map _ quarks))); [exact (tendsC_mult (fun _ => RtoC 1) _ _ _ (tendsC_const (RtoC 1)) H)|T]]]];
  cbn [fst snd]; symmetry; etransitivity; [exact (nth_Forall _ _ nz _ Z eq_refl)|]; ring.
Lemma cold_gen_ok : Forall (fun x => tends3C CINF (fst x) (snd x)) (cold_gen J g om p m mq mu g0 f0 (FieldConfig_new nc m quarks)).
Proof.
  assert (L := fun b => gen_reductions_R J g om p nc m mq b mu g0 f0 quarks K). unfold gen_reductions in L; cbv zeta in L.
  assert (Z := L 0).
  assert (V : forall v, RtoC v <> RtoC 0 -> RtoC (/ v) = (/ RtoC v)%C /\ RtoC (/ ((om * om + p * p) * v)) = (RtoC (/ (om * om + p * p)) * / RtoC v)%C).
  { intros v Hv. assert (v <> 0) by (intros ->; now apply Hv). split; [now apply RtoC_inv|]. rewrite <- RtoC_inv by auto. rewrite <- RtoC_mult. f_equal. field. auto. }
  unfold cold_gen. repeat (apply Forall_cons || apply Forall_nil); cbn [fst snd].
  1,2,3: (eapply (tends3C_intro _ _ _ (RtoC (/ (om * om + p * p)))); [intros b; dress_unfold; numcbn; reflexivity| |cbn [fst snd RtoC3 vac_ghost vac_gluon]; apply V]).
  - gl L 0%nat 1%nat. numcbn. ring.
  - gl L 1%nat 5%nat. numcbn. ring.
  - gl L 2%nat 7%nat. numcbn. ring.
  - eapply (tends3C_intro _ _ _ (RtoC (/ (om * om + p * p)))); [intros b; dress_unfold; numcbn; reflexivity| |cbn [fst snd]; intros _; split; dress_unfold; numcbn; reflexivity].
    gq L Z 3%nat 5%nat 13%nat 5%nat.
  - eapply (tends3C_intro _ _ _ (RtoC (/ (om * om + p * p)))); [intros b; dress_unfold; numcbn; reflexivity| |cbn [fst snd]; intros _; split; dress_unfold; numcbn; reflexivity].
    gq L Z 4%nat 7%nat 15%nat 6%nat.
  - eapply (tends3C_intro _ _ _ (RtoC (/ (om * om + p * p)))); [intros b; dress_unfold; numcbn; reflexivity| |cbn [fst snd]; intros _; split; dress_unfold; numcbn; reflexivity].
    assert (T := wsum_C_lim quarks (fun b mq' => polarization_quark_l_thermal_part_landau J g om p mq' b mu) (fun mq' => polarization_quark_l_thermal_part_zero_temp_landau J g om p mq' mu)
      (fun mq' => nth_Forall _ _ 13%nat _ (CC mq') eq_refl)).
    gc L Z 7%nat 5%nat 9%nat ltac:(exact T).
  - eapply (tends3C_intro _ _ _ (RtoC (/ (om * om + p * p)))); [intros b; dress_unfold; numcbn; reflexivity| |cbn [fst snd]; intros _; split; dress_unfold; numcbn; reflexivity].
    assert (T := wsum_C_lim quarks (fun b mq' => polarization_quark_t_thermal_part_landau J g om p mq' b mu) (fun mq' => polarization_quark_t_thermal_part_zero_temp_landau J g om p mq' mu)
      (fun mq' => nth_Forall _ _ 15%nat _ (CC mq') eq_refl)).
    gc L Z 8%nat 7%nat 10%nat ltac:(exact T).
Qed.
End Gen.
Section Zp.
Variables (om mq : R).
Hypothesis Hom : om <> 0.
Let K2 : om * om <> 0. Proof. nra. Qed.
Let CC mq' := cold_C_ok J g mq' mu I0 HJ Hnc om Hom 1 m Rlt_0_1 Hm.
Ltac gl L n k := let H := fresh in
  pose proof (nth_Forall _ _ k _ (CC mq) eq_refl) as H; cbn [fst snd] in H;
  eapply tendsC_ext; [apply filter_forall; intros b; symmetry; exact (nth_Forall _ _ n _ (L b) eq_refl)|];
  eapply tendsC_eq; [|apply tendsC_plus; [apply tendsC_const|apply tendsC_mult; [apply tendsC_const|wsimp; apply tendsC_plus; [apply tendsC_mult; [apply tendsC_const|exact H]|apply tendsC_const]]]]; cbn [fst snd RtoC3 vac_ghost vac_gluon].
Ltac gq L Z n k kq nz := let H := fresh in let H' := fresh in
  pose proof (nth_Forall _ _ k _ (CC mq) eq_refl) as H; cbn [fst snd] in H;
  pose proof (nth_Forall _ _ kq _ (CC mq) eq_refl) as H'; cbn [fst snd] in H';
  eapply tendsC_ext; [apply filter_forall; intros b; symmetry; exact (nth_Forall _ _ n _ (L b) eq_refl)|];
  eapply tendsC_eq; [|apply tendsC_plus; [apply tendsC_const|apply tendsC_mult; [apply tendsC_const|wsimp; apply tendsC_plus; [apply tendsC_mult; [apply tendsC_const|exact H]|
    apply tendsC_plus; [apply tendsC_mult; [apply tendsC_const|exact H']|apply tendsC_const]]]]];
  cbn [fst snd]; symmetry; etransitivity; [exact (nth_Forall _ _ nz _ Z eq_refl)|]; wsimp; ring.
Ltac gc L Z n k nz T := let H := fresh in
  pose proof (nth_Forall _ _ k _ (CC mq) eq_refl) as H; cbn [fst snd] in H;
  eapply tendsC_ext; [apply filter_forall; intros b; symmetry; exact (nth_Forall _ _ n _ (L b) eq_refl)|];
  eapply tendsC_eq; [|apply tendsC_plus; [apply tendsC_const|apply tendsC_mult; [apply tendsC_const|
    apply (tendsC_plus (fun b => _) (fun b => wsum_C (map _ quarks))); [exact (tendsC_mult (fun _ => RtoC 1) _ _ _ (tendsC_const (RtoC 1)) H)|T]]]];
  cbn [fst snd]; symmetry; etransitivity; [exact (nth_Forall _ _ nz _ Z eq_refl)|]; ring.
Lemma cold_zp_ok : Forall (fun x => tends3C CINF (fst x) (snd x)) (cold_zp J g om m mq mu g0 f0 (FieldConfig_new nc m quarks)).
Proof.
  assert (L := fun b => zp_reductions_R J g om nc m mq b mu g0 f0 quarks Hom). unfold zp_reductions in L; cbv zeta in L.
  assert (Z := L 0).
  assert (V : forall v, RtoC v <> RtoC 0 -> RtoC (/ v) = (/ RtoC v)%C /\ RtoC (/ ((om * om) * v)) = (RtoC (/ (om * om)) * / RtoC v)%C).
  { intros v Hv. assert (v <> 0) by (intros ->; now apply Hv). split; [now apply RtoC_inv|]. rewrite <- RtoC_inv by auto. rewrite <- RtoC_mult. f_equal. field. auto. }
  unfold cold_zp. repeat (apply Forall_cons || apply Forall_nil); cbn [fst snd].
  1,2,3: (eapply (tends3C_intro _ _ _ (RtoC (/ (om * om)))); [intros b; dress_unfold; numcbn; reflexivity| |cbn [fst snd RtoC3 vac_ghost vac_gluon]; apply V]).
  - gl L 0%nat 3%nat. numcbn. ring.
  - gl L 1%nat 9%nat. numcbn. ring.
  - gl L 2%nat 11%nat. numcbn. ring.
  - eapply (tends3C_intro _ _ _ (RtoC (/ (om * om)))); [intros b; dress_unfold; numcbn; reflexivity| |cbn [fst snd]; intros _; split; dress_unfold; numcbn; reflexivity].
    gq L Z 3%nat 9%nat 17%nat 5%nat.
  - eapply (tends3C_intro _ _ _ (RtoC (/ (om * om)))); [intros b; dress_unfold; numcbn; reflexivity| |cbn [fst snd]; intros _; split; dress_unfold; numcbn; reflexivity].
    gq L Z 4%nat 11%nat 19%nat 6%nat.
  - eapply (tends3C_intro _ _ _ (RtoC (/ (om * om)))); [intros b; dress_unfold; numcbn; reflexivity| |cbn [fst snd]; intros _; split; dress_unfold; numcbn; reflexivity].
    assert (T := wsum_C_lim quarks (fun b mq' => zp_polarization_quark_l_thermal_part_landau J g om mq' b mu) (fun mq' => zp_polarization_quark_l_thermal_part_zero_temp_landau J g om mq' mu)
      (fun mq' => nth_Forall _ _ 17%nat _ (CC mq') eq_refl)).
    gc L Z 7%nat 9%nat 9%nat ltac:(exact T).
  - eapply (tends3C_intro _ _ _ (RtoC (/ (om * om)))); [intros b; dress_unfold; numcbn; reflexivity| |cbn [fst snd]; intros _; split; dress_unfold; numcbn; reflexivity].
    assert (T := wsum_C_lim quarks (fun b mq' => zp_polarization_quark_t_thermal_part_landau J g om mq' b mu) (fun mq' => zp_polarization_quark_t_thermal_part_zero_temp_landau J g om mq' mu)
      (fun mq' => nth_Forall _ _ 19%nat _ (CC mq') eq_refl)).
    gc L Z 8%nat 11%nat 10%nat ltac:(exact T).
Qed.
End Zp.
Section Zm.
Variables (p mq : R).
Hypothesis Hr : g_matsubara_reg g <> 0.
Hypothesis Hp : 0 < p.
Let K : p <> 0. Proof. lra. Qed.
Let K2 : p * p <> 0. Proof. nra. Qed.
Let CC mq' := cold_R_ok J g mq' mu I0 HJ Hnc p m Hp Hm Hr.
Ltac gl L n k := let H := fresh in
  pose proof (nth_Forall _ _ k _ (CC mq) eq_refl) as H; cbn [fst snd] in H;
  eapply tends_ext; [apply filter_forall; intros b; symmetry; exact (nth_Forall _ _ n _ (L b) eq_refl)|];
  eapply tends_eq; [|apply tends_plus; [apply tends_const|apply tends_mult; [apply tends_const|wsimp; apply tends_plus; [apply tends_mult; [apply tends_const|exact H]|apply tends_const]]]]; cbn [fst snd RtoC3 vac_ghost vac_gluon].
Ltac gq L Z n k kq nz := let H := fresh in let H' := fresh in
  pose proof (nth_Forall _ _ k _ (CC mq) eq_refl) as H; cbn [fst snd] in H;
  pose proof (nth_Forall _ _ kq _ (CC mq) eq_refl) as H'; cbn [fst snd] in H';
  eapply tends_ext; [apply filter_forall; intros b; symmetry; exact (nth_Forall _ _ n _ (L b) eq_refl)|];
  eapply tends_eq; [|apply tends_plus; [apply tends_const|apply tends_mult; [apply tends_const|wsimp; apply tends_plus; [apply tends_mult; [apply tends_const|exact H]|
    apply tends_plus; [apply tends_mult; [apply tends_const|exact H']|apply tends_const]]]]];
  cbn [fst snd]; symmetry; etransitivity; [exact (nth_Forall _ _ nz _ Z eq_refl)|]; wsimp; ring.
Ltac gc L Z n k nz T := let H := fresh in
  pose proof (nth_Forall _ _ k _ (CC mq) eq_refl) as H; cbn [fst snd] in H;
  eapply tends_ext; [apply filter_forall; intros b; symmetry; exact (nth_Forall _ _ n _ (L b) eq_refl)|];
  eapply tends_eq; [|apply tends_plus; [apply tends_const|apply tends_mult; [apply tends_const|
    apply (tends_plus (fun b => _) (fun b => wsum_R (map _ quarks))); [exact (tends_mult (fun _ => 1) _ _ _ (tends_const (1)) H)|T]]]];
  cbn [fst snd]; symmetry; etransitivity; [exact (nth_Forall _ _ nz _ Z eq_refl)|]; ring.
Lemma cold_zm_ok : Forall (fun x => tends3R CINF (fst x) (snd x)) (cold_zm J g p m mq mu f0 (FieldConfig_new nc m quarks)).
Proof.
  assert (L := fun b => zm_reductions_R J g p nc m mq b mu g0 f0 quarks K). unfold zm_reductions in L; cbv zeta in L.
  assert (Z := L 0).
  unfold cold_zm. repeat (apply Forall_cons || apply Forall_nil); cbn [fst snd].
  1,2: (eapply (tends3R_intro _ _ _ (p * p)); [intros b; dress_unfold; numcbn; reflexivity|exact K2| |cbn [fst snd RtoC3 vac_ghost vac_gluon]; intros HV; split; [reflexivity|]; unfold Rdiv; rewrite Rinv_mult, Rmult_comm; reflexivity]).
  - gl L 1%nat 1%nat. numcbn. ring.
  - gl L 2%nat 3%nat. numcbn. ring.
  - eapply (tends3R_intro _ _ _ (p * p)); [intros b; dress_unfold; numcbn; reflexivity|exact K2| |cbn [fst snd]; intros _; split; dress_unfold; numcbn; reflexivity].
    gq L Z 3%nat 1%nat 5%nat 5%nat.
  - eapply (tends3R_intro _ _ _ (p * p)); [intros b; dress_unfold; numcbn; reflexivity|exact K2| |cbn [fst snd]; intros _; split; dress_unfold; numcbn; reflexivity].
    gq L Z 4%nat 3%nat 7%nat 6%nat.
  - eapply (tends3R_intro _ _ _ (p * p)); [intros b; dress_unfold; numcbn; reflexivity|exact K2| |cbn [fst snd]; intros _; split; dress_unfold; numcbn; reflexivity].
    assert (T := wsum_R_lim quarks (fun b mq' => zm_polarization_quark_l_thermal_part_landau J g p mq' b mu) (fun mq' => zm_polarization_quark_l_thermal_part_zero_temp_landau J g p mq' mu)
      (fun mq' => nth_Forall _ _ 5%nat _ (CC mq') eq_refl)).
    gc L Z 7%nat 1%nat 9%nat ltac:(exact T).
  - eapply (tends3R_intro _ _ _ (p * p)); [intros b; dress_unfold; numcbn; reflexivity|exact K2| |cbn [fst snd]; intros _; split; dress_unfold; numcbn; reflexivity].
    assert (T := wsum_R_lim quarks (fun b mq' => zm_polarization_quark_t_thermal_part_landau J g p mq' b mu) (fun mq' => zm_polarization_quark_t_thermal_part_zero_temp_landau J g p mq' mu)
      (fun mq' => nth_Forall _ _ 7%nat _ (CC mq') eq_refl)).
    gc L Z 8%nat 3%nat 10%nat ltac:(exact T).
Qed.
End Zm.
End D.
