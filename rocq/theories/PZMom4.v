(** * The zero-momentum integrands are the limits for p -> 0+: list form *)
From Coq Require Import Reals Lra Lia List.
From Coquelicot Require Import Coquelicot.
From Verif Require Import Num CField MCommon MThermal MThermalZM MThermalZP MPolar SpecInteg PCplx PDistr PVac PDress2 PCoh PCoh2 PLogs PMass PMassZ PMass2 PReal PForms2 PCombo PComboR SpecLim SpecZMom PLim PLimC PForms PExInteg PZMom PZMom2 PZMom3.
Import List ListNotations.
Open Scope R_scope.
Notation nn k l := (nth k l (RtoC 0)).

Lemma energyC_sq q (m : C) : (energy q m * energy q m)%C = (m * m + RtoC q * RtoC q)%C.
Proof. unfold energy, energy_squared. numcbn. rewrite Csqrt_sqr. pushRtoC. reflexivity. Qed.
Lemma off_regular q (om m1 m2 : C) : off_resonance q om m1 m2 -> regular0 om (energy q m1) (m2 * m2 - m1 * m1)%C /\ regular0 om (energy q m2) (- (m2 * m2 - m1 * m1))%C.
Proof.
  unfold off_resonance, regular0, CR. intros H. pose proof (energyC_sq q m1) as E1. pose proof (energyC_sq q m2) as E2.
  revert E1 E2. generalize (energy q m1 : C). intros e1. generalize (energy q m2 : C). intros e2 E1 E2.
  repeat split; intros X; apply H.
  - transitivity ((om * om + RtoC 0 * RtoC 0 + (m2 * m2 - m1 * m1) + RtoC 2 * Ci * om * e1) * (om * om + (m2 * m2 - m1 * m1) - RtoC 2 * Ci * om * e1))%C; [ring [Ci2 E1]|]. 
    etransitivity; [|apply (Cmult_0_l (om * om + (m2 * m2 - m1 * m1) - RtoC 2 * Ci * om * e1)%C)]. f_equal. etransitivity; [|exact X]. ring.
  - transitivity ((om * om + (m2 * m2 - m1 * m1) + RtoC 2 * Ci * om * e1) * (om * om + (m2 * m2 - m1 * m1) - RtoC 2 * Ci * om * e1))%C; [ring [Ci2 E1]|]. 
    etransitivity; [|apply (Cmult_0_r (om * om + (m2 * m2 - m1 * m1) + RtoC 2 * Ci * om * e1)%C)]. f_equal. etransitivity; [|exact X]. ring.
  - transitivity ((om * om - (m2 * m2 - m1 * m1) + RtoC 2 * Ci * om * e2) * (om * om - (m2 * m2 - m1 * m1) - RtoC 2 * Ci * om * e2))%C; [ring [Ci2 E2]|]. 
    etransitivity; [|apply (Cmult_0_l (om * om - (m2 * m2 - m1 * m1) - RtoC 2 * Ci * om * e2)%C)]. f_equal. etransitivity; [|exact X]. ring.
  - transitivity ((om * om - (m2 * m2 - m1 * m1) + RtoC 2 * Ci * om * e2) * (om * om - (m2 * m2 - m1 * m1) - RtoC 2 * Ci * om * e2))%C; [ring [Ci2 E2]|]. 
    etransitivity; [|apply (Cmult_0_r (om * om - (m2 * m2 - m1 * m1) + RtoC 2 * Ci * om * e2)%C)]. f_equal. etransitivity; [|exact X]. ring.
Qed.
Lemma off_R q (om m1 m2 : R) : 0 < q -> om <> 0 -> off_resonance q (RtoC om) (RtoC m1) (RtoC m2).
Proof.
  intros Hq Ho. unfold off_resonance. rewrite <- ?RtoC_mult, <- ?RtoC_minus, <- ?RtoC_mult, <- ?RtoC_plus, <- ?RtoC_mult, <- ?RtoC_plus. apply RtoC_neq0.
  assert (0 < om * om) by nra. assert (0 <= (m2 * m2 - m1 * m1) * (m2 * m2 - m1 * m1)) by (apply Rle_0_sqr). nra.
Qed.

Section C.
Variables (q : R) (om : C) (beta : R).
Hypothesis Hq : 0 < q.
Hypothesis Hom : om <> RtoC 0.
Lemma mm_lim (m1 m2 : C) : off_resonance q om m1 m2 -> forall n, tendsC Z0 (fun p => nn n (bubbles_mm q om p m1 m2 beta)) (nn n (zp_bubbles_mm q om m1 m2 beta)).
Proof.
  intros H. destruct (off_regular _ _ _ _ H) as [R1 R2]. apply nth_tendsC; [typeclasses eauto|intros; reflexivity|]. intros n Hn. unfold bubbles_mm, zp_bubbles_mm.
  destruct n as [|[|[|[|[|[|n]]]]]]; cbn [nth]; [apply l_0|apply l_l|apply l_t|apply l_d0|apply l_dl|apply l_dt|simpl in Hn; lia]; auto.
Qed.
Lemma ev_sp : Z0 (fun p => 0 < p /\ p <> 0 /\ (om * om + RtoC (p * p))%C <> RtoC 0).
Proof.
  generalize (filter_and _ _ ev_p (ev_s om Hom)). apply filter_imp. intros p [H1 H2]. rewrite RtoC_mult. repeat split; auto. lra.
Qed.
Lemma same_lim (m : C) : off_resonance q om m m -> forall n, tendsC Z0 (fun p => nn n (bubbles_same q om p m beta)) (nn n (zp_bubbles_same q om m beta)).
Proof.
  intros H n. rewrite <- (proj1 (special_zp_C q om m beta Hq)). apply (tendsC_ext (fun p => nn n (bubbles_mm q om p m m beta))); [|now apply mm_lim].
  generalize ev_sp. apply filter_imp. intros p (_ & Hp & Hs). now rewrite (proj1 (special_C q om m p beta Hq Hp Hs)).
Qed.
Lemma m0_lim (m : C) : off_resonance q om m (RtoC 0) -> forall n, tendsC Z0 (fun p => nn n (bubbles_m0 q om p m beta)) (nn n (zp_bubbles_m0 q om m beta)).
Proof.
  intros H n. rewrite <- (proj1 (proj2 (special_zp_C q om m beta Hq))). apply (tendsC_ext (fun p => nn n (bubbles_mm q om p m (RtoC 0) beta))); [|now apply mm_lim].
  generalize ev_sp. apply filter_imp. intros p (_ & Hp & Hs). now rewrite (proj1 (proj2 (special_C q om m p beta Hq Hp Hs))).
Qed.
Lemma zero_lim : off_resonance q om (RtoC 0) (RtoC 0) -> forall n, tendsC Z0 (fun p => nn n (bubbles_0 q om p beta)) (nn n (zp_bubbles_0 q om beta)).
Proof.
  intros H n. rewrite <- (proj2 (proj2 (special_zp_C q om (RtoC 0) beta Hq))). apply (tendsC_ext (fun p => nn n (bubbles_m0 q om p (RtoC 0) beta))); [|now apply m0_lim].
  generalize ev_sp. apply filter_imp. intros p (_ & Hp & Hs). now rewrite (proj2 (proj2 (special_C q om (RtoC 0) p beta Hq Hp Hs))).
Qed.
Lemma glue_lim (m : R) : off_resonance q om (RtoC m) (RtoC m) -> off_resonance q om (RtoC m) (RtoC 0) -> off_resonance q om (RtoC 0) (RtoC 0) ->
  forall n, tendsC Z0 (fun p => nn n (glue_parts q om p m beta)) (nn n (zp_glue_parts q om m beta)).
Proof.
  intros H1 H2 H3 n. rewrite zp_glue_GLUE.
  eapply tendsC_ext. { apply filter_forall. intros p. rewrite glue_GLUE. reflexivity. }
  pose proof (tends_id_right 0) as Ti.
  assert (Ts : tendsC Z0 (fun p => sC om p) (om * om)%C).
  { unfold sC. eapply tendsC_eq; [|tendCf]. ring. }
  assert (Ho2 : (om * om)%C <> RtoC 0) by now apply Cmult_neq_0.
  apply (GLUE_tends _ _ (fun p => sC om p) (fun p => (/ sC om p * (om * om))%C) (fun p => (/ sC om p * (RtoC p * RtoC p))%C) (fun p => bubbles_same q om p m beta) (fun p => bubbles_m0 q om p m beta) (fun p => bubbles_0 q om p beta)
    (fun _ => map RtoC (tadpoles q m beta)) (fun _ => map RtoC (tadpoles_0 q beta))); auto.
  - apply (tendsC_eq _ (/ (om * om) * (om * om))%C); [field; auto|]. apply tendsC_mult; [apply tendsC_inv; auto|apply tendsC_const].
  - apply (tendsC_eq _ (/ (om * om) * (RtoC 0 * RtoC 0))%C); [field; auto|]. apply tendsC_mult; [apply tendsC_inv; auto|tendCf].
  - intros k. rewrite zp_same_CR. eapply tendsC_ext; [|apply (same_lim (RtoC m) H1 k)]. apply filter_forall. intros p. now rewrite same_CR.
  - intros k. rewrite zp_m0_CR. eapply tendsC_ext; [|apply (m0_lim (RtoC m) H2 k)]. apply filter_forall. intros p. now rewrite m0_CR.
  - apply zero_lim; auto.
  - intros k. apply tendsC_const.
  - intros k. apply tendsC_const.
Qed.
Lemma quark_lim nc (mq mu : R) : (0 < nc)%nat -> off_resonance q om (RtoC mq) (RtoC mq) ->
  forall n, tendsC Z0 (fun p => nn n (quark_parts nc q om p mq beta mu)) (nn n (zp_quark_parts nc q om mq beta mu)) /\
   tendsC Z0 (fun p => nn n (quark_parts_zero_temp nc q om p mq mu)) (nn n (zp_quark_parts_zero_temp nc q om mq mu)).
Proof.
  intros Hnc H n. destruct (off_regular _ _ _ _ H) as [Rg _]. rewrite energy_RC in Rg. replace (RtoC mq * RtoC mq - RtoC mq * RtoC mq)%C with (RtoC 0) in Rg by ring.
  split; revert n; (apply nth_tendsC; [typeclasses eauto|intros; reflexivity|]); intros n Hn; unfold quark_parts, zp_quark_parts, quark_parts_zero_temp, zp_quark_parts_zero_temp;
  (destruct n as [|[|n]]; cbn [nth]; [| |simpl in Hn; lia]).
  - rewrite zq_l by auto. eapply tendsC_ext; [|apply q_tl; auto]. generalize ev_p. apply filter_imp. intros p Hp. symmetry. now apply fq_l.
  - unfold zp_polarization_quark_t_thermal_part_landau_i. rewrite zq_l by auto. eapply tendsC_ext; [|apply q_tt; auto]. generalize ev_p. apply filter_imp. intros p Hp. symmetry. now apply fq_t.
  - rewrite zq0_l by auto. eapply tendsC_ext; [|apply q_tl; auto]. generalize ev_p. apply filter_imp. intros p Hp. symmetry. now apply fq0_l.
  - unfold zp_polarization_quark_t_thermal_part_zero_temp_landau_i. rewrite zq0_l by auto. eapply tendsC_ext; [|apply q_tt; auto]. generalize ev_p. apply filter_imp. intros p Hp. symmetry. now apply fq0_t.
Qed.
End C.

Section R.
Variables (q : R) (om : R) (beta : R).
Hypothesis Hq : 0 < q.
Hypothesis Hom : om <> 0.
Let HomC := RtoC_neq0 om Hom.
Ltac ext E L := eapply tendsC_ext; [|exact L]; apply filter_forall; intros p; now rewrite E.
Lemma lim_mm_R (m1 m2 : R) n : tendsC Z0 (fun p => nn n (bubbles_mm q om p m1 m2 beta)) (nn n (zp_bubbles_mm q om m1 m2 beta)).
Proof. rewrite zp_mm_RRR. ext mm_RRR (mm_lim q (RtoC om) beta HomC (RtoC m1) (RtoC m2) (off_R q om m1 m2 Hq Hom) n). Qed.
Lemma lim_same_R (m : R) n : tendsC Z0 (fun p => nn n (bubbles_same q om p m beta)) (nn n (zp_bubbles_same q om m beta)).
Proof. rewrite zp_same_RR. ext same_RR (same_lim q (RtoC om) beta Hq HomC (RtoC m) (off_R q om m m Hq Hom) n). Qed.
Lemma lim_m0_R (m : R) n : tendsC Z0 (fun p => nn n (bubbles_m0 q om p m beta)) (nn n (zp_bubbles_m0 q om m beta)).
Proof. rewrite zp_m0_RR. ext m0_RR (m0_lim q (RtoC om) beta Hq HomC (RtoC m) (off_R q om m 0 Hq Hom) n). Qed.
Lemma lim_0_R n : tendsC Z0 (fun p => nn n (bubbles_0 q om p beta)) (nn n (zp_bubbles_0 q om beta)).
Proof. rewrite zp_zero_R. ext zero_R (zero_lim q (RtoC om) beta Hq HomC (off_R q om 0 0 Hq Hom) n). Qed.
Lemma lim_glue_R (m : R) n : tendsC Z0 (fun p => nn n (glue_parts q om p m beta)) (nn n (zp_glue_parts q om m beta)).
Proof. rewrite zp_glue_R. ext glue_R (glue_lim q (RtoC om) beta Hq HomC m (off_R q om m m Hq Hom) (off_R q om m 0 Hq Hom) (off_R q om 0 0 Hq Hom) n). Qed.
Lemma lim_quark_R nc (mq mu : R) n : (0 < nc)%nat ->
  tendsC Z0 (fun p => nn n (quark_parts nc q om p mq beta mu)) (nn n (zp_quark_parts nc q om mq beta mu)) /\
  tendsC Z0 (fun p => nn n (quark_parts_zero_temp nc q om p mq mu)) (nn n (zp_quark_parts_zero_temp nc q om mq mu)).
Proof.
  intros Hnc. rewrite zp_quark_R, zp_quark0_R. destruct (quark_lim q (RtoC om) beta Hq HomC nc mq mu Hnc (off_R q om mq mq Hq Hom) n) as [L1 L2].
  split; [ext quark_R L1|ext quark0_R L2].
Qed.
End R.

Lemma lims_R q om beta (m1 m2 m : R) : 0 < q -> om <> 0 -> forall n,
  tendsC Z0 (fun p => nn n (bubbles_mm q om p m1 m2 beta)) (nn n (zp_bubbles_mm q om m1 m2 beta)) /\
  tendsC Z0 (fun p => nn n (bubbles_same q om p m beta)) (nn n (zp_bubbles_same q om m beta)) /\
  tendsC Z0 (fun p => nn n (bubbles_m0 q om p m beta)) (nn n (zp_bubbles_m0 q om m beta)) /\
  tendsC Z0 (fun p => nn n (bubbles_0 q om p beta)) (nn n (zp_bubbles_0 q om beta)).
Proof. intros Hq Ho n. exact (conj (lim_mm_R q om beta Hq Ho m1 m2 n) (conj (lim_same_R q om beta Hq Ho m n) (conj (lim_m0_R q om beta Hq Ho m n) (lim_0_R q om beta Hq Ho n)))). Qed.
Lemma lims_C q (om : C) beta : 0 < q -> om <> RtoC 0 -> forall n,
  (forall m1 m2 : C, off_resonance q om m1 m2 -> tendsC Z0 (fun p => nn n (bubbles_mm q om p m1 m2 beta)) (nn n (zp_bubbles_mm q om m1 m2 beta))) /\
  (forall m : C, off_resonance q om m m -> tendsC Z0 (fun p => nn n (bubbles_same q om p m beta)) (nn n (zp_bubbles_same q om m beta))) /\
  (forall m : C, off_resonance q om m (RtoC 0) -> tendsC Z0 (fun p => nn n (bubbles_m0 q om p m beta)) (nn n (zp_bubbles_m0 q om m beta))) /\
  (off_resonance q om (RtoC 0) (RtoC 0) -> tendsC Z0 (fun p => nn n (bubbles_0 q om p beta)) (nn n (zp_bubbles_0 q om beta))).
Proof.
  intros Hq Ho n. repeat split.
  all: first [apply (mm_lim q om beta Ho _ _ H n)|apply (same_lim q om beta Hq Ho _ H n)|apply (m0_lim q om beta Hq Ho _ H n)|apply (zero_lim q om beta Hq Ho H n)].
Qed.
(** The projections at small momentum differ by arbitrarily little. *)
Lemma lt_agree q om beta (m1 m2 m : R) : 0 < q -> om <> 0 ->
  tendsC Z0 (fun p => nn 1 (bubbles_mm q om p m1 m2 beta) - nn 2 (bubbles_mm q om p m1 m2 beta))%C (RtoC 0) /\
  tendsC Z0 (fun p => nn 4 (bubbles_mm q om p m1 m2 beta) - nn 5 (bubbles_mm q om p m1 m2 beta))%C (RtoC 0) /\
  tendsC Z0 (fun p => nn 1 (glue_parts q om p m beta) - nn 2 (glue_parts q om p m beta))%C (RtoC 0).
Proof.
  intros Hq Ho. pose proof (lim_mm_R q om beta Hq Ho m1 m2) as L. pose proof (lim_glue_R q om beta Hq Ho m) as G. split; [|split].
  - eapply tendsC_eq; [|exact (tendsC_minus _ _ _ _ (L 1%nat) (L 2%nat))]. apply Cplus_opp_r.
  - eapply tendsC_eq; [|exact (tendsC_minus _ _ _ _ (L 4%nat) (L 5%nat))]. apply Cplus_opp_r.
  - eapply tendsC_eq; [|exact (tendsC_minus _ _ _ _ (G 1%nat) (G 2%nat))]. apply Cplus_opp_r.
Qed.
Lemma lt_agree_quark q om beta nc (mq mu : R) : 0 < q -> om <> 0 -> (0 < nc)%nat ->
  tendsC Z0 (fun p => nn 0 (quark_parts nc q om p mq beta mu) - nn 1 (quark_parts nc q om p mq beta mu))%C (RtoC 0) /\
  tendsC Z0 (fun p => nn 0 (quark_parts_zero_temp nc q om p mq mu) - nn 1 (quark_parts_zero_temp nc q om p mq mu))%C (RtoC 0).
Proof.
  intros Hq Ho Hn. pose proof (fun n => lim_quark_R q om beta Hq Ho nc mq mu n Hn) as L. split.
  - eapply tendsC_eq; [|exact (tendsC_minus _ _ _ _ (proj1 (L 0%nat)) (proj1 (L 1%nat)))]. apply Cplus_opp_r.
  - eapply tendsC_eq; [|exact (tendsC_minus _ _ _ _ (proj2 (L 0%nat)) (proj2 (L 1%nat)))]. apply Cplus_opp_r.
Qed.

Lemma ex_zp_val : zp_i_0_0_i 1 (1 : R) 1 = RtoC (1 / (5 * (PI * PI) * (exp 1 - 1))).
Proof.
  assert (He : exp 1 - 1 <> 0) by (pose proof (exp_ineq1 1 ltac:(lra)); lra).
  unfold zp_i_0_0_i. cbv zeta. rewrite bose_val, Rmult_1_l. numcbn. change PI2 with (PI * PI).
  assert (E : (/ (RtoC (1 * 1) + RtoC 1 * (RtoC 1 * Ci * RtoC 2)) + / (RtoC (1 * 1) - RtoC 1 * (RtoC 1 * Ci * RtoC 2)))%C = RtoC (2 / 5)).
  { apply Ceq; simpl; field. }
  rewrite E. rewrite <- !RtoC_mult, <- RtoC_div by (pose proof PI_neq0; nra). f_equal. pose proof PI_neq0. field. auto.
Qed.
Lemma ex_zp : tendsC Z0 (fun p => i_0_0_i 1 (1 : R) p 1) (RtoC (1 / (5 * (PI * PI) * (exp 1 - 1)))).
Proof.
  rewrite <- ex_zp_val. assert (H1 : 1 <> 0) by lra. exact (lim_0_R 1 1 1 Rlt_0_1 H1 0).
Qed.
