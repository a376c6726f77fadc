(** * Zero-Matsubara integrands: real forms, and the limit of vanishing frequency *)
From Coq Require Import Reals Lra Lia List.
From Coquelicot Require Import Coquelicot.
From Verif Require Import Num CField MCommon MThermal MThermalZM MThermalZP MPolar SpecInteg PCplx PDistr PVac PDress2 PCoh PCoh2 PLogs PMass PMassZ PMass2 PReal PForms PForms2 PCombo PComboR PReg PLim PLimC PJoint PJoint2.
Import List ListNotations.
Open Scope R_scope.

Lemma sq_pos x : x <> 0 -> 0 < x * x.
Proof. intros H. exact (Rlt_0_sqr x H). Qed.
Lemma ln_sq_div a b : a <> 0 -> b <> 0 -> ln (a / b * (a / b)) = ln (a * a) - ln (b * b).
Proof.
  intros Ha Hb. rewrite <- ln_div by (now apply sq_pos). f_equal. field. auto.
Qed.
Lemma LA_zero q p e d : nonsing q p d -> RtoC (LA q 0 p e d) = ZL q p (RtoC d).
Proof.
  intros [H1 H2]. rewrite ZL_R, ln_sq_div by auto. unfold LA, NP, NM, Sr. do 3 f_equal; f_equal; ring.
Qed.

Lemma NP0 q p e d : NP q 0 p e d = (p * p + d + 2 * q * p) * (p * p + d + 2 * q * p). Proof. unfold NP, Sr. ring. Qed.
Lemma NM0 q p e d : NM q 0 p e d = (p * p + d - 2 * q * p) * (p * p + d - 2 * q * p). Proof. unfold NM, Sr. ring. Qed.
Lemma Sr0 p d : Sr 0 p d = p * p + d. Proof. unfold Sr. ring. Qed.

Section Forms.
Variables (q p m1 m2 beta : R).
Hypothesis Hq : 0 < q.
Hypothesis Hp : 0 < p.
Hypothesis N1 : nonsing q p (dM m1 m2).
Hypothesis N2 : nonsing q p (- dM m1 m2).
Let e1 := energy q m1.
Let e2 := energy q m2.
Ltac side :=
  repeat match goal with
  | H : ?x <> 0 |- _ => apply RtoC_neq0 in H
  | H : 0 < ?x |- _ => apply Rgt_not_eq, RtoC_neq0 in H
  end;
  repeat split; auto; try (apply RtoC_neq0; lra);
  unfold ZtoC; try (let E := fresh in intros E; match goal with H : ?x <> RtoC 0 |- False => apply H; rewrite <- E; pushRtoC; ring end).
Ltac prep :=
  pose proof (energy_pos' q Hq m1) as He1; pose proof (energy_pos' q Hq m2) as He2;
  canonzm; rewrite ?energy_RC, ?bose_RC;
  replace (RtoC m2 * RtoC m2 - RtoC m1 * RtoC m1)%C with (RtoC (dM m1 m2)) by (unfold dM; now pushRtoC);
  rewrite <- ?(RtoC_opp (dM m1 m2)), <- ?(LA_zero q p (energy q m1) (dM m1 m2)), <- ?(LA_zero q p (energy q m2) (- dM m1 m2)) by assumption;
  unfold F0, Fl, Ft, D0, Dl, Dt, Gl, Gt, G0, GP, GM, HP, HM, U4, U1, X2, Y2, W, nE; rewrite ?NP0, ?NM0, ?Sr0, ?Rmult_0_r, ?Rmult_0_l, ?Rplus_0_l; unfold ZP, ZM;
  destruct N1 as [A1 A2]; destruct N2 as [A3 A4]; revert A1 A2 A3 A4;
  generalize (dM m1 m2); intros d A1 A2 A3 A4;
  pose proof PI2_neq as Hpi; revert Hpi; generalize PI2; intros pi2 Hpi;
  fold e1 e2; fold e1 in He1; fold e2 in He2;
  generalize (bose_distribution_zero_chempot e1 beta); intros b1; generalize (bose_distribution_zero_chempot e2 beta); intros b2;
  revert He1 He2; generalize e1; generalize e2; clear e1 e2; intros e2 e1 He1 He2;
  repeat match goal with
  | |- context [LA q 0 p ?e ?d] => generalize (LA q 0 p e d); intros
  | |- context [PH q 0 p ?e ?d] => generalize (PH q 0 p e d); intros
  end; pushRtoC.
Lemma zform_0 : zm_i_m_m_i q p m1 m2 beta = RtoC (F0 PI2 q 0 p (nE q m1 beta) e1 (nE q m2 beta) e2 (dM m1 m2)).
Proof. rewrite zm_i_m_m_i_RR. prep. field. side. Qed.
Lemma zform_l : zm_i_m_m_l_i q p m1 m2 beta = RtoC (Fl PI2 q 0 p (nE q m1 beta) e1 (nE q m2 beta) e2 (dM m1 m2)).
Proof. rewrite zm_i_m_m_l_i_RR. prep. field. side. Qed.
Lemma zform_t : zm_i_m_m_t_i q p m1 m2 beta = RtoC (Ft PI2 q 0 p (nE q m1 beta) e1 (nE q m2 beta) e2 (dM m1 m2)).
Proof. rewrite zm_i_m_m_t_i_RR. prep. field. side. Qed.
Lemma zform_d0 : zm_d_i_m_m_i q p m1 m2 beta = RtoC (D0 PI2 q 0 p (nE q m1 beta) e1 (nE q m2 beta) e2 (dM m1 m2)).
Proof. rewrite zm_d_i_m_m_i_RR. prep. field. side. Qed.
Lemma zform_dl : zm_d_i_m_m_l_i q p m1 m2 beta = RtoC (Dl PI2 q 0 p (nE q m1 beta) e1 (nE q m2 beta) e2 (dM m1 m2)).
Proof. rewrite zm_d_i_m_m_l_i_RR. prep. field. side. Qed.
Lemma zform_dt : zm_d_i_m_m_t_i q p m1 m2 beta = RtoC (Dt PI2 q 0 p (nE q m1 beta) e1 (nE q m2 beta) e2 (dM m1 m2)).
Proof. rewrite zm_d_i_m_m_t_i_RR. prep. field. side. Qed.
End Forms.

Section ListForms.
Variables (q p beta : R).
Hypothesis Hq : 0 < q.
Hypothesis Hp : 0 < p.
Lemma zm_mm_form (m1 m2 : R) : nonsing q p (dM m1 m2) -> nonsing q p (- dM m1 m2) -> zm_bubbles_mm q p m1 m2 beta =
  map RtoC (FL PI2 q 0 p (nE q m1 beta) (energy q m1) (nE q m2 beta) (energy q m2) (dM m1 m2)).
Proof.
  intros H1 H2. unfold zm_bubbles_mm, FL. cbn [map].
  now rewrite zform_0, zform_l, zform_t, zform_d0, zform_dl, zform_dt.
Qed.
Lemma zm_same_form (m : R) : nonsing q p 0 -> zm_bubbles_same q p m beta = map RtoC (FL PI2 q 0 p (nE q m beta) (energy q m) (nE q m beta) (energy q m) 0).
Proof.
  intros H. destruct (special_zm_R q m p beta Hq (Rgt_not_eq _ _ Hp)) as (E & _). rewrite <- E, zm_mm_form; rewrite dM_same; rewrite ?Ropp_0; auto.
Qed.
Lemma zm_m0_form (m : R) : nonsing q p (m * m) -> nonsing q p (- (m * m)) -> zm_bubbles_m0 q p m beta = map RtoC (FL PI2 q 0 p (nE q m beta) (energy q m) (n0 q beta) q (- (m * m))).
Proof.
  intros H1 H2. destruct (special_zm_R q m p beta Hq (Rgt_not_eq _ _ Hp)) as (_ & E & _). rewrite <- E, zm_mm_form; rewrite dM_m0; rewrite ?Ropp_involutive; auto.
  now rewrite nE_0, energy_0R.
Qed.
Lemma zm_zero_form : nonsing q p 0 -> zm_bubbles_0 q p beta = map RtoC (FL PI2 q 0 p (n0 q beta) q (n0 q beta) q 0).
Proof.
  intros H. destruct (special_zm_R q 0 p beta Hq (Rgt_not_eq _ _ Hp)) as (_ & _ & E). rewrite <- E.
  assert (Hz : 0 * 0 = 0) by ring. rewrite zm_m0_form; rewrite Hz, ?Ropp_0; auto. now rewrite nE_0, energy_0R.
Qed.
Lemma zm_quark_l_form nc (mq mu : R) : (0 < nc)%nat -> nonsing q p 0 ->
  zm_polarization_quark_l_thermal_part_landau_i nc q p mq beta mu = FQl PI2 (INR nc) q 0 p (energy q mq) (fermi_distribution_double (energy q mq) beta mu).
Proof.
  intros Hnc HN. unfold zm_polarization_quark_l_thermal_part_landau_i, FQl.
  assert (E : zm_tlog_same_mass q p = LA q 0 p (energy q mq) 0).
  { pose proof (LA_zero q p (energy q mq) 0 HN) as E. rewrite ZL_0 in E by lra. now inversion E. }
  rewrite E. pose proof PI2_neq as Hpi. revert Hpi. pose proof (energy_pos' q Hq mq) as He. numcbn. generalize PI2. intros pi2 Hpi. field.
  repeat split; try lra. apply not_0_INR; lia.
Qed.
Lemma zm_quark_t_form nc (mq mu : R) : (0 < nc)%nat -> nonsing q p 0 ->
  zm_polarization_quark_t_thermal_part_landau_i nc q p mq beta mu = FQt PI2 (INR nc) q 0 p (energy q mq) (fermi_distribution_double (energy q mq) beta mu).
Proof.
  intros Hnc HN. unfold zm_polarization_quark_t_thermal_part_landau_i, FQt.
  assert (E : zm_tlog_same_mass q p = LA q 0 p (energy q mq) 0).
  { pose proof (LA_zero q p (energy q mq) 0 HN) as E. rewrite ZL_0 in E by lra. now inversion E. }
  rewrite E. pose proof PI2_neq as Hpi. revert Hpi. pose proof (energy_pos' q Hq mq) as He. numcbn. generalize PI2. intros pi2 Hpi. field.
  repeat split; try lra. apply not_0_INR; lia.
Qed.
Lemma zm_quark0_l_form nc (mq mu : R) : (0 < nc)%nat -> nonsing q p 0 ->
  zm_polarization_quark_l_thermal_part_zero_temp_landau_i nc q p mq mu = FQl PI2 (INR nc) q 0 p (energy q mq) (fermi_distribution_double_zero_temp (energy q mq) mu).
Proof.
  intros Hnc HN. unfold zm_polarization_quark_l_thermal_part_zero_temp_landau_i, FQl.
  assert (E : zm_tlog_same_mass q p = LA q 0 p (energy q mq) 0).
  { pose proof (LA_zero q p (energy q mq) 0 HN) as E. rewrite ZL_0 in E by lra. now inversion E. }
  rewrite E. pose proof PI2_neq as Hpi. revert Hpi. pose proof (energy_pos' q Hq mq) as He. numcbn. generalize PI2. intros pi2 Hpi. field.
  repeat split; try lra. apply not_0_INR; lia.
Qed.
Lemma zm_quark0_t_form nc (mq mu : R) : (0 < nc)%nat -> nonsing q p 0 ->
  zm_polarization_quark_t_thermal_part_zero_temp_landau_i nc q p mq mu = FQt PI2 (INR nc) q 0 p (energy q mq) (fermi_distribution_double_zero_temp (energy q mq) mu).
Proof.
  intros Hnc HN. unfold zm_polarization_quark_t_thermal_part_zero_temp_landau_i, FQt.
  assert (E : zm_tlog_same_mass q p = LA q 0 p (energy q mq) 0).
  { pose proof (LA_zero q p (energy q mq) 0 HN) as E. rewrite ZL_0 in E by lra. now inversion E. }
  rewrite E. pose proof PI2_neq as Hpi. revert Hpi. pose proof (energy_pos' q Hq mq) as He. numcbn. generalize PI2. intros pi2 Hpi. field.
  repeat split; try lra. apply not_0_INR; lia.
Qed.
End ListForms.

(** ** The limit *)
Section Limit.
Context {F : (R -> Prop) -> Prop} {FF : Filter F}.
Variables (fom : R -> R) (q p : R).
Hypothesis Tom : tends F fom 0.
Hypothesis Nom : F (fun x => fom x <> 0).
Hypothesis Hq : 0 < q.
Hypothesis Hp : 0 < p.

Lemma LA_tends0 e d : nonsing q p d -> tends F (fun x => LA q (fom x) p e d) (LA q 0 p e d).
Proof.
  intros [H1 H2]. apply (LA_tends (fun _ => q) fom (fun _ => p) q 0 p (tends_const q) Tom (tends_const p) (fun _ => e) e d (tends_const e)).
  - rewrite NP0. now apply sq_pos.
  - rewrite NM0. now apply sq_pos.
Qed.
Lemma PH_tends0 e d : tends F (fun x => fom x * PH q (fom x) p e d) 0.
Proof.
  apply (tends_bounded _ _ PI); auto. revert Nom. apply filter_imp. intros x Hx. now apply PH_bound.
Qed.
(** Terms linear in the phase, all with a factor om. *)
Lemma Y2PH_tends0 e d : tends F (fun x => PH q (fom x) p e d * Y2 (fom x) p e d) (PH q 0 p e d * Y2 0 p e d).
Proof.
  pose proof (PH_tends0 e d) as H. apply (tends_ext (fun x => fom x * PH q (fom x) p e d * (2 * Sr (fom x) p d * W (fom x) p e))).
  { apply filter_forall. intros x. unfold Y2. ring. }
  apply (tends_eq _ (0 * (2 * Sr 0 p d * W 0 p e))). { unfold Y2. ring. }
  unfold Sr, W. apply tends_mult; [assumption|tendf].
Qed.
Lemma SePH_tends0 e d : tends F (fun x => PH q (fom x) p e d * (2 * Sr (fom x) p d * (2 * e * fom x))) (PH q 0 p e d * (2 * Sr 0 p d * (2 * e * 0))).
Proof.
  pose proof (PH_tends0 e d) as H. apply (tends_ext (fun x => fom x * PH q (fom x) p e d * (4 * Sr (fom x) p d * e))).
  { apply filter_forall. intros x. ring. }
  apply (tends_eq _ (0 * (4 * Sr 0 p d * e))). { ring. }
  unfold Sr. apply tends_mult; [assumption|tendf].
Qed.
Lemma ePH_tends0 e d : tends F (fun x => 2 * e * fom x * PH q (fom x) p e d) (2 * e * 0 * PH q 0 p e d).
Proof.
  pose proof (PH_tends0 e d) as H. apply (tends_ext (fun x => 2 * e * (fom x * PH q (fom x) p e d))).
  { apply filter_forall. intros x. ring. }
  apply (tends_eq _ (2 * e * 0)). { ring. }
  apply tends_mult; [tendf|assumption].
Qed.
Lemma Sr_tends0 d : tends F (fun x => Sr (fom x) p d) (Sr 0 p d).
Proof. unfold Sr. tendf. Qed.
Lemma G0_tends0 e d : nonsing q p d -> tends F (fun x => G0 q (fom x) p e d) (G0 q 0 p e d).
Proof. intros H. pose proof (LA_tends0 e d H). unfold G0. tendf. Qed.
Lemma X2_tends0 e d : tends F (fun x => X2 (fom x) p e d) (X2 0 p e d).
Proof. unfold X2, W, Sr. tendf. Qed.
Lemma Y2_tends0 e d : tends F (fun x => Y2 (fom x) p e d) (Y2 0 p e d).
Proof. unfold Y2, W, Sr. tendf. Qed.
Lemma Gl_tends0 e d : nonsing q p d -> tends F (fun x => Gl q (fom x) p e d) (Gl q 0 p e d).
Proof.
  intros H. pose proof (LA_tends0 e d H). pose proof (Y2PH_tends0 e d). pose proof (X2_tends0 e d). pose proof (Sr_tends0 d).
  unfold Gl. apply tends_minus; [|tendf]. apply tends_mult; [tendf|]. apply tends_minus; [tendf|assumption].
Qed.
Lemma Gt_tends0 e d : nonsing q p d -> tends F (fun x => Gt q (fom x) p e d) (Gt q 0 p e d).
Proof.
  intros H. pose proof (LA_tends0 e d H). pose proof (SePH_tends0 e d). pose proof (Sr_tends0 d).
  unfold Gt. apply tends_minus; [|tendf]. apply tends_mult; [tendf|]. apply tends_minus; [tendf|assumption].
Qed.
Lemma NP_tends0 e d : tends F (fun x => NP q (fom x) p e d) (NP q 0 p e d).
Proof. unfold NP, Sr. tendf. Qed.
Lemma NM_tends0 e d : tends F (fun x => NM q (fom x) p e d) (NM q 0 p e d).
Proof. unfold NM, Sr. tendf. Qed.
Lemma NPnz e d : nonsing q p d -> NP q 0 p e d <> 0.
Proof. intros [H _]. rewrite NP0. now apply Rmult_integral_contrapositive_currified. Qed.
Lemma NMnz e d : nonsing q p d -> NM q 0 p e d <> 0.
Proof. intros [_ H]. rewrite NM0. now apply Rmult_integral_contrapositive_currified. Qed.
Ltac blk e d H := pose proof (NP_tends0 e d); pose proof (NM_tends0 e d); pose proof (X2_tends0 e d); pose proof (Y2_tends0 e d); pose proof (Sr_tends0 d).
Lemma GP_tends0 e d : nonsing q p d -> tends F (fun x => GP q (fom x) p e d) (GP q 0 p e d).
Proof. intros H. blk e d H. unfold GP. tendf. now apply NPnz. Qed.
Lemma GM_tends0 e d : nonsing q p d -> tends F (fun x => GM q (fom x) p e d) (GM q 0 p e d).
Proof. intros H. blk e d H. unfold GM. tendf. now apply NMnz. Qed.
Lemma HP_tends0 e d : nonsing q p d -> tends F (fun x => HP q (fom x) p e d) (HP q 0 p e d).
Proof. intros H. blk e d H. unfold HP. tendf. now apply NPnz. Qed.
Lemma HM_tends0 e d : nonsing q p d -> tends F (fun x => HM q (fom x) p e d) (HM q 0 p e d).
Proof. intros H. blk e d H. unfold HM. tendf. now apply NMnz. Qed.
Lemma U1_tends0 e d : nonsing q p d -> tends F (fun x => U1 q (fom x) p e d) (U1 q 0 p e d).
Proof.
  intros H. pose proof (LA_tends0 e d H). pose proof (ePH_tends0 e d). pose proof (Sr_tends0 d).
  unfold U1. apply tends_mult; [tendf|]. apply tends_minus; [tendf|assumption].
Qed.
Lemma U4_tends0 e d : nonsing q p d -> tends F (fun x => U4 q (fom x) p e d) (U4 q 0 p e d).
Proof.
  intros H. pose proof (LA_tends0 e d H). pose proof (PH_tends0 e d) as HPH. pose proof (Sr_tends0 d).
  apply (tends_ext (fun x => 2 * fom x * fom x * Sr (fom x) p d * LA q (fom x) p e d - 2 * W (fom x) p e * (fom x * PH q (fom x) p e d))).
  { apply filter_forall. intros x. unfold U4. ring. }
  apply (tends_eq _ (2 * 0 * 0 * Sr 0 p d * LA q 0 p e d - 2 * W 0 p e * 0)). { unfold U4. ring. }
  unfold W. apply tends_minus; [tendf|]. apply tends_mult; [tendf|assumption].
Qed.
Lemma FL_tends0 pi2 n1 e1 n2 e2 d : pi2 <> 0 -> nonsing q p d -> nonsing q p (- d) ->
  forall n, tends F (fun x => nth n (FL pi2 q (fom x) p n1 e1 n2 e2 d) 0) (nth n (FL pi2 q 0 p n1 e1 n2 e2 d) 0).
Proof.
  intros Hpi H1 H2. assert (Hp2 : 0 < p * p) by (apply Rmult_lt_0_compat; lra).
  assert (Hs : 0 * 0 + p * p <> 0) by lra.
  pose proof (G0_tends0 e1 d H1). pose proof (G0_tends0 e2 (- d) H2). pose proof (Gl_tends0 e1 d H1). pose proof (Gl_tends0 e2 (- d) H2).
  pose proof (Gt_tends0 e1 d H1). pose proof (Gt_tends0 e2 (- d) H2). pose proof (GP_tends0 e1 d H1). pose proof (GP_tends0 e2 (- d) H2).
  pose proof (GM_tends0 e1 d H1). pose proof (GM_tends0 e2 (- d) H2). pose proof (HP_tends0 e1 d H1). pose proof (HP_tends0 e2 (- d) H2).
  pose proof (HM_tends0 e1 d H1). pose proof (HM_tends0 e2 (- d) H2). pose proof (U1_tends0 e1 d H1). pose proof (U1_tends0 e2 (- d) H2).
  pose proof (U4_tends0 e1 d H1). pose proof (U4_tends0 e2 (- d) H2). pose proof (Sr_tends0 d).
  unfold FL. intros [|[|[|[|[|[|[|n]]]]]]]; cbn [nth]; [| | | | | |apply tends_const|apply tends_const];
    unfold F0, Fl, Ft, D0, Dl, Dt; tendf; try lra; repeat apply Rmult_integral_contrapositive_currified; lra.
Qed.
End Limit.
