(** * Packaging of the comparison with the Python reference *)
From Coq Require Import Reals List Lra Lia.
From Coquelicot Require Import Coquelicot.
From Verif Require Import Num CField MCommon MVacuum MThermal MThermalZM MThermalZP MPolar SpecVac SpecInteg SpecNumerics PCplx PDistr PVac PVac2 PVac3 PCoh PMass PMassZ PMass2 PNumerics PNumVac PReg PCombo PExInteg PExInteg2.
Import List ListNotations.
Open Scope R_scope.

Lemma energy_neq q (m : C) : (RtoC q * RtoC q + m * m)%C <> RtoC 0 -> energy q m <> RtoC 0.
Proof. intros H E. apply H. rewrite <- en_sq, E. ring. Qed.
Lemma s_neq (om p : R) : p <> 0 -> (RtoC om * RtoC om + RtoC (p * p))%C <> RtoC 0.
Proof.
  intros H E. apply (f_equal fst) in E. simpl in E. apply Rsqr_pos_lt in H. unfold Rsqr in H. pose proof (Rle_0_sqr om). unfold Rsqr in *. lra.
Qed.

Lemma np_vac_C s : off_cut s ->
  gh_g s = (py_g s / RtoC 12)%C /\ gl_f s = py_f s /\ gl_f_xi s = py_f_xi s /\ gl_f_q s = py_f_q s /\ gl_f_q_crossed s = py_f_q_crossed s.
Proof. intros H. apply off_cut_slit in H. repeat split; auto using vac_g, vac_f, vac_f_xi, vac_f_q, vac_f_q_crossed. Qed.
Lemma np_vac_R s : 0 < s ->
  RtoC (gh_g s) = (py_g s / RtoC 12)%C /\ RtoC (gl_f s) = py_f s /\ RtoC (gl_f_xi s) = py_f_xi s /\ RtoC (gl_f_q s) = py_f_q s /\ RtoC (gl_f_q_crossed s) = py_f_q_crossed s.
Proof.
  intros H. pose proof (slit_RtoC s H) as K. rewrite <- gh_g_RC, <- gl_f_RC, <- gl_f_xi_RC, <- gl_f_q_RC, <- gl_f_q_crossed_RC by auto.
  repeat split; auto using vac_g, vac_f, vac_f_xi, vac_f_q, vac_f_q_crossed.
Qed.
Lemma div_sq (s : C) mq : mq <> 0 -> (s / RtoC (mq * mq))%C = (s / sq (RtoC mq))%C.
Proof. intros. unfold sq. now rewrite RtoC_mult. Qed.
Lemma np_dress_C s r mq f0 xi : off_cut s -> mq <> 0 ->
  ym_gluon_dressing_inv s f0 xi = py_ym_gluon_dressing_inv s xi f0 /\
  qcd_gluon_dressing_inv r s mq f0 xi = py_qcd_gluon_dressing_inv r s mq xi f0 /\
  qcd_gluon_dressing_crossed_inv r s mq f0 xi = py_qcd_gluon_dressing_crossed_inv r s mq xi f0.
Proof.
  intros H Hm. apply off_cut_slit in H. rewrite ym_gluon_inv_eq, qcd_inv_eq, qcdx_inv_eq. unfold py_qcd_gluon_dressing_inv, py_qcd_gluon_dressing_crossed_inv, py_ym_gluon_dressing_inv.
  numcbn. assert (K : slit (s / RtoC (mq * mq))%C) by (apply slit_div; auto; apply Rsqr_pos_lt in Hm; exact Hm).
  rewrite vac_f, vac_f_xi, vac_f_q, vac_f_q_crossed, div_sq by auto. repeat split; ring.
Qed.
Lemma np_dress_R s r mq f0 xi : 0 < s -> mq <> 0 ->
  RtoC (ym_gluon_dressing_inv s f0 xi) = py_ym_gluon_dressing_inv s xi f0 /\
  RtoC (qcd_gluon_dressing_inv r s mq f0 xi) = py_qcd_gluon_dressing_inv r s mq xi f0 /\
  RtoC (qcd_gluon_dressing_crossed_inv r s mq f0 xi) = py_qcd_gluon_dressing_crossed_inv r s mq xi f0.
Proof.
  intros H Hm. assert (K : off_cut (RtoC s)) by (apply off_cut_slit, slit_RtoC; auto).
  assert (M : 0 < mq * mq) by (apply Rsqr_pos_lt in Hm; exact Hm). assert (0 < s / (mq * mq)) by (apply Rdiv_lt_0_compat; auto).
  destruct (np_dress_C s r mq f0 xi K Hm) as (E1 & E2 & E3). rewrite <- E1, <- E2, <- E3.
  rewrite !ym_gluon_inv_eq, !qcd_inv_eq, !qcdx_inv_eq. numcbn. rewrite <- !RtoC_div'.
  rewrite gl_f_RC, gl_f_xi_RC, gl_f_q_RC, gl_f_q_crossed_RC by auto. pushRtoC. auto.
Qed.

Lemma np_tad_C q (m : C) beta : (RtoC q * RtoC q + m * m)%C <> RtoC 0 -> tadpoles q m beta = py_tadpoles q m beta.
Proof. intros. apply tadpoles_C. now apply energy_neq. Qed.

Lemma np_bub_C q p beta (om m1 m2 m : C) : 0 < q -> p <> 0 -> om <> RtoC 0 -> (om * om + RtoC p * RtoC p)%C <> RtoC 0 ->
  (RtoC q * RtoC q + m1 * m1)%C <> RtoC 0 -> (RtoC q * RtoC q + m2 * m2)%C <> RtoC 0 -> (RtoC q * RtoC q + m * m)%C <> RtoC 0 ->
  bubbles_mm q om p m1 m2 beta = py_bubbles q om p m1 m2 beta /\
  bubbles_same q om p m beta = py_bubbles q om p m m beta /\
  bubbles_m0 q om p m beta = py_bubbles q om p m (RtoC 0) beta /\
  bubbles_0 q om p beta = py_bubbles q om p (RtoC 0) (RtoC 0) beta.
Proof.
  intros Hq Hp Hom Hs H1 H2 H. rewrite <- RtoC_mult in Hs. apply energy_neq in H1, H2, H.
  pose proof (energy_pos_R q 0 Hq) as H0.
  destruct (special_C q om m p beta Hq Hp Hs) as (<- & <- & _). destruct (special_C q om (RtoC 0) p beta Hq Hp Hs) as (_ & E2 & E3).
  rewrite <- E3, <- E2. auto using bubbles_C.
Qed.
Lemma np_bub_R q p beta (om m1 m2 m : R) : 0 < q -> p <> 0 -> om <> 0 ->
  bubbles_mm q om p m1 m2 beta = py_bubbles q om p m1 m2 beta /\
  bubbles_same q om p m beta = py_bubbles q om p m m beta /\
  bubbles_m0 q om p m beta = py_bubbles q om p m (RtoC 0) beta /\
  bubbles_0 q om p beta = py_bubbles q om p (RtoC 0) (RtoC 0) beta.
Proof.
  intros Hq Hp Hom. pose proof (s_neq om p Hp) as Hs.
  rewrite mm_RRR, same_RR, m0_RR, zero_R. apply RtoC_neq0 in Hom.
  assert (K : forall m : R, (RtoC q * RtoC q + RtoC m * RtoC m)%C <> RtoC 0).
  { intros x E. rewrite <- en_sq in E. exact (Cmult_neq_0 _ _ (energy_pos_R q x Hq) (energy_pos_R q x Hq) E). }
  apply np_bub_C; auto. now rewrite <- (RtoC_mult p p).
Qed.
Lemma np_zp_C q beta (om m1 m2 m : C) : 0 < q ->
  (RtoC q * RtoC q + m1 * m1)%C <> RtoC 0 -> (RtoC q * RtoC q + m2 * m2)%C <> RtoC 0 -> (RtoC q * RtoC q + m * m)%C <> RtoC 0 ->
  zp_bubbles_mm q om m1 m2 beta = py_bubbles_zp q om m1 m2 beta /\
  zp_bubbles_same q om m beta = py_bubbles_zp q om m m beta /\
  zp_bubbles_m0 q om m beta = py_bubbles_zp q om m (RtoC 0) beta /\
  zp_bubbles_0 q om beta = py_bubbles_zp q om (RtoC 0) (RtoC 0) beta.
Proof.
  intros Hq H1 H2 H. apply energy_neq in H1, H2, H.
  pose proof (energy_pos_R q 0 Hq) as H0.
  destruct (special_zp_C q om m beta Hq) as (<- & <- & _). destruct (special_zp_C q om (RtoC 0) beta Hq) as (_ & E2 & E3).
  rewrite <- E3, <- E2. auto using bubbles_zp_C.
Qed.
Lemma np_zp_R q beta (om m1 m2 m : R) : 0 < q ->
  zp_bubbles_mm q om m1 m2 beta = py_bubbles_zp q om m1 m2 beta /\
  zp_bubbles_same q om m beta = py_bubbles_zp q om m m beta /\
  zp_bubbles_m0 q om m beta = py_bubbles_zp q om m (RtoC 0) beta /\
  zp_bubbles_0 q om beta = py_bubbles_zp q om (RtoC 0) (RtoC 0) beta.
Proof.
  intros Hq. rewrite zp_mm_RRR, zp_same_RR, zp_m0_RR, zp_zero_R.
  assert (K : forall m : R, (RtoC q * RtoC q + RtoC m * RtoC m)%C <> RtoC 0).
  { intros x E. rewrite <- en_sq in E. exact (Cmult_neq_0 _ _ (energy_pos_R q x Hq) (energy_pos_R q x Hq) E). }
  apply np_zp_C; auto.
Qed.

Lemma np_glue_C q p beta m (om : C) : 0 < q -> p <> 0 -> m <> 0 -> om <> RtoC 0 -> (om * om + RtoC p * RtoC p)%C <> RtoC 0 ->
  glue_parts q om p m beta = [py_ghost_se q om p m beta; py_gluon_pol_l q om p m beta; py_gluon_pol_t q om p m beta].
Proof.
  intros Hq Hp Hm Ho Hs. rewrite <- RtoC_mult in Hs. unfold glue_parts.
  repeat f_equal; [apply ghost_py|apply glue_l_py|apply glue_t_py]; auto.
Qed.
Lemma np_glue_R q p beta m (om : R) : 0 < q -> p <> 0 -> m <> 0 -> om <> 0 ->
  glue_parts q om p m beta = [py_ghost_se q om p m beta; py_gluon_pol_l q om p m beta; py_gluon_pol_t q om p m beta].
Proof. intros Hq Hp Hm Ho. rewrite glue_R. apply np_glue_C; auto. now apply RtoC_neq0. rewrite <- (RtoC_mult p p). now apply s_neq. Qed.
Lemma np_zp_glue_C q beta m (om : C) : 0 < q -> m <> 0 ->
  zp_glue_parts q om m beta = [py_ghost_se_zp q om m beta; py_gluon_pol_l_zp q om m beta; py_gluon_pol_t_zp q om m beta].
Proof.
  intros Hq Hm. unfold zp_glue_parts.
  repeat f_equal; [apply zp_ghost_py|apply zp_glue_l_py|apply zp_glue_l_py]; auto.
Qed.
Lemma np_zp_glue_R q beta m (om : R) : 0 < q -> m <> 0 ->
  zp_glue_parts q om m beta = [py_ghost_se_zp q om m beta; py_gluon_pol_l_zp q om m beta; py_gluon_pol_t_zp q om m beta].
Proof. intros Hq Hm. rewrite zp_glue_R. now apply np_zp_glue_C. Qed.
Lemma np_quark_C nc q p beta mq mu (om : C) : (0 < nc)%nat -> 0 < q -> p <> 0 ->
  quark_parts nc q om p mq beta mu = map (Cmult (RtoC (3 / INR nc))) [py_gluon_pol_quark_l q om p mq beta mu; py_gluon_pol_quark_t q om p mq beta mu].
Proof. intros. unfold quark_parts. cbn [map]. repeat f_equal; [apply quark_l_py|apply quark_t_py]; auto. Qed.
Lemma np_quark_R nc q p beta mq mu (om : R) : (0 < nc)%nat -> 0 < q -> p <> 0 ->
  quark_parts nc q om p mq beta mu = map (Cmult (RtoC (3 / INR nc))) [py_gluon_pol_quark_l q om p mq beta mu; py_gluon_pol_quark_t q om p mq beta mu].
Proof. intros. rewrite quark_R. now apply np_quark_C. Qed.
Lemma np_zp_quark_C nc q beta mq mu (om : C) : (0 < nc)%nat -> 0 < q -> (om * om + RtoC 4 * (RtoC q * RtoC q + RtoC mq * RtoC mq))%C <> RtoC 0 ->
  zp_quark_parts nc q om mq beta mu = map (Cmult (RtoC (3 / INR nc))) [py_gluon_pol_quark_l_zp q om mq beta mu; py_gluon_pol_quark_l_zp q om mq beta mu].
Proof. intros. unfold zp_quark_parts. cbn [map]. numcbn. repeat f_equal; apply (zp_quark_l_py nc q 1); auto; lra. Qed.
Lemma np_zp_quark_R nc q beta mq mu (om : R) : (0 < nc)%nat -> 0 < q ->
  zp_quark_parts nc q om mq beta mu = map (Cmult (RtoC (3 / INR nc))) [py_gluon_pol_quark_l_zp q om mq beta mu; py_gluon_pol_quark_l_zp q om mq beta mu].
Proof.
  intros Hn Hq. rewrite zp_quark_R. apply np_zp_quark_C; auto. intros E. apply (f_equal fst) in E. simpl in E.
  pose proof (Rle_0_sqr om). pose proof (Rle_0_sqr mq). unfold Rsqr in *. nra.
Qed.

(** ** Concrete values *)
Lemma ex_py_f_q : py_f_q (RtoC (4 / 3)) = RtoC (4 / 9 * (ln 3 / 2 - 2 / 3)).
Proof. destruct (np_vac_R (4 / 3)) as (_ & _ & _ & <- & _); [lra|]. f_equal. apply f_q_43. Qed.
Lemma ex_py_tad : py_j_m_i (RtoC 1) (RtoC 0) (RtoC (ln 2)) = RtoC (/ (2 * (PI * PI))).
Proof.
  pose proof (tadpoles_zero 1 (ln 2) ltac:(lra)) as H. apply (f_equal (fun l => nth 0 l (RtoC 0))) in H. unfold py_tadpoles, tadpoles_0 in H. cbn [nth map] in H.
  rewrite <- H. f_equal. apply ex_cold_values.
Qed.
Lemma ex_py_bub : py_i_m_m_i (RtoC 3) (RtoC 1) (RtoC 1) (RtoC 4) (RtoC 0) (RtoC 1) =
  RtoC (3 / (16 * (PI * PI)) * (ln (41 / 125) / (5 * (exp 5 - 1)) + ln (17 / 5) / (3 * (exp 3 - 1)))).
Proof.
  destruct (np_bub_R 3 1 1 1 4 0 4 ltac:(lra) ltac:(lra) ltac:(lra)) as (_ & _ & H & _). apply (f_equal (fun l => nth 0 l (RtoC 0))) in H.
  unfold py_bubbles, bubbles_m0 in H. cbn [nth] in H. rewrite <- H. apply ex_m0.
Qed.
Lemma ex_py_quark : py_gluon_pol_quark_l_zp (RtoC 3) (RtoC 0) (RtoC 4) (RtoC (ln 2)) (RtoC 0) = RtoC (- 6 / (125 * 3 * (PI * PI))).
Proof.
  pose proof (np_zp_quark_R 3 3 (ln 2) 4 0 0 ltac:(lia) ltac:(lra)) as H. apply (f_equal (fun l => nth 0 l (RtoC 0))) in H.
  unfold zp_quark_parts in H. cbn [nth map] in H. cbn [toC NumR] in H. rewrite (exq_warm 3) in H by lia.
  replace (INR 3) with 3 in H by (simpl; ring). replace (3 / 3) with 1 in H by field. rewrite Cmult_1_l in H. now rewrite <- H.
Qed.
Lemma ex_py_zp : py_i_m_m_i_zp (RtoC 1) (RtoC 2) (RtoC 0) (RtoC 0) (RtoC (ln 2)) = RtoC (/ (8 * (PI * PI))).
Proof.
  destruct (np_zp_R 1 (ln 2) 2 0 0 0 ltac:(lra)) as (_ & _ & _ & H). apply (f_equal (fun l => nth 0 l (RtoC 0))) in H.
  unfold py_bubbles_zp, zp_bubbles_0 in H. cbn [nth] in H. rewrite <- H. unfold zp_i_0_0_i. rewrite bose_val, Rmult_1_l, exp_ln by lra. numcbn. unfold PI2.
  pose proof PI_neq0. apply Ceq; simpl; field; auto; repeat split; auto; lra.
Qed.
Lemma ex_py_glue : Forall (fun z : C => snd z = 0)
  [py_ghost_se (RtoC 3) (RtoC 1) (RtoC 2) (RtoC 4) (RtoC 1); py_gluon_pol_l (RtoC 3) (RtoC 1) (RtoC 2) (RtoC 4) (RtoC 1); py_gluon_pol_t (RtoC 3) (RtoC 1) (RtoC 2) (RtoC 4) (RtoC 1)].
Proof. rewrite <- (np_glue_R 3 2 1 4 1) by lra. apply glue_real; lra. Qed.
