(** * Reflection symmetry of the zero-momentum dressing functions in the complex frequency *)
From Coq Require Import Reals Psatz List FunctionalExtensionality.
From Coquelicot Require Import Coquelicot.
From Verif Require Import Num CField MCommon MConsts MVacuum MThermal MThermalZP MPolar MDress SpecInteg SpecVac SpecDress PCplx PVac PVac2 PSym PSymC PSymD.
Import List ListNotations.
Open Scope R_scope.

Lemma slit_sq (om : C) : fst om <> 0 -> slit (om * om)%C.
Proof. destruct om as [a b]. unfold slit. cbn. intros Ha. destruct (Req_dec b 0) as [->|Hb]; [right|left]; nra. Qed.
Lemma slit_sqm (om : C) (m : R) : fst om <> 0 -> m <> 0 -> slit (om * om / RtoC (m * m))%C.
Proof. intros. apply slit_div; [nra|now apply slit_sq]. Qed.
Lemma conj_sqm (om : C) (m : R) : (Cconj om * Cconj om / RtoC (m * m))%C = Cconj (om * om / RtoC (m * m))%C.
Proof. now rewrite conj_div, conj_RtoC, conj_mult. Qed.
Lemma conj_sumq (f h : QuarkInternal -> C) l : (forall x, f x = Cconj (h x)) -> sum_quarks f l = Cconj (sum_quarks h l).
Proof.
  intros H. unfold sum_quarks. numcbn. rewrite <- (conj_RtoC 0) at 1. generalize (RtoC 0). induction l as [|x l IH]; intros z; cbn [fold_left]; auto.
  now rewrite H, <- conj_plus, IH.
Qed.
Lemma fc_positive nc m quarks : m <> 0 -> Forall (fun q : nat * R => snd q <> 0) quarks ->
  Forall (fun qi => 0 < qi_mq_div_m_2 qi) (fc_quarks_internal (FieldConfig_new nc m quarks)).
Proof.
  intros Hm Hq. cbn. apply Forall_map. eapply Forall_impl; [|exact Hq]. intros [k x] Hx. cbn in *.
  assert (x / m <> 0) by (apply Rmult_integral_contrapositive_currified; auto using Rinv_neq_0_compat). nra.
Qed.

Lemma ym_ghost_dressing_inv_landau_cj (s : C) g0 : slit s -> ym_ghost_dressing_inv_landau (Cconj s) g0 = Cconj (ym_ghost_dressing_inv_landau s g0).
Proof. intros. rewrite !ym_ghost_inv_landau_eq. numcbn. rewrite gh_g_conj by auto. now pushconj. Qed.
Lemma ym_gluon_dressing_inv_landau_cj (s : C) f0 : slit s -> ym_gluon_dressing_inv_landau (Cconj s) f0 = Cconj (ym_gluon_dressing_inv_landau s f0).
Proof. intros. rewrite !ym_gluon_inv_landau_eq. numcbn. rewrite gl_f_conj by auto. now pushconj. Qed.
Lemma qcd_gluon_dressing_inv_landau_cj r (s : C) mq f0 : slit s -> mq <> 0 -> qcd_gluon_dressing_inv_landau r (Cconj s) mq f0 = Cconj (qcd_gluon_dressing_inv_landau r s mq f0).
Proof.
  intros Hs Hq. assert (Hq2 : 0 < mq * mq) by nra. rewrite !qcd_inv_landau_eq. numcbn. rewrite gl_f_conj by auto.
  replace (Cconj s / RtoC (mq * mq))%C with (Cconj (s / RtoC (mq * mq)))%C by (now rewrite conj_div, conj_RtoC).
  rewrite gl_f_q_conj by now apply slit_div. now pushconj.
Qed.
Lemma qcd_gluon_dressing_inv_landau_w_field_config_cj (s : C) f0 cfg : slit s -> Forall (fun qi => 0 < qi_mq_div_m_2 qi) (fc_quarks_internal cfg) ->
  qcd_gluon_dressing_inv_landau_w_field_config (Cconj s) f0 cfg = Cconj (qcd_gluon_dressing_inv_landau_w_field_config s f0 cfg).
Proof.
  intros Hs Hc. rewrite !fc_inv_landau_eq. numcbn. rewrite gl_f_conj by auto.
  replace (Cconj (gl_f s) + RtoC f0)%C with (Cconj (gl_f s + RtoC f0))%C by now pushconj.
  now apply (qloops_conj gl_f_q gl_f_q_conj).
Qed.

Section Conj.
Variables (J : Integrator) (g : globals R).
Hypothesis HJ : forall f a b I, integrateC J (fun t => Cconj (f t)) a b I = Cconj (integrateC J f a b I).
Lemma zp_ghost_self_energy_thermal_part_landau_i_cj (q : R) (om : C) (m beta : R) : zp_ghost_self_energy_thermal_part_landau_i q (Cconj om) m beta = Cconj (zp_ghost_self_energy_thermal_part_landau_i q om m beta).
Proof. headeq 0%nat (zp_glue_parts_conj q beta om m). Qed.
Lemma zp_ghost_self_energy_cj (om : C) (m beta : R) : zp_ghost_self_energy J g (Cconj om) m beta = Cconj (zp_ghost_self_energy J g om m beta).
Proof. unfold zp_ghost_self_energy, zp_ghost_self_energy_w_method. rewrite <- HJ. f_equal. extensionality t. numcbn. rewrite zp_ghost_self_energy_thermal_part_landau_i_cj. now rewrite conj_div, conj_RtoC. Qed.
Lemma zp_polarization_glue_l_thermal_part_landau_i_cj (q : R) (om : C) (m beta : R) : zp_polarization_glue_l_thermal_part_landau_i q (Cconj om) m beta = Cconj (zp_polarization_glue_l_thermal_part_landau_i q om m beta).
Proof. headeq 1%nat (zp_glue_parts_conj q beta om m). Qed.
Lemma zp_polarization_glue_l_thermal_part_landau_cj (om : C) (m beta : R) : zp_polarization_glue_l_thermal_part_landau J g (Cconj om) m beta = Cconj (zp_polarization_glue_l_thermal_part_landau J g om m beta).
Proof. unfold zp_polarization_glue_l_thermal_part_landau, zp_polarization_glue_l_thermal_part_landau_w_method. rewrite <- HJ. f_equal. extensionality t. numcbn. rewrite zp_polarization_glue_l_thermal_part_landau_i_cj. now rewrite conj_div, conj_RtoC. Qed.
Lemma zp_polarization_glue_t_thermal_part_landau_i_cj (q : R) (om : C) (m beta : R) : zp_polarization_glue_t_thermal_part_landau_i q (Cconj om) m beta = Cconj (zp_polarization_glue_t_thermal_part_landau_i q om m beta).
Proof. headeq 2%nat (zp_glue_parts_conj q beta om m). Qed.
Lemma zp_polarization_glue_t_thermal_part_landau_cj (om : C) (m beta : R) : zp_polarization_glue_t_thermal_part_landau J g (Cconj om) m beta = Cconj (zp_polarization_glue_t_thermal_part_landau J g om m beta).
Proof. unfold zp_polarization_glue_t_thermal_part_landau, zp_polarization_glue_t_thermal_part_landau_w_method. rewrite <- HJ. f_equal. extensionality t. numcbn. rewrite zp_polarization_glue_t_thermal_part_landau_i_cj. now rewrite conj_div, conj_RtoC. Qed.
Lemma zp_polarization_quark_l_thermal_part_landau_i_cj (q : R) (om : C) (nc : nat) (mq beta mu : R) : zp_polarization_quark_l_thermal_part_landau_i nc q (Cconj om) mq beta mu = Cconj (zp_polarization_quark_l_thermal_part_landau_i nc q om mq beta mu).
Proof. headeq 0%nat (zp_quark_parts_conj q beta om nc mq mu). Qed.
Lemma zp_polarization_quark_l_thermal_part_landau_cj (om : C) (mq beta mu : R) : zp_polarization_quark_l_thermal_part_landau J g (Cconj om) mq beta mu = Cconj (zp_polarization_quark_l_thermal_part_landau J g om mq beta mu).
Proof. unfold zp_polarization_quark_l_thermal_part_landau, zp_polarization_quark_l_thermal_part_landau_w_method. rewrite <- HJ. f_equal. extensionality t. numcbn. rewrite zp_polarization_quark_l_thermal_part_landau_i_cj. now rewrite conj_div, conj_RtoC. Qed.
Lemma zp_polarization_quark_l_thermal_part_zero_temp_landau_i_cj (q : R) (om : C) (nc : nat) (mq mu : R) : zp_polarization_quark_l_thermal_part_zero_temp_landau_i nc q (Cconj om) mq mu = Cconj (zp_polarization_quark_l_thermal_part_zero_temp_landau_i nc q om mq mu).
Proof. headeq 0%nat (zp_quark_parts_zero_temp_conj q om nc mq mu). Qed.
Lemma zp_polarization_quark_l_thermal_part_zero_temp_landau_cj (om : C) (mq mu : R) : zp_polarization_quark_l_thermal_part_zero_temp_landau J g (Cconj om) mq mu = Cconj (zp_polarization_quark_l_thermal_part_zero_temp_landau J g om mq mu).
Proof. unfold zp_polarization_quark_l_thermal_part_zero_temp_landau, zp_polarization_quark_l_thermal_part_zero_temp_landau_w_method. destruct (Rlt_dec _ _); [now rewrite conj_RtoC|]. rewrite <- HJ. f_equal. extensionality t. numcbn. rewrite zp_polarization_quark_l_thermal_part_zero_temp_landau_i_cj. reflexivity. Qed.
Lemma zp_polarization_quark_t_thermal_part_landau_i_cj (q : R) (om : C) (nc : nat) (mq beta mu : R) : zp_polarization_quark_t_thermal_part_landau_i nc q (Cconj om) mq beta mu = Cconj (zp_polarization_quark_t_thermal_part_landau_i nc q om mq beta mu).
Proof. headeq 1%nat (zp_quark_parts_conj q beta om nc mq mu). Qed.
Lemma zp_polarization_quark_t_thermal_part_landau_cj (om : C) (mq beta mu : R) : zp_polarization_quark_t_thermal_part_landau J g (Cconj om) mq beta mu = Cconj (zp_polarization_quark_t_thermal_part_landau J g om mq beta mu).
Proof. unfold zp_polarization_quark_t_thermal_part_landau, zp_polarization_quark_t_thermal_part_landau_w_method. rewrite <- HJ. f_equal. extensionality t. numcbn. rewrite zp_polarization_quark_t_thermal_part_landau_i_cj. now rewrite conj_div, conj_RtoC. Qed.
Lemma zp_polarization_quark_t_thermal_part_zero_temp_landau_i_cj (q : R) (om : C) (nc : nat) (mq mu : R) : zp_polarization_quark_t_thermal_part_zero_temp_landau_i nc q (Cconj om) mq mu = Cconj (zp_polarization_quark_t_thermal_part_zero_temp_landau_i nc q om mq mu).
Proof. headeq 1%nat (zp_quark_parts_zero_temp_conj q om nc mq mu). Qed.
Lemma zp_polarization_quark_t_thermal_part_zero_temp_landau_cj (om : C) (mq mu : R) : zp_polarization_quark_t_thermal_part_zero_temp_landau J g (Cconj om) mq mu = Cconj (zp_polarization_quark_t_thermal_part_zero_temp_landau J g om mq mu).
Proof. unfold zp_polarization_quark_t_thermal_part_zero_temp_landau, zp_polarization_quark_t_thermal_part_zero_temp_landau_w_method. destruct (Rlt_dec _ _); [now rewrite conj_RtoC|]. rewrite <- HJ. f_equal. extensionality t. numcbn. rewrite zp_polarization_quark_t_thermal_part_zero_temp_landau_i_cj. reflexivity. Qed.
Lemma zp_ym_ghost_dressing_inv_cj (om : C) (m beta g0 : R) : fst om <> 0 -> m <> 0 -> zp_ym_ghost_dressing_inv J g (Cconj om) m beta g0 = Cconj (zp_ym_ghost_dressing_inv J g om m beta g0).
Proof.
  intros Ho Hm. unfold zp_ym_ghost_dressing_inv. cbv zeta. numcbn. rewrite ?conj_sqm, ym_ghost_dressing_inv_landau_cj by auto using slit_sqm.
  rewrite ?zp_ghost_self_energy_cj, ?zp_polarization_glue_l_thermal_part_landau_cj, ?zp_polarization_glue_t_thermal_part_landau_cj, ?zp_polarization_quark_l_thermal_part_landau_cj, ?zp_polarization_quark_l_thermal_part_zero_temp_landau_cj, ?zp_polarization_quark_t_thermal_part_landau_cj, ?zp_polarization_quark_t_thermal_part_zero_temp_landau_cj. now pushconj.
Qed.
Lemma zp_ym_gluon_dressing_l_inv_cj (om : C) (m beta f0 : R) : fst om <> 0 -> m <> 0 -> zp_ym_gluon_dressing_l_inv J g (Cconj om) m beta f0 = Cconj (zp_ym_gluon_dressing_l_inv J g om m beta f0).
Proof.
  intros Ho Hm. unfold zp_ym_gluon_dressing_l_inv. cbv zeta. numcbn. rewrite ?conj_sqm, ym_gluon_dressing_inv_landau_cj by auto using slit_sqm.
  rewrite ?zp_ghost_self_energy_cj, ?zp_polarization_glue_l_thermal_part_landau_cj, ?zp_polarization_glue_t_thermal_part_landau_cj, ?zp_polarization_quark_l_thermal_part_landau_cj, ?zp_polarization_quark_l_thermal_part_zero_temp_landau_cj, ?zp_polarization_quark_t_thermal_part_landau_cj, ?zp_polarization_quark_t_thermal_part_zero_temp_landau_cj. now pushconj.
Qed.
Lemma zp_ym_gluon_dressing_t_inv_cj (om : C) (m beta f0 : R) : fst om <> 0 -> m <> 0 -> zp_ym_gluon_dressing_t_inv J g (Cconj om) m beta f0 = Cconj (zp_ym_gluon_dressing_t_inv J g om m beta f0).
Proof. apply zp_ym_gluon_dressing_l_inv_cj. Qed.
Lemma zp_qcd_gluon_dressing_l_inv_cj (om : C) (m mq beta mu f0 : R) : fst om <> 0 -> m <> 0 -> mq <> 0 -> zp_qcd_gluon_dressing_l_inv J g (Cconj om) m mq beta mu f0 = Cconj (zp_qcd_gluon_dressing_l_inv J g om m mq beta mu f0).
Proof.
  intros Ho Hm Hq. assert (Hr : mq / m <> 0) by (apply Rmult_integral_contrapositive_currified; auto using Rinv_neq_0_compat). unfold zp_qcd_gluon_dressing_l_inv. cbv zeta. numcbn. rewrite ?conj_sqm, qcd_gluon_dressing_inv_landau_cj by auto using slit_sqm.
  rewrite ?zp_ghost_self_energy_cj, ?zp_polarization_glue_l_thermal_part_landau_cj, ?zp_polarization_glue_t_thermal_part_landau_cj, ?zp_polarization_quark_l_thermal_part_landau_cj, ?zp_polarization_quark_l_thermal_part_zero_temp_landau_cj, ?zp_polarization_quark_t_thermal_part_landau_cj, ?zp_polarization_quark_t_thermal_part_zero_temp_landau_cj. now pushconj.
Qed.
Lemma zp_qcd_gluon_dressing_t_inv_cj (om : C) (m mq beta mu f0 : R) : fst om <> 0 -> m <> 0 -> mq <> 0 -> zp_qcd_gluon_dressing_t_inv J g (Cconj om) m mq beta mu f0 = Cconj (zp_qcd_gluon_dressing_t_inv J g om m mq beta mu f0).
Proof.
  intros Ho Hm Hq. assert (Hr : mq / m <> 0) by (apply Rmult_integral_contrapositive_currified; auto using Rinv_neq_0_compat). unfold zp_qcd_gluon_dressing_t_inv. cbv zeta. numcbn. rewrite ?conj_sqm, qcd_gluon_dressing_inv_landau_cj by auto using slit_sqm.
  rewrite ?zp_ghost_self_energy_cj, ?zp_polarization_glue_l_thermal_part_landau_cj, ?zp_polarization_glue_t_thermal_part_landau_cj, ?zp_polarization_quark_l_thermal_part_landau_cj, ?zp_polarization_quark_l_thermal_part_zero_temp_landau_cj, ?zp_polarization_quark_t_thermal_part_landau_cj, ?zp_polarization_quark_t_thermal_part_zero_temp_landau_cj. now pushconj.
Qed.
Lemma zp_qcd_gluon_dressing_l_inv_zero_temp_cj (om : C) (m mq mu f0 : R) : fst om <> 0 -> m <> 0 -> mq <> 0 -> zp_qcd_gluon_dressing_l_inv_zero_temp J g (Cconj om) m mq mu f0 = Cconj (zp_qcd_gluon_dressing_l_inv_zero_temp J g om m mq mu f0).
Proof.
  intros Ho Hm Hq. assert (Hr : mq / m <> 0) by (apply Rmult_integral_contrapositive_currified; auto using Rinv_neq_0_compat). unfold zp_qcd_gluon_dressing_l_inv_zero_temp. cbv zeta. numcbn. rewrite ?conj_sqm, qcd_gluon_dressing_inv_landau_cj by auto using slit_sqm.
  rewrite ?zp_ghost_self_energy_cj, ?zp_polarization_glue_l_thermal_part_landau_cj, ?zp_polarization_glue_t_thermal_part_landau_cj, ?zp_polarization_quark_l_thermal_part_landau_cj, ?zp_polarization_quark_l_thermal_part_zero_temp_landau_cj, ?zp_polarization_quark_t_thermal_part_landau_cj, ?zp_polarization_quark_t_thermal_part_zero_temp_landau_cj. now pushconj.
Qed.
Lemma zp_qcd_gluon_dressing_t_inv_zero_temp_cj (om : C) (m mq mu f0 : R) : fst om <> 0 -> m <> 0 -> mq <> 0 -> zp_qcd_gluon_dressing_t_inv_zero_temp J g (Cconj om) m mq mu f0 = Cconj (zp_qcd_gluon_dressing_t_inv_zero_temp J g om m mq mu f0).
Proof.
  intros Ho Hm Hq. assert (Hr : mq / m <> 0) by (apply Rmult_integral_contrapositive_currified; auto using Rinv_neq_0_compat). unfold zp_qcd_gluon_dressing_t_inv_zero_temp. cbv zeta. numcbn. rewrite ?conj_sqm, qcd_gluon_dressing_inv_landau_cj by auto using slit_sqm.
  rewrite ?zp_ghost_self_energy_cj, ?zp_polarization_glue_l_thermal_part_landau_cj, ?zp_polarization_glue_t_thermal_part_landau_cj, ?zp_polarization_quark_l_thermal_part_landau_cj, ?zp_polarization_quark_l_thermal_part_zero_temp_landau_cj, ?zp_polarization_quark_t_thermal_part_landau_cj, ?zp_polarization_quark_t_thermal_part_zero_temp_landau_cj. now pushconj.
Qed.
Lemma zp_qcd_gluon_dressing_l_inv_w_field_config_cj (om : C) (beta mu f0 : R) config : fst om <> 0 -> fc_gluon config <> 0 -> Forall (fun qi => 0 < qi_mq_div_m_2 qi) (fc_quarks_internal config) -> zp_qcd_gluon_dressing_l_inv_w_field_config J g (Cconj om) beta mu f0 config = Cconj (zp_qcd_gluon_dressing_l_inv_w_field_config J g om beta mu f0 config).
Proof.
  intros Ho Hm Hc. unfold zp_qcd_gluon_dressing_l_inv_w_field_config. cbv zeta.
  rewrite (conj_sumq (fun qi => nmul (zp_polarization_quark_l_thermal_part_landau J g (Cconj om) (qi_mq qi) beta mu) _) (fun qi => nmul (zp_polarization_quark_l_thermal_part_landau J g om (qi_mq qi) beta mu) (toC (INR (qi_nf qi))))) by (intros x; numcbn; rewrite zp_polarization_quark_l_thermal_part_landau_cj; now rewrite conj_mult, conj_RtoC).
  numcbn. rewrite ?conj_sqm, qcd_gluon_dressing_inv_landau_w_field_config_cj by auto using slit_sqm.
  rewrite ?zp_ghost_self_energy_cj, ?zp_polarization_glue_l_thermal_part_landau_cj, ?zp_polarization_glue_t_thermal_part_landau_cj, ?zp_polarization_quark_l_thermal_part_landau_cj, ?zp_polarization_quark_l_thermal_part_zero_temp_landau_cj, ?zp_polarization_quark_t_thermal_part_landau_cj, ?zp_polarization_quark_t_thermal_part_zero_temp_landau_cj. now pushconj.
Qed.
Lemma zp_qcd_gluon_dressing_t_inv_w_field_config_cj (om : C) (beta mu f0 : R) config : fst om <> 0 -> fc_gluon config <> 0 -> Forall (fun qi => 0 < qi_mq_div_m_2 qi) (fc_quarks_internal config) -> zp_qcd_gluon_dressing_t_inv_w_field_config J g (Cconj om) beta mu f0 config = Cconj (zp_qcd_gluon_dressing_t_inv_w_field_config J g om beta mu f0 config).
Proof.
  intros Ho Hm Hc. unfold zp_qcd_gluon_dressing_t_inv_w_field_config. cbv zeta.
  rewrite (conj_sumq (fun qi => nmul (zp_polarization_quark_t_thermal_part_landau J g (Cconj om) (qi_mq qi) beta mu) _) (fun qi => nmul (zp_polarization_quark_t_thermal_part_landau J g om (qi_mq qi) beta mu) (toC (INR (qi_nf qi))))) by (intros x; numcbn; rewrite zp_polarization_quark_t_thermal_part_landau_cj; now rewrite conj_mult, conj_RtoC).
  numcbn. rewrite ?conj_sqm, qcd_gluon_dressing_inv_landau_w_field_config_cj by auto using slit_sqm.
  rewrite ?zp_ghost_self_energy_cj, ?zp_polarization_glue_l_thermal_part_landau_cj, ?zp_polarization_glue_t_thermal_part_landau_cj, ?zp_polarization_quark_l_thermal_part_landau_cj, ?zp_polarization_quark_l_thermal_part_zero_temp_landau_cj, ?zp_polarization_quark_t_thermal_part_landau_cj, ?zp_polarization_quark_t_thermal_part_zero_temp_landau_cj. now pushconj.
Qed.
Lemma zp_qcd_gluon_dressing_l_inv_zero_temp_w_field_config_cj (om : C) (mu f0 : R) config : fst om <> 0 -> fc_gluon config <> 0 -> Forall (fun qi => 0 < qi_mq_div_m_2 qi) (fc_quarks_internal config) -> zp_qcd_gluon_dressing_l_inv_zero_temp_w_field_config J g (Cconj om) mu f0 config = Cconj (zp_qcd_gluon_dressing_l_inv_zero_temp_w_field_config J g om mu f0 config).
Proof.
  intros Ho Hm Hc. unfold zp_qcd_gluon_dressing_l_inv_zero_temp_w_field_config. cbv zeta.
  rewrite (conj_sumq (fun qi => nmul (zp_polarization_quark_l_thermal_part_zero_temp_landau J g (Cconj om) (qi_mq qi) mu) _) (fun qi => nmul (zp_polarization_quark_l_thermal_part_zero_temp_landau J g om (qi_mq qi) mu) (toC (INR (qi_nf qi))))) by (intros x; numcbn; rewrite zp_polarization_quark_l_thermal_part_zero_temp_landau_cj; now rewrite conj_mult, conj_RtoC).
  numcbn. rewrite ?conj_sqm, qcd_gluon_dressing_inv_landau_w_field_config_cj by auto using slit_sqm.
  rewrite ?zp_ghost_self_energy_cj, ?zp_polarization_glue_l_thermal_part_landau_cj, ?zp_polarization_glue_t_thermal_part_landau_cj, ?zp_polarization_quark_l_thermal_part_landau_cj, ?zp_polarization_quark_l_thermal_part_zero_temp_landau_cj, ?zp_polarization_quark_t_thermal_part_landau_cj, ?zp_polarization_quark_t_thermal_part_zero_temp_landau_cj. now pushconj.
Qed.
Lemma zp_qcd_gluon_dressing_t_inv_zero_temp_w_field_config_cj (om : C) (mu f0 : R) config : fst om <> 0 -> fc_gluon config <> 0 -> Forall (fun qi => 0 < qi_mq_div_m_2 qi) (fc_quarks_internal config) -> zp_qcd_gluon_dressing_t_inv_zero_temp_w_field_config J g (Cconj om) mu f0 config = Cconj (zp_qcd_gluon_dressing_t_inv_zero_temp_w_field_config J g om mu f0 config).
Proof.
  intros Ho Hm Hc. unfold zp_qcd_gluon_dressing_t_inv_zero_temp_w_field_config. cbv zeta.
  rewrite (conj_sumq (fun qi => nmul (zp_polarization_quark_t_thermal_part_zero_temp_landau J g (Cconj om) (qi_mq qi) mu) _) (fun qi => nmul (zp_polarization_quark_t_thermal_part_zero_temp_landau J g om (qi_mq qi) mu) (toC (INR (qi_nf qi))))) by (intros x; numcbn; rewrite zp_polarization_quark_t_thermal_part_zero_temp_landau_cj; now rewrite conj_mult, conj_RtoC).
  numcbn. rewrite ?conj_sqm, qcd_gluon_dressing_inv_landau_w_field_config_cj by auto using slit_sqm.
  rewrite ?zp_ghost_self_energy_cj, ?zp_polarization_glue_l_thermal_part_landau_cj, ?zp_polarization_glue_t_thermal_part_landau_cj, ?zp_polarization_quark_l_thermal_part_landau_cj, ?zp_polarization_quark_l_thermal_part_zero_temp_landau_cj, ?zp_polarization_quark_t_thermal_part_landau_cj, ?zp_polarization_quark_t_thermal_part_zero_temp_landau_cj. now pushconj.
Qed.
Lemma zp_families_conj (om : C) (m mq beta mu g0 f0 : R) cfg : fst om <> 0 -> m <> 0 -> mq <> 0 -> fc_gluon cfg <> 0 ->
  Forall (fun qi => 0 < qi_mq_div_m_2 qi) (fc_quarks_internal cfg) ->
  zp_families J g (Cconj om) m mq beta mu g0 f0 cfg = map (fun x : C * C * C => let '(i, d, pr) := x in (Cconj i, Cconj d, Cconj pr)) (zp_families J g om m mq beta mu g0 f0 cfg).
Proof.
  intros Ho Hm Hq Hm' Hc. unfold zp_families. cbn [map].
  unfold zp_ym_ghost_propagator, zp_ym_gluon_propagator_l, zp_ym_gluon_propagator_t, zp_qcd_gluon_propagator_l, zp_qcd_gluon_propagator_t, zp_qcd_gluon_propagator_l_zero_temp, zp_qcd_gluon_propagator_t_zero_temp, zp_qcd_gluon_propagator_l_w_field_config, zp_qcd_gluon_propagator_t_w_field_config, zp_qcd_gluon_propagator_l_zero_temp_w_field_config, zp_qcd_gluon_propagator_t_zero_temp_w_field_config.
  unfold zp_ym_ghost_dressing, zp_ym_gluon_dressing_l, zp_ym_gluon_dressing_t, zp_qcd_gluon_dressing_l, zp_qcd_gluon_dressing_t, zp_qcd_gluon_dressing_l_zero_temp, zp_qcd_gluon_dressing_t_zero_temp, zp_qcd_gluon_dressing_l_w_field_config, zp_qcd_gluon_dressing_t_w_field_config, zp_qcd_gluon_dressing_l_zero_temp_w_field_config, zp_qcd_gluon_dressing_t_zero_temp_w_field_config.
  rewrite ?zp_ym_ghost_dressing_inv_cj, ?zp_ym_gluon_dressing_l_inv_cj, ?zp_ym_gluon_dressing_t_inv_cj, ?zp_qcd_gluon_dressing_l_inv_cj, ?zp_qcd_gluon_dressing_t_inv_cj, ?zp_qcd_gluon_dressing_l_inv_zero_temp_cj, ?zp_qcd_gluon_dressing_t_inv_zero_temp_cj, ?zp_qcd_gluon_dressing_l_inv_w_field_config_cj, ?zp_qcd_gluon_dressing_t_inv_w_field_config_cj, ?zp_qcd_gluon_dressing_l_inv_zero_temp_w_field_config_cj, ?zp_qcd_gluon_dressing_t_inv_zero_temp_w_field_config_cj by auto. numcbn.
  rewrite ?conj_mult, ?conj_inv, ?conj_mult. reflexivity.
Qed.
End Conj.
