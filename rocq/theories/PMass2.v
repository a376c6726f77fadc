(** * Mass specialisations, mass symmetry, agreement of the instances: list form *)
From Coq Require Import Reals Lra List.
From Coquelicot Require Import Coquelicot.
From Verif Require Import Num CField MCommon MThermal MThermalZM MThermalZP MPolar SpecInteg PCplx PDistr PVac PDress2 PCoh PCoh2 PLogs PMass PMassZ.
Import List ListNotations.
Open Scope R_scope.

(** ** Agreement of the real and complex instances *)
Lemma mm_RRR q (om : R) (p : R) (m1 : R) (m2 : R) beta : bubbles_mm q om p m1 m2 beta = bubbles_mm q (RtoC om) p (RtoC m1) (RtoC m2) beta.
Proof. unfold bubbles_mm. now rewrite i_m_m_i_RRR, i_m_m_l_i_RRR, i_m_m_t_i_RRR, d_i_m_m_i_RRR, d_i_m_m_l_i_RRR, d_i_m_m_t_i_RRR. Qed.
Lemma zp_mm_RRR q (om : R) (m1 : R) (m2 : R) beta : zp_bubbles_mm q om  m1 m2 beta = zp_bubbles_mm q (RtoC om)  (RtoC m1) (RtoC m2) beta.
Proof. unfold zp_bubbles_mm. now rewrite zp_i_m_m_i_RRR, zp_i_m_m_l_i_RRR, zp_i_m_m_t_i_RRR, zp_d_i_m_m_i_RRR, zp_d_i_m_m_l_i_RRR, zp_d_i_m_m_t_i_RRR. Qed.
Lemma mm_RRC q (om : R) (p : R) (m1 : R) (m2 : C) beta : bubbles_mm q om p m1 m2 beta = bubbles_mm q (RtoC om) p (RtoC m1) m2 beta.
Proof. unfold bubbles_mm. now rewrite i_m_m_i_RRC, i_m_m_l_i_RRC, i_m_m_t_i_RRC, d_i_m_m_i_RRC, d_i_m_m_l_i_RRC, d_i_m_m_t_i_RRC. Qed.
Lemma zp_mm_RRC q (om : R) (m1 : R) (m2 : C) beta : zp_bubbles_mm q om  m1 m2 beta = zp_bubbles_mm q (RtoC om)  (RtoC m1) m2 beta.
Proof. unfold zp_bubbles_mm. now rewrite zp_i_m_m_i_RRC, zp_i_m_m_l_i_RRC, zp_i_m_m_t_i_RRC, zp_d_i_m_m_i_RRC, zp_d_i_m_m_l_i_RRC, zp_d_i_m_m_t_i_RRC. Qed.
Lemma mm_RCR q (om : R) (p : R) (m1 : C) (m2 : R) beta : bubbles_mm q om p m1 m2 beta = bubbles_mm q (RtoC om) p m1 (RtoC m2) beta.
Proof. unfold bubbles_mm. now rewrite i_m_m_i_RCR, i_m_m_l_i_RCR, i_m_m_t_i_RCR, d_i_m_m_i_RCR, d_i_m_m_l_i_RCR, d_i_m_m_t_i_RCR. Qed.
Lemma zp_mm_RCR q (om : R) (m1 : C) (m2 : R) beta : zp_bubbles_mm q om  m1 m2 beta = zp_bubbles_mm q (RtoC om)  m1 (RtoC m2) beta.
Proof. unfold zp_bubbles_mm. now rewrite zp_i_m_m_i_RCR, zp_i_m_m_l_i_RCR, zp_i_m_m_t_i_RCR, zp_d_i_m_m_i_RCR, zp_d_i_m_m_l_i_RCR, zp_d_i_m_m_t_i_RCR. Qed.
Lemma mm_RCC q (om : R) (p : R) (m1 : C) (m2 : C) beta : bubbles_mm q om p m1 m2 beta = bubbles_mm q (RtoC om) p m1 m2 beta.
Proof. unfold bubbles_mm. now rewrite i_m_m_i_RCC, i_m_m_l_i_RCC, i_m_m_t_i_RCC, d_i_m_m_i_RCC, d_i_m_m_l_i_RCC, d_i_m_m_t_i_RCC. Qed.
Lemma zp_mm_RCC q (om : R) (m1 : C) (m2 : C) beta : zp_bubbles_mm q om  m1 m2 beta = zp_bubbles_mm q (RtoC om)  m1 m2 beta.
Proof. unfold zp_bubbles_mm. now rewrite zp_i_m_m_i_RCC, zp_i_m_m_l_i_RCC, zp_i_m_m_t_i_RCC, zp_d_i_m_m_i_RCC, zp_d_i_m_m_l_i_RCC, zp_d_i_m_m_t_i_RCC. Qed.
Lemma mm_CRR q (om : C) (p : R) (m1 : R) (m2 : R) beta : bubbles_mm q om p m1 m2 beta = bubbles_mm q om p (RtoC m1) (RtoC m2) beta.
Proof. unfold bubbles_mm. now rewrite i_m_m_i_CRR, i_m_m_l_i_CRR, i_m_m_t_i_CRR, d_i_m_m_i_CRR, d_i_m_m_l_i_CRR, d_i_m_m_t_i_CRR. Qed.
Lemma zp_mm_CRR q (om : C) (m1 : R) (m2 : R) beta : zp_bubbles_mm q om  m1 m2 beta = zp_bubbles_mm q om  (RtoC m1) (RtoC m2) beta.
Proof. unfold zp_bubbles_mm. now rewrite zp_i_m_m_i_CRR, zp_i_m_m_l_i_CRR, zp_i_m_m_t_i_CRR, zp_d_i_m_m_i_CRR, zp_d_i_m_m_l_i_CRR, zp_d_i_m_m_t_i_CRR. Qed.
Lemma mm_CRC q (om : C) (p : R) (m1 : R) (m2 : C) beta : bubbles_mm q om p m1 m2 beta = bubbles_mm q om p (RtoC m1) m2 beta.
Proof. unfold bubbles_mm. now rewrite i_m_m_i_CRC, i_m_m_l_i_CRC, i_m_m_t_i_CRC, d_i_m_m_i_CRC, d_i_m_m_l_i_CRC, d_i_m_m_t_i_CRC. Qed.
Lemma zp_mm_CRC q (om : C) (m1 : R) (m2 : C) beta : zp_bubbles_mm q om  m1 m2 beta = zp_bubbles_mm q om  (RtoC m1) m2 beta.
Proof. unfold zp_bubbles_mm. now rewrite zp_i_m_m_i_CRC, zp_i_m_m_l_i_CRC, zp_i_m_m_t_i_CRC, zp_d_i_m_m_i_CRC, zp_d_i_m_m_l_i_CRC, zp_d_i_m_m_t_i_CRC. Qed.
Lemma mm_CCR q (om : C) (p : R) (m1 : C) (m2 : R) beta : bubbles_mm q om p m1 m2 beta = bubbles_mm q om p m1 (RtoC m2) beta.
Proof. unfold bubbles_mm. now rewrite i_m_m_i_CCR, i_m_m_l_i_CCR, i_m_m_t_i_CCR, d_i_m_m_i_CCR, d_i_m_m_l_i_CCR, d_i_m_m_t_i_CCR. Qed.
Lemma zp_mm_CCR q (om : C) (m1 : C) (m2 : R) beta : zp_bubbles_mm q om  m1 m2 beta = zp_bubbles_mm q om  m1 (RtoC m2) beta.
Proof. unfold zp_bubbles_mm. now rewrite zp_i_m_m_i_CCR, zp_i_m_m_l_i_CCR, zp_i_m_m_t_i_CCR, zp_d_i_m_m_i_CCR, zp_d_i_m_m_l_i_CCR, zp_d_i_m_m_t_i_CCR. Qed.
Lemma zm_mm_RR q p (m1 : R) (m2 : R) beta : zm_bubbles_mm q p m1 m2 beta = zm_bubbles_mm q p (RtoC m1) (RtoC m2) beta.
Proof. unfold zm_bubbles_mm. now rewrite zm_i_m_m_i_RR, zm_i_m_m_l_i_RR, zm_i_m_m_t_i_RR, zm_d_i_m_m_i_RR, zm_d_i_m_m_l_i_RR, zm_d_i_m_m_t_i_RR. Qed.
Lemma zm_mm_RC q p (m1 : R) (m2 : C) beta : zm_bubbles_mm q p m1 m2 beta = zm_bubbles_mm q p (RtoC m1) m2 beta.
Proof. unfold zm_bubbles_mm. now rewrite zm_i_m_m_i_RC, zm_i_m_m_l_i_RC, zm_i_m_m_t_i_RC, zm_d_i_m_m_i_RC, zm_d_i_m_m_l_i_RC, zm_d_i_m_m_t_i_RC. Qed.
Lemma zm_mm_CR q p (m1 : C) (m2 : R) beta : zm_bubbles_mm q p m1 m2 beta = zm_bubbles_mm q p m1 (RtoC m2) beta.
Proof. unfold zm_bubbles_mm. now rewrite zm_i_m_m_i_CR, zm_i_m_m_l_i_CR, zm_i_m_m_t_i_CR, zm_d_i_m_m_i_CR, zm_d_i_m_m_l_i_CR, zm_d_i_m_m_t_i_CR. Qed.
Lemma same_RR q (om : R) (p : R) (m : R) beta : bubbles_same q om p m beta = bubbles_same q (RtoC om) p (RtoC m) beta.
Proof. unfold bubbles_same. now rewrite i_m_m_i_same_mass_RR, i_m_m_l_i_same_mass_RR, i_m_m_t_i_same_mass_RR, d_i_m_m_i_same_mass_RR, d_i_m_m_l_i_same_mass_RR, d_i_m_m_t_i_same_mass_RR. Qed.
Lemma zp_same_RR q (om : R) (m : R) beta : zp_bubbles_same q om  m beta = zp_bubbles_same q (RtoC om)  (RtoC m) beta.
Proof. unfold zp_bubbles_same. now rewrite zp_i_m_m_i_same_mass_RR, zp_i_m_m_l_i_same_mass_RR, zp_i_m_m_t_i_same_mass_RR, zp_d_i_m_m_i_same_mass_RR, zp_d_i_m_m_l_i_same_mass_RR, zp_d_i_m_m_t_i_same_mass_RR. Qed.
Lemma same_RC q (om : R) (p : R) (m : C) beta : bubbles_same q om p m beta = bubbles_same q (RtoC om) p m beta.
Proof. unfold bubbles_same. now rewrite i_m_m_i_same_mass_RC, i_m_m_l_i_same_mass_RC, i_m_m_t_i_same_mass_RC, d_i_m_m_i_same_mass_RC, d_i_m_m_l_i_same_mass_RC, d_i_m_m_t_i_same_mass_RC. Qed.
Lemma zp_same_RC q (om : R) (m : C) beta : zp_bubbles_same q om  m beta = zp_bubbles_same q (RtoC om)  m beta.
Proof. unfold zp_bubbles_same. now rewrite zp_i_m_m_i_same_mass_RC, zp_i_m_m_l_i_same_mass_RC, zp_i_m_m_t_i_same_mass_RC, zp_d_i_m_m_i_same_mass_RC, zp_d_i_m_m_l_i_same_mass_RC, zp_d_i_m_m_t_i_same_mass_RC. Qed.
Lemma same_CR q (om : C) (p : R) (m : R) beta : bubbles_same q om p m beta = bubbles_same q om p (RtoC m) beta.
Proof. unfold bubbles_same. now rewrite i_m_m_i_same_mass_CR, i_m_m_l_i_same_mass_CR, i_m_m_t_i_same_mass_CR, d_i_m_m_i_same_mass_CR, d_i_m_m_l_i_same_mass_CR, d_i_m_m_t_i_same_mass_CR. Qed.
Lemma zp_same_CR q (om : C) (m : R) beta : zp_bubbles_same q om  m beta = zp_bubbles_same q om  (RtoC m) beta.
Proof. unfold zp_bubbles_same. now rewrite zp_i_m_m_i_same_mass_CR, zp_i_m_m_l_i_same_mass_CR, zp_i_m_m_t_i_same_mass_CR, zp_d_i_m_m_i_same_mass_CR, zp_d_i_m_m_l_i_same_mass_CR, zp_d_i_m_m_t_i_same_mass_CR. Qed.
Lemma zm_same_R q p (m : R) beta : zm_bubbles_same q p m beta = zm_bubbles_same q p (RtoC m) beta.
Proof. unfold zm_bubbles_same. numcbn. now rewrite zm_i_m_m_i_same_mass_R, zm_i_m_m_l_i_same_mass_R, zm_i_m_m_t_i_same_mass_R, zm_d_i_m_m_i_same_mass_R, zm_d_i_m_m_l_i_same_mass_R, zm_d_i_m_m_t_i_same_mass_R. Qed.
Lemma m0_RR q (om : R) (p : R) (m : R) beta : bubbles_m0 q om p m beta = bubbles_m0 q (RtoC om) p (RtoC m) beta.
Proof. unfold bubbles_m0. now rewrite i_m_0_i_RR, i_m_0_l_i_RR, i_m_0_t_i_RR, d_i_m_0_i_RR, d_i_m_0_l_i_RR, d_i_m_0_t_i_RR. Qed.
Lemma zp_m0_RR q (om : R) (m : R) beta : zp_bubbles_m0 q om  m beta = zp_bubbles_m0 q (RtoC om)  (RtoC m) beta.
Proof. unfold zp_bubbles_m0. now rewrite zp_i_m_0_i_RR, zp_i_m_0_l_i_RR, zp_i_m_0_t_i_RR, zp_d_i_m_0_i_RR, zp_d_i_m_0_l_i_RR, zp_d_i_m_0_t_i_RR. Qed.
Lemma m0_RC q (om : R) (p : R) (m : C) beta : bubbles_m0 q om p m beta = bubbles_m0 q (RtoC om) p m beta.
Proof. unfold bubbles_m0. now rewrite i_m_0_i_RC, i_m_0_l_i_RC, i_m_0_t_i_RC, d_i_m_0_i_RC, d_i_m_0_l_i_RC, d_i_m_0_t_i_RC. Qed.
Lemma zp_m0_RC q (om : R) (m : C) beta : zp_bubbles_m0 q om  m beta = zp_bubbles_m0 q (RtoC om)  m beta.
Proof. unfold zp_bubbles_m0. now rewrite zp_i_m_0_i_RC, zp_i_m_0_l_i_RC, zp_i_m_0_t_i_RC, zp_d_i_m_0_i_RC, zp_d_i_m_0_l_i_RC, zp_d_i_m_0_t_i_RC. Qed.
Lemma m0_CR q (om : C) (p : R) (m : R) beta : bubbles_m0 q om p m beta = bubbles_m0 q om p (RtoC m) beta.
Proof. unfold bubbles_m0. now rewrite i_m_0_i_CR, i_m_0_l_i_CR, i_m_0_t_i_CR, d_i_m_0_i_CR, d_i_m_0_l_i_CR, d_i_m_0_t_i_CR. Qed.
Lemma zp_m0_CR q (om : C) (m : R) beta : zp_bubbles_m0 q om  m beta = zp_bubbles_m0 q om  (RtoC m) beta.
Proof. unfold zp_bubbles_m0. now rewrite zp_i_m_0_i_CR, zp_i_m_0_l_i_CR, zp_i_m_0_t_i_CR, zp_d_i_m_0_i_CR, zp_d_i_m_0_l_i_CR, zp_d_i_m_0_t_i_CR. Qed.
Lemma zm_m0_R q p (m : R) beta : zm_bubbles_m0 q p m beta = zm_bubbles_m0 q p (RtoC m) beta.
Proof. unfold zm_bubbles_m0. numcbn. now rewrite zm_i_m_0_i_R, zm_i_m_0_l_i_R, zm_i_m_0_t_i_R, zm_d_i_m_0_i_R, zm_d_i_m_0_l_i_R, zm_d_i_m_0_t_i_R. Qed.
Lemma zero_R q (om : R) (p : R) beta : bubbles_0 q om p beta = bubbles_0 q (RtoC om) p beta.
Proof. unfold bubbles_0. now rewrite i_0_0_i_R, i_0_0_l_i_R, i_0_0_t_i_R, d_i_0_0_i_R, d_i_0_0_l_i_R, d_i_0_0_t_i_R. Qed.
Lemma zp_zero_R q (om : R) beta : zp_bubbles_0 q om  beta = zp_bubbles_0 q (RtoC om)  beta.
Proof. unfold zp_bubbles_0. now rewrite zp_i_0_0_i_R, zp_i_0_0_l_i_R, zp_i_0_0_t_i_R, zp_d_i_0_0_i_R, zp_d_i_0_0_l_i_R, zp_d_i_0_0_t_i_R. Qed.
Lemma glue_R q (om p m : R) beta : glue_parts q om p m beta = glue_parts q (RtoC om) p m beta.
Proof. unfold glue_parts. now rewrite ghost_R, glue_l_R, glue_t_R. Qed.
Lemma quark_R nc q (om p mq : R) beta mu : quark_parts nc q om p mq beta mu = quark_parts nc q (RtoC om) p mq beta mu.
Proof. unfold quark_parts. now rewrite quark_l_R, quark_t_R. Qed.
Lemma quark0_R nc q (om p mq : R) mu : quark_parts_zero_temp nc q om p mq mu = quark_parts_zero_temp nc q (RtoC om) p mq mu.
Proof. unfold quark_parts_zero_temp. now rewrite quark0_l_R, quark0_t_R. Qed.
Lemma zp_glue_R q (om m : R) beta : zp_glue_parts q om m beta = zp_glue_parts q (RtoC om) m beta.
Proof. unfold zp_glue_parts. now rewrite zp_ghost_R, zp_glue_l_R, zp_glue_t_R. Qed.
Lemma zp_quark_R nc q (om mq : R) beta mu : zp_quark_parts nc q om mq beta mu = zp_quark_parts nc q (RtoC om) mq beta mu.
Proof. unfold zp_quark_parts. numcbn. now rewrite zp_quark_l_R, zp_quark_t_R. Qed.
Lemma zp_quark0_R nc q (om mq : R) mu : zp_quark_parts_zero_temp nc q om mq mu = zp_quark_parts_zero_temp nc q (RtoC om) mq mu.
Proof. unfold zp_quark_parts_zero_temp. numcbn. now rewrite zp_quark0_l_R, zp_quark0_t_R. Qed.
Lemma tadpoles_R q (m : R) beta : tadpoles q (RtoC m) beta = map RtoC (tadpoles q m beta).
Proof. unfold tadpoles. cbn [map]. now rewrite j_m_i_R, j_m_l_i_R, j_m_t_i_R, d_j_m_i_R, d_j_m_l_i_R, d_j_m_t_i_R, d2_j_m_i_R, d2_j_m_l_i_R, d2_j_m_t_i_R. Qed.

(** ** Mass specialisations *)
Lemma special_C q (om m : C) p beta : 0 < q -> p <> 0 -> (om * om + RtoC (p * p))%C <> RtoC 0 ->
  bubbles_mm q om p m m beta = bubbles_same q om p m beta /\
  bubbles_mm q om p m (RtoC 0) beta = bubbles_m0 q om p m beta /\
  bubbles_m0 q om p (RtoC 0) beta = bubbles_0 q om p beta.
Proof.
  intros Hq Hp Hs. unfold bubbles_mm, bubbles_same, bubbles_m0, bubbles_0. repeat split.
  - now rewrite same_0, same_l, same_t, same_d0, same_dl, same_dt.
  - now rewrite zero_0, zero_l, zero_t, zero_d0, zero_dl, zero_dt.
  - now rewrite zeros_0, zeros_l, zeros_t, zeros_d0, zeros_dl, zeros_dt.
Qed.
Lemma sum_pos om p : p <> 0 -> (RtoC om * RtoC om + RtoC (p * p))%C <> RtoC 0.
Proof. intros. rewrite <- RtoC_mult, <- RtoC_plus. apply RtoC_neq0. nra. Qed.
Lemma special_R q (om m : R) p beta : 0 < q -> p <> 0 ->
  bubbles_mm q om p m m beta = bubbles_same q om p m beta /\
  bubbles_mm q om p m 0 beta = bubbles_m0 q om p m beta /\
  bubbles_m0 q om p 0 beta = bubbles_0 q om p beta.
Proof.
  intros Hq Hp. destruct (special_C q (RtoC om) (RtoC m) p beta Hq Hp (sum_pos om p Hp)) as (H1 & H2 & H3).
  rewrite !mm_RRR, same_RR, !m0_RR, zero_R. auto.
Qed.
Lemma special_CR q (om : C) (m : R) p beta : 0 < q -> p <> 0 -> (om * om + RtoC (p * p))%C <> RtoC 0 ->
  bubbles_mm q om p m m beta = bubbles_same q om p m beta /\
  bubbles_mm q om p m 0 beta = bubbles_m0 q om p m beta /\
  bubbles_m0 q om p 0 beta = bubbles_0 q om p beta.
Proof.
  intros Hq Hp Hs. destruct (special_C q om (RtoC m) p beta Hq Hp Hs) as (H1 & H2 & H3).
  rewrite !mm_CRR, same_CR, !m0_CR. auto.
Qed.
Lemma special_zm_C q (m : C) p beta : 0 < q -> p <> 0 ->
  zm_bubbles_mm q p m m beta = zm_bubbles_same q p m beta /\
  zm_bubbles_mm q p m (RtoC 0) beta = zm_bubbles_m0 q p m beta /\
  zm_bubbles_m0 q p (RtoC 0) beta = zm_bubbles_0 q p beta.
Proof.
  intros Hq Hp. unfold zm_bubbles_mm, zm_bubbles_same, zm_bubbles_m0, zm_bubbles_0. numcbn. repeat split.
  - now rewrite zm_same_0, zm_same_l, zm_same_t, zm_same_d0, zm_same_dl, zm_same_dt.
  - now rewrite zm_zero_0, zm_zero_l, zm_zero_t, zm_zero_d0, zm_zero_dl, zm_zero_dt.
  - now rewrite zm_zeros_0, zm_zeros_l, zm_zeros_t, zm_zeros_d0, zm_zeros_dl, zm_zeros_dt.
Qed.
Lemma special_zm_R q (m : R) p beta : 0 < q -> p <> 0 ->
  zm_bubbles_mm q p m m beta = zm_bubbles_same q p m beta /\
  zm_bubbles_mm q p m 0 beta = zm_bubbles_m0 q p m beta /\
  zm_bubbles_m0 q p 0 beta = zm_bubbles_0 q p beta.
Proof.
  intros Hq Hp. destruct (special_zm_C q (RtoC m) p beta Hq Hp) as (H1 & H2 & H3).
  rewrite !zm_mm_RR, zm_same_R, !zm_m0_R. auto.
Qed.
Lemma special_zp_C q (om m : C) beta : 0 < q ->
  zp_bubbles_mm q om m m beta = zp_bubbles_same q om m beta /\
  zp_bubbles_mm q om m (RtoC 0) beta = zp_bubbles_m0 q om m beta /\
  zp_bubbles_m0 q om (RtoC 0) beta = zp_bubbles_0 q om beta.
Proof.
  intros Hq. unfold zp_bubbles_mm, zp_bubbles_same, zp_bubbles_m0, zp_bubbles_0. repeat split.
  - now rewrite zp_same_0, zp_same_l, zp_same_t, zp_same_d0, zp_same_dl, zp_same_dt.
  - now rewrite zp_zero_0, zp_zero_l, zp_zero_t, zp_zero_d0, zp_zero_dl, zp_zero_dt.
  - now rewrite zp_zeros_0, zp_zeros_l, zp_zeros_t, zp_zeros_d0, zp_zeros_dl, zp_zeros_dt.
Qed.
Lemma special_zp_R q (om m : R) beta : 0 < q ->
  zp_bubbles_mm q om m m beta = zp_bubbles_same q om m beta /\
  zp_bubbles_mm q om m 0 beta = zp_bubbles_m0 q om m beta /\
  zp_bubbles_m0 q om 0 beta = zp_bubbles_0 q om beta.
Proof.
  intros Hq. destruct (special_zp_C q (RtoC om) (RtoC m) beta Hq) as (H1 & H2 & H3).
  rewrite !zp_mm_RRR, zp_same_RR, !zp_m0_RR, zp_zero_R. auto.
Qed.
Lemma special_zp_CR q (om : C) (m : R) beta : 0 < q ->
  zp_bubbles_mm q om m m beta = zp_bubbles_same q om m beta /\
  zp_bubbles_mm q om m 0 beta = zp_bubbles_m0 q om m beta /\
  zp_bubbles_m0 q om 0 beta = zp_bubbles_0 q om beta.
Proof.
  intros Hq. destruct (special_zp_C q om (RtoC m) beta Hq) as (H1 & H2 & H3).
  rewrite !zp_mm_CRR, zp_same_CR, !zp_m0_CR. auto.
Qed.
Lemma tadpoles_0_R q beta : 0 < q -> tadpoles q 0 beta = tadpoles_0 q beta.
Proof.
  intros Hq. assert (Hq' : q <> 0) by lra. pose proof PI2_neq as Hpi. unfold tadpoles, tadpoles_0, j_m_i, j_m_l_i, j_m_t_i, d_j_m_i, d_j_m_l_i, d_j_m_t_i, d2_j_m_i, d2_j_m_l_i, d2_j_m_t_i,
    j_0_i, j_0_l_i, j_0_t_i, d_j_0_i, d_j_0_l_i, d_j_0_t_i, d2_j_0_i, d2_j_0_l_i, d2_j_0_t_i. cbv zeta. rewrite (energy_0R q Hq). numcbn.
  revert Hpi. generalize PI2. intros pi2 Hpi.
  generalize (bose_distribution_zero_chempot q beta). intros b. generalize (bose_distribution_zero_chempot (- q) beta). intros b'.
  repeat (apply (f_equal2 cons); [try reflexivity; field; repeat split; auto; lra|]). reflexivity.
Qed.
Lemma tadpoles_0_C q beta : 0 < q -> tadpoles q (RtoC 0) beta = map RtoC (tadpoles_0 q beta).
Proof. intros Hq. now rewrite tadpoles_R, tadpoles_0_R. Qed.

(** ** Mass symmetry *)
Ltac sym m1 m2 := replace (m1 * m1 - m2 * m2)%C with (- (m2 * m2 - m1 * m1))%C by ring;
  replace (- - (m2 * m2 - m1 * m1))%C with (m2 * m2 - m1 * m1)%C by ring; generalize PI2; intros; unfold Cdiv; ring.
Lemma symm_C q (om m1 m2 : C) p beta :
  i_m_m_i q om p m1 m2 beta = i_m_m_i q om p m2 m1 beta /\
  i_m_m_l_i q om p m1 m2 beta = i_m_m_l_i q om p m2 m1 beta /\
  i_m_m_t_i q om p m1 m2 beta = i_m_m_t_i q om p m2 m1 beta.
Proof. repeat split; canon; sym m1 m2. Qed.
Lemma symm_zm_C q (m1 m2 : C) p beta :
  zm_i_m_m_i q p m1 m2 beta = zm_i_m_m_i q p m2 m1 beta /\
  zm_i_m_m_l_i q p m1 m2 beta = zm_i_m_m_l_i q p m2 m1 beta /\
  zm_i_m_m_t_i q p m1 m2 beta = zm_i_m_m_t_i q p m2 m1 beta.
Proof. repeat split; canonzm; sym m1 m2. Qed.
Lemma symm_zp_C q (om m1 m2 : C) beta :
  zp_i_m_m_i q om m1 m2 beta = zp_i_m_m_i q om m2 m1 beta /\
  zp_i_m_m_l_i q om m1 m2 beta = zp_i_m_m_l_i q om m2 m1 beta /\
  zp_i_m_m_t_i q om m1 m2 beta = zp_i_m_m_t_i q om m2 m1 beta.
Proof. repeat split; canonzp; sym m1 m2. Qed.

Lemma symm_RRR q (om : R) (m1 : R) (m2 : R) p beta :
  i_m_m_i q om p m1 m2 beta = i_m_m_i q om p m2 m1 beta /\
  i_m_m_l_i q om p m1 m2 beta = i_m_m_l_i q om p m2 m1 beta /\
  i_m_m_t_i q om p m1 m2 beta = i_m_m_t_i q om p m2 m1 beta /\
  zp_i_m_m_i q om m1 m2 beta = zp_i_m_m_i q om m2 m1 beta /\
  zp_i_m_m_l_i q om m1 m2 beta = zp_i_m_m_l_i q om m2 m1 beta /\
  zp_i_m_m_t_i q om m1 m2 beta = zp_i_m_m_t_i q om m2 m1 beta.
Proof.
  destruct (symm_C q (RtoC om) (RtoC m1) (RtoC m2) p beta) as (H1 & H2 & H3). destruct (symm_zp_C q (RtoC om) (RtoC m1) (RtoC m2) beta) as (H4 & H5 & H6).
  repeat split.
  - rewrite (i_m_m_i_RRR q om p m1 m2 beta), (i_m_m_i_RRR q om p m2 m1 beta); exact H1.
  - rewrite (i_m_m_l_i_RRR q om p m1 m2 beta), (i_m_m_l_i_RRR q om p m2 m1 beta); exact H2.
  - rewrite (i_m_m_t_i_RRR q om p m1 m2 beta), (i_m_m_t_i_RRR q om p m2 m1 beta); exact H3.
  - rewrite (zp_i_m_m_i_RRR q om m1 m2 beta), (zp_i_m_m_i_RRR q om m2 m1 beta); exact H4.
  - rewrite (zp_i_m_m_l_i_RRR q om m1 m2 beta), (zp_i_m_m_l_i_RRR q om m2 m1 beta); exact H5.
  - rewrite (zp_i_m_m_t_i_RRR q om m1 m2 beta), (zp_i_m_m_t_i_RRR q om m2 m1 beta); exact H6.
Qed.
Lemma symm_RRC q (om : R) (m1 : R) (m2 : C) p beta :
  i_m_m_i q om p m1 m2 beta = i_m_m_i q om p m2 m1 beta /\
  i_m_m_l_i q om p m1 m2 beta = i_m_m_l_i q om p m2 m1 beta /\
  i_m_m_t_i q om p m1 m2 beta = i_m_m_t_i q om p m2 m1 beta /\
  zp_i_m_m_i q om m1 m2 beta = zp_i_m_m_i q om m2 m1 beta /\
  zp_i_m_m_l_i q om m1 m2 beta = zp_i_m_m_l_i q om m2 m1 beta /\
  zp_i_m_m_t_i q om m1 m2 beta = zp_i_m_m_t_i q om m2 m1 beta.
Proof.
  destruct (symm_C q (RtoC om) (RtoC m1) m2 p beta) as (H1 & H2 & H3). destruct (symm_zp_C q (RtoC om) (RtoC m1) m2 beta) as (H4 & H5 & H6).
  repeat split.
  - rewrite (i_m_m_i_RRC q om p m1 m2 beta), (i_m_m_i_RCR q om p m2 m1 beta); exact H1.
  - rewrite (i_m_m_l_i_RRC q om p m1 m2 beta), (i_m_m_l_i_RCR q om p m2 m1 beta); exact H2.
  - rewrite (i_m_m_t_i_RRC q om p m1 m2 beta), (i_m_m_t_i_RCR q om p m2 m1 beta); exact H3.
  - rewrite (zp_i_m_m_i_RRC q om m1 m2 beta), (zp_i_m_m_i_RCR q om m2 m1 beta); exact H4.
  - rewrite (zp_i_m_m_l_i_RRC q om m1 m2 beta), (zp_i_m_m_l_i_RCR q om m2 m1 beta); exact H5.
  - rewrite (zp_i_m_m_t_i_RRC q om m1 m2 beta), (zp_i_m_m_t_i_RCR q om m2 m1 beta); exact H6.
Qed.
Lemma symm_RCR q (om : R) (m1 : C) (m2 : R) p beta :
  i_m_m_i q om p m1 m2 beta = i_m_m_i q om p m2 m1 beta /\
  i_m_m_l_i q om p m1 m2 beta = i_m_m_l_i q om p m2 m1 beta /\
  i_m_m_t_i q om p m1 m2 beta = i_m_m_t_i q om p m2 m1 beta /\
  zp_i_m_m_i q om m1 m2 beta = zp_i_m_m_i q om m2 m1 beta /\
  zp_i_m_m_l_i q om m1 m2 beta = zp_i_m_m_l_i q om m2 m1 beta /\
  zp_i_m_m_t_i q om m1 m2 beta = zp_i_m_m_t_i q om m2 m1 beta.
Proof.
  destruct (symm_C q (RtoC om) m1 (RtoC m2) p beta) as (H1 & H2 & H3). destruct (symm_zp_C q (RtoC om) m1 (RtoC m2) beta) as (H4 & H5 & H6).
  repeat split.
  - rewrite (i_m_m_i_RCR q om p m1 m2 beta), (i_m_m_i_RRC q om p m2 m1 beta); exact H1.
  - rewrite (i_m_m_l_i_RCR q om p m1 m2 beta), (i_m_m_l_i_RRC q om p m2 m1 beta); exact H2.
  - rewrite (i_m_m_t_i_RCR q om p m1 m2 beta), (i_m_m_t_i_RRC q om p m2 m1 beta); exact H3.
  - rewrite (zp_i_m_m_i_RCR q om m1 m2 beta), (zp_i_m_m_i_RRC q om m2 m1 beta); exact H4.
  - rewrite (zp_i_m_m_l_i_RCR q om m1 m2 beta), (zp_i_m_m_l_i_RRC q om m2 m1 beta); exact H5.
  - rewrite (zp_i_m_m_t_i_RCR q om m1 m2 beta), (zp_i_m_m_t_i_RRC q om m2 m1 beta); exact H6.
Qed.
Lemma symm_RCC q (om : R) (m1 : C) (m2 : C) p beta :
  i_m_m_i q om p m1 m2 beta = i_m_m_i q om p m2 m1 beta /\
  i_m_m_l_i q om p m1 m2 beta = i_m_m_l_i q om p m2 m1 beta /\
  i_m_m_t_i q om p m1 m2 beta = i_m_m_t_i q om p m2 m1 beta /\
  zp_i_m_m_i q om m1 m2 beta = zp_i_m_m_i q om m2 m1 beta /\
  zp_i_m_m_l_i q om m1 m2 beta = zp_i_m_m_l_i q om m2 m1 beta /\
  zp_i_m_m_t_i q om m1 m2 beta = zp_i_m_m_t_i q om m2 m1 beta.
Proof.
  destruct (symm_C q (RtoC om) m1 m2 p beta) as (H1 & H2 & H3). destruct (symm_zp_C q (RtoC om) m1 m2 beta) as (H4 & H5 & H6).
  repeat split.
  - rewrite (i_m_m_i_RCC q om p m1 m2 beta), (i_m_m_i_RCC q om p m2 m1 beta); exact H1.
  - rewrite (i_m_m_l_i_RCC q om p m1 m2 beta), (i_m_m_l_i_RCC q om p m2 m1 beta); exact H2.
  - rewrite (i_m_m_t_i_RCC q om p m1 m2 beta), (i_m_m_t_i_RCC q om p m2 m1 beta); exact H3.
  - rewrite (zp_i_m_m_i_RCC q om m1 m2 beta), (zp_i_m_m_i_RCC q om m2 m1 beta); exact H4.
  - rewrite (zp_i_m_m_l_i_RCC q om m1 m2 beta), (zp_i_m_m_l_i_RCC q om m2 m1 beta); exact H5.
  - rewrite (zp_i_m_m_t_i_RCC q om m1 m2 beta), (zp_i_m_m_t_i_RCC q om m2 m1 beta); exact H6.
Qed.
Lemma symm_CRR q (om : C) (m1 : R) (m2 : R) p beta :
  i_m_m_i q om p m1 m2 beta = i_m_m_i q om p m2 m1 beta /\
  i_m_m_l_i q om p m1 m2 beta = i_m_m_l_i q om p m2 m1 beta /\
  i_m_m_t_i q om p m1 m2 beta = i_m_m_t_i q om p m2 m1 beta /\
  zp_i_m_m_i q om m1 m2 beta = zp_i_m_m_i q om m2 m1 beta /\
  zp_i_m_m_l_i q om m1 m2 beta = zp_i_m_m_l_i q om m2 m1 beta /\
  zp_i_m_m_t_i q om m1 m2 beta = zp_i_m_m_t_i q om m2 m1 beta.
Proof.
  destruct (symm_C q om (RtoC m1) (RtoC m2) p beta) as (H1 & H2 & H3). destruct (symm_zp_C q om (RtoC m1) (RtoC m2) beta) as (H4 & H5 & H6).
  repeat split.
  - rewrite (i_m_m_i_CRR q om p m1 m2 beta), (i_m_m_i_CRR q om p m2 m1 beta); exact H1.
  - rewrite (i_m_m_l_i_CRR q om p m1 m2 beta), (i_m_m_l_i_CRR q om p m2 m1 beta); exact H2.
  - rewrite (i_m_m_t_i_CRR q om p m1 m2 beta), (i_m_m_t_i_CRR q om p m2 m1 beta); exact H3.
  - rewrite (zp_i_m_m_i_CRR q om m1 m2 beta), (zp_i_m_m_i_CRR q om m2 m1 beta); exact H4.
  - rewrite (zp_i_m_m_l_i_CRR q om m1 m2 beta), (zp_i_m_m_l_i_CRR q om m2 m1 beta); exact H5.
  - rewrite (zp_i_m_m_t_i_CRR q om m1 m2 beta), (zp_i_m_m_t_i_CRR q om m2 m1 beta); exact H6.
Qed.
Lemma symm_CRC q (om : C) (m1 : R) (m2 : C) p beta :
  i_m_m_i q om p m1 m2 beta = i_m_m_i q om p m2 m1 beta /\
  i_m_m_l_i q om p m1 m2 beta = i_m_m_l_i q om p m2 m1 beta /\
  i_m_m_t_i q om p m1 m2 beta = i_m_m_t_i q om p m2 m1 beta /\
  zp_i_m_m_i q om m1 m2 beta = zp_i_m_m_i q om m2 m1 beta /\
  zp_i_m_m_l_i q om m1 m2 beta = zp_i_m_m_l_i q om m2 m1 beta /\
  zp_i_m_m_t_i q om m1 m2 beta = zp_i_m_m_t_i q om m2 m1 beta.
Proof.
  destruct (symm_C q om (RtoC m1) m2 p beta) as (H1 & H2 & H3). destruct (symm_zp_C q om (RtoC m1) m2 beta) as (H4 & H5 & H6).
  repeat split.
  - rewrite (i_m_m_i_CRC q om p m1 m2 beta), (i_m_m_i_CCR q om p m2 m1 beta); exact H1.
  - rewrite (i_m_m_l_i_CRC q om p m1 m2 beta), (i_m_m_l_i_CCR q om p m2 m1 beta); exact H2.
  - rewrite (i_m_m_t_i_CRC q om p m1 m2 beta), (i_m_m_t_i_CCR q om p m2 m1 beta); exact H3.
  - rewrite (zp_i_m_m_i_CRC q om m1 m2 beta), (zp_i_m_m_i_CCR q om m2 m1 beta); exact H4.
  - rewrite (zp_i_m_m_l_i_CRC q om m1 m2 beta), (zp_i_m_m_l_i_CCR q om m2 m1 beta); exact H5.
  - rewrite (zp_i_m_m_t_i_CRC q om m1 m2 beta), (zp_i_m_m_t_i_CCR q om m2 m1 beta); exact H6.
Qed.
Lemma symm_CCR q (om : C) (m1 : C) (m2 : R) p beta :
  i_m_m_i q om p m1 m2 beta = i_m_m_i q om p m2 m1 beta /\
  i_m_m_l_i q om p m1 m2 beta = i_m_m_l_i q om p m2 m1 beta /\
  i_m_m_t_i q om p m1 m2 beta = i_m_m_t_i q om p m2 m1 beta /\
  zp_i_m_m_i q om m1 m2 beta = zp_i_m_m_i q om m2 m1 beta /\
  zp_i_m_m_l_i q om m1 m2 beta = zp_i_m_m_l_i q om m2 m1 beta /\
  zp_i_m_m_t_i q om m1 m2 beta = zp_i_m_m_t_i q om m2 m1 beta.
Proof.
  destruct (symm_C q om m1 (RtoC m2) p beta) as (H1 & H2 & H3). destruct (symm_zp_C q om m1 (RtoC m2) beta) as (H4 & H5 & H6).
  repeat split.
  - rewrite (i_m_m_i_CCR q om p m1 m2 beta), (i_m_m_i_CRC q om p m2 m1 beta); exact H1.
  - rewrite (i_m_m_l_i_CCR q om p m1 m2 beta), (i_m_m_l_i_CRC q om p m2 m1 beta); exact H2.
  - rewrite (i_m_m_t_i_CCR q om p m1 m2 beta), (i_m_m_t_i_CRC q om p m2 m1 beta); exact H3.
  - rewrite (zp_i_m_m_i_CCR q om m1 m2 beta), (zp_i_m_m_i_CRC q om m2 m1 beta); exact H4.
  - rewrite (zp_i_m_m_l_i_CCR q om m1 m2 beta), (zp_i_m_m_l_i_CRC q om m2 m1 beta); exact H5.
  - rewrite (zp_i_m_m_t_i_CCR q om m1 m2 beta), (zp_i_m_m_t_i_CRC q om m2 m1 beta); exact H6.
Qed.
Lemma symm_zm_RR q (m1 : R) (m2 : R) p beta :
  zm_i_m_m_i q p m1 m2 beta = zm_i_m_m_i q p m2 m1 beta /\
  zm_i_m_m_l_i q p m1 m2 beta = zm_i_m_m_l_i q p m2 m1 beta /\
  zm_i_m_m_t_i q p m1 m2 beta = zm_i_m_m_t_i q p m2 m1 beta.
Proof.
  destruct (symm_zm_C q (RtoC m1) (RtoC m2) p beta) as (H1 & H2 & H3).
  repeat split.
  - rewrite (zm_i_m_m_i_RR q p m1 m2 beta), (zm_i_m_m_i_RR q p m2 m1 beta); exact H1.
  - rewrite (zm_i_m_m_l_i_RR q p m1 m2 beta), (zm_i_m_m_l_i_RR q p m2 m1 beta); exact H2.
  - rewrite (zm_i_m_m_t_i_RR q p m1 m2 beta), (zm_i_m_m_t_i_RR q p m2 m1 beta); exact H3.
Qed.
Lemma symm_zm_RC q (m1 : R) (m2 : C) p beta :
  zm_i_m_m_i q p m1 m2 beta = zm_i_m_m_i q p m2 m1 beta /\
  zm_i_m_m_l_i q p m1 m2 beta = zm_i_m_m_l_i q p m2 m1 beta /\
  zm_i_m_m_t_i q p m1 m2 beta = zm_i_m_m_t_i q p m2 m1 beta.
Proof.
  destruct (symm_zm_C q (RtoC m1) m2 p beta) as (H1 & H2 & H3).
  repeat split.
  - rewrite (zm_i_m_m_i_RC q p m1 m2 beta), (zm_i_m_m_i_CR q p m2 m1 beta); exact H1.
  - rewrite (zm_i_m_m_l_i_RC q p m1 m2 beta), (zm_i_m_m_l_i_CR q p m2 m1 beta); exact H2.
  - rewrite (zm_i_m_m_t_i_RC q p m1 m2 beta), (zm_i_m_m_t_i_CR q p m2 m1 beta); exact H3.
Qed.
Lemma symm_zm_CR q (m1 : C) (m2 : R) p beta :
  zm_i_m_m_i q p m1 m2 beta = zm_i_m_m_i q p m2 m1 beta /\
  zm_i_m_m_l_i q p m1 m2 beta = zm_i_m_m_l_i q p m2 m1 beta /\
  zm_i_m_m_t_i q p m1 m2 beta = zm_i_m_m_t_i q p m2 m1 beta.
Proof.
  destruct (symm_zm_C q m1 (RtoC m2) p beta) as (H1 & H2 & H3).
  repeat split.
  - rewrite (zm_i_m_m_i_CR q p m1 m2 beta), (zm_i_m_m_i_RC q p m2 m1 beta); exact H1.
  - rewrite (zm_i_m_m_l_i_CR q p m1 m2 beta), (zm_i_m_m_l_i_RC q p m2 m1 beta); exact H2.
  - rewrite (zm_i_m_m_t_i_CR q p m1 m2 beta), (zm_i_m_m_t_i_RC q p m2 m1 beta); exact H3.
Qed.
