(** * The real and the complex instances of the integrands agree *)
From Coq Require Import Reals Lra.
From Coquelicot Require Import Coquelicot.
From Verif Require Import Num CField MCommon MThermal MThermalZM MThermalZP MPolar PCplx PDistr PVac PDress2.
Open Scope R_scope.

Lemma energy_RC q m : energy q (RtoC m) = RtoC (energy q m).
Proof.
  unfold energy, energy_squared. numcbn. rewrite <- RtoC_mult, <- RtoC_plus. apply Csqrt_RtoC. nra.
Qed.
Lemma bose_RC en beta : bose_distribution_zero_chempot (RtoC en) beta = RtoC (bose_distribution_zero_chempot en beta).
Proof.
  unfold bose_distribution_zero_chempot, statistic_distribution_exponential_zero_chempot. numcbn.
  rewrite <- RtoC_mult, Cexp_RtoC. now pushRtoC.
Qed.
Ltac unth := unfold i_m_m_i, i_m_m_i_same_mass, i_m_0_i, i_0_0_i, i_m_m_l_i, i_m_m_l_i_same_mass, i_m_0_l_i, i_0_0_l_i, i_m_m_t_i, i_m_m_t_i_same_mass,
  i_m_0_t_i, i_0_0_t_i, d_i_m_m_i, d_i_m_m_i_same_mass, d_i_m_0_i, d_i_0_0_i, d_i_m_m_l_i, d_i_m_m_l_i_same_mass, d_i_m_0_l_i, d_i_0_0_l_i,
  d_i_m_m_t_i, d_i_m_m_t_i_same_mass, d_i_m_0_t_i, d_i_0_0_t_i, tlog_l, tlog_l_same_mass, tlog_l_zero_mass, tlog_t, tlog_t_same_mass, tlog_t_zero_mass,
  tlog, tlog_same_mass, tlog_zero_mass, r_0, r_0_same_mass, j_m_i, j_m_l_i, j_m_t_i, d_j_m_i, d_j_m_l_i, d_j_m_t_i, d2_j_m_i, d2_j_m_l_i, d2_j_m_t_i.
Ltac coh := intros; unth; cbv zeta; generalize PI2; intros; rewrite ?energy_RC; numcbn; rewrite ?bose_RC; pushRtoC; rewrite <- ?RtoC_opp, ?bose_RC; pushRtoC; reflexivity.

Ltac unzp := unfold zp_i_m_m_t_i, zp_i_m_m_t_i_same_mass, zp_i_m_0_t_i, zp_i_0_0_t_i, zp_d_i_m_m_t_i, zp_d_i_m_m_t_i_same_mass, zp_d_i_m_0_t_i, zp_d_i_0_0_t_i;
  unfold zp_i_m_m_i, zp_i_m_m_i_same_mass, zp_i_m_0_i, zp_i_0_0_i, zp_i_m_m_l_i, zp_i_m_m_l_i_same_mass, zp_i_m_0_l_i, zp_i_0_0_l_i,
  zp_d_i_m_m_i, zp_d_i_m_m_i_same_mass, zp_d_i_m_0_i, zp_d_i_0_0_i, zp_d_i_m_m_l_i, zp_d_i_m_m_l_i_same_mass, zp_d_i_m_0_l_i, zp_d_i_0_0_l_i, zp_r_0, zp_r_0_same_mass.
Ltac cohzp := intros; unzp; cbv zeta; generalize PI2; intros; rewrite ?energy_RC; numcbn; rewrite ?bose_RC; pushRtoC; reflexivity.
Ltac unzm := unfold zm_i_m_m_i, zm_i_m_m_i_same_mass, zm_i_m_0_i, zm_i_0_0_i, zm_i_m_m_l_i, zm_i_m_m_l_i_same_mass, zm_i_m_0_l_i, zm_i_0_0_l_i,
  zm_i_m_m_t_i, zm_i_m_m_t_i_same_mass, zm_i_m_0_t_i, zm_i_0_0_t_i,
  zm_d_i_m_m_i, zm_d_i_m_m_i_same_mass, zm_d_i_m_0_i, zm_d_i_0_0_i, zm_d_i_m_m_l_i, zm_d_i_m_m_l_i_same_mass, zm_d_i_m_0_l_i, zm_d_i_0_0_l_i,
  zm_d_i_m_m_t_i, zm_d_i_m_m_t_i_same_mass, zm_d_i_m_0_t_i, zm_d_i_0_0_t_i, zm_tlog_t, zm_tlog, zm_r_0.
Ltac cohzm := intros; unzm; cbv zeta; generalize PI2; intros; rewrite ?energy_RC; numcbn; rewrite ?bose_RC; pushRtoC; reflexivity.

(* generated *)
Lemma i_m_m_i_RRR q (om : R) (p : R) (m1 : R) (m2 : R) beta : i_m_m_i q om p m1 m2 beta = i_m_m_i q (RtoC om) p (RtoC m1) (RtoC m2) beta.
Proof. coh. Qed.
Lemma i_m_m_i_RRC q (om : R) (p : R) (m1 : R) (m2 : C) beta : i_m_m_i q om p m1 m2 beta = i_m_m_i q (RtoC om) p (RtoC m1) m2 beta.
Proof. coh. Qed.
Lemma i_m_m_i_RCR q (om : R) (p : R) (m1 : C) (m2 : R) beta : i_m_m_i q om p m1 m2 beta = i_m_m_i q (RtoC om) p m1 (RtoC m2) beta.
Proof. coh. Qed.
Lemma i_m_m_i_RCC q (om : R) (p : R) (m1 : C) (m2 : C) beta : i_m_m_i q om p m1 m2 beta = i_m_m_i q (RtoC om) p m1 m2 beta.
Proof. coh. Qed.
Lemma i_m_m_i_CRR q (om : C) (p : R) (m1 : R) (m2 : R) beta : i_m_m_i q om p m1 m2 beta = i_m_m_i q om p (RtoC m1) (RtoC m2) beta.
Proof. coh. Qed.
Lemma i_m_m_i_CRC q (om : C) (p : R) (m1 : R) (m2 : C) beta : i_m_m_i q om p m1 m2 beta = i_m_m_i q om p (RtoC m1) m2 beta.
Proof. coh. Qed.
Lemma i_m_m_i_CCR q (om : C) (p : R) (m1 : C) (m2 : R) beta : i_m_m_i q om p m1 m2 beta = i_m_m_i q om p m1 (RtoC m2) beta.
Proof. coh. Qed.
Lemma i_m_m_l_i_RRR q (om : R) (p : R) (m1 : R) (m2 : R) beta : i_m_m_l_i q om p m1 m2 beta = i_m_m_l_i q (RtoC om) p (RtoC m1) (RtoC m2) beta.
Proof. coh. Qed.
Lemma i_m_m_l_i_RRC q (om : R) (p : R) (m1 : R) (m2 : C) beta : i_m_m_l_i q om p m1 m2 beta = i_m_m_l_i q (RtoC om) p (RtoC m1) m2 beta.
Proof. coh. Qed.
Lemma i_m_m_l_i_RCR q (om : R) (p : R) (m1 : C) (m2 : R) beta : i_m_m_l_i q om p m1 m2 beta = i_m_m_l_i q (RtoC om) p m1 (RtoC m2) beta.
Proof. coh. Qed.
Lemma i_m_m_l_i_RCC q (om : R) (p : R) (m1 : C) (m2 : C) beta : i_m_m_l_i q om p m1 m2 beta = i_m_m_l_i q (RtoC om) p m1 m2 beta.
Proof. coh. Qed.
Lemma i_m_m_l_i_CRR q (om : C) (p : R) (m1 : R) (m2 : R) beta : i_m_m_l_i q om p m1 m2 beta = i_m_m_l_i q om p (RtoC m1) (RtoC m2) beta.
Proof. coh. Qed.
Lemma i_m_m_l_i_CRC q (om : C) (p : R) (m1 : R) (m2 : C) beta : i_m_m_l_i q om p m1 m2 beta = i_m_m_l_i q om p (RtoC m1) m2 beta.
Proof. coh. Qed.
Lemma i_m_m_l_i_CCR q (om : C) (p : R) (m1 : C) (m2 : R) beta : i_m_m_l_i q om p m1 m2 beta = i_m_m_l_i q om p m1 (RtoC m2) beta.
Proof. coh. Qed.
Lemma i_m_m_t_i_RRR q (om : R) (p : R) (m1 : R) (m2 : R) beta : i_m_m_t_i q om p m1 m2 beta = i_m_m_t_i q (RtoC om) p (RtoC m1) (RtoC m2) beta.
Proof. coh. Qed.
Lemma i_m_m_t_i_RRC q (om : R) (p : R) (m1 : R) (m2 : C) beta : i_m_m_t_i q om p m1 m2 beta = i_m_m_t_i q (RtoC om) p (RtoC m1) m2 beta.
Proof. coh. Qed.
Lemma i_m_m_t_i_RCR q (om : R) (p : R) (m1 : C) (m2 : R) beta : i_m_m_t_i q om p m1 m2 beta = i_m_m_t_i q (RtoC om) p m1 (RtoC m2) beta.
Proof. coh. Qed.
Lemma i_m_m_t_i_RCC q (om : R) (p : R) (m1 : C) (m2 : C) beta : i_m_m_t_i q om p m1 m2 beta = i_m_m_t_i q (RtoC om) p m1 m2 beta.
Proof. coh. Qed.
Lemma i_m_m_t_i_CRR q (om : C) (p : R) (m1 : R) (m2 : R) beta : i_m_m_t_i q om p m1 m2 beta = i_m_m_t_i q om p (RtoC m1) (RtoC m2) beta.
Proof. coh. Qed.
Lemma i_m_m_t_i_CRC q (om : C) (p : R) (m1 : R) (m2 : C) beta : i_m_m_t_i q om p m1 m2 beta = i_m_m_t_i q om p (RtoC m1) m2 beta.
Proof. coh. Qed.
Lemma i_m_m_t_i_CCR q (om : C) (p : R) (m1 : C) (m2 : R) beta : i_m_m_t_i q om p m1 m2 beta = i_m_m_t_i q om p m1 (RtoC m2) beta.
Proof. coh. Qed.
Lemma d_i_m_m_i_RRR q (om : R) (p : R) (m1 : R) (m2 : R) beta : d_i_m_m_i q om p m1 m2 beta = d_i_m_m_i q (RtoC om) p (RtoC m1) (RtoC m2) beta.
Proof. coh. Qed.
Lemma d_i_m_m_i_RRC q (om : R) (p : R) (m1 : R) (m2 : C) beta : d_i_m_m_i q om p m1 m2 beta = d_i_m_m_i q (RtoC om) p (RtoC m1) m2 beta.
Proof. coh. Qed.
Lemma d_i_m_m_i_RCR q (om : R) (p : R) (m1 : C) (m2 : R) beta : d_i_m_m_i q om p m1 m2 beta = d_i_m_m_i q (RtoC om) p m1 (RtoC m2) beta.
Proof. coh. Qed.
Lemma d_i_m_m_i_RCC q (om : R) (p : R) (m1 : C) (m2 : C) beta : d_i_m_m_i q om p m1 m2 beta = d_i_m_m_i q (RtoC om) p m1 m2 beta.
Proof. coh. Qed.
Lemma d_i_m_m_i_CRR q (om : C) (p : R) (m1 : R) (m2 : R) beta : d_i_m_m_i q om p m1 m2 beta = d_i_m_m_i q om p (RtoC m1) (RtoC m2) beta.
Proof. coh. Qed.
Lemma d_i_m_m_i_CRC q (om : C) (p : R) (m1 : R) (m2 : C) beta : d_i_m_m_i q om p m1 m2 beta = d_i_m_m_i q om p (RtoC m1) m2 beta.
Proof. coh. Qed.
Lemma d_i_m_m_i_CCR q (om : C) (p : R) (m1 : C) (m2 : R) beta : d_i_m_m_i q om p m1 m2 beta = d_i_m_m_i q om p m1 (RtoC m2) beta.
Proof. coh. Qed.
Lemma d_i_m_m_l_i_RRR q (om : R) (p : R) (m1 : R) (m2 : R) beta : d_i_m_m_l_i q om p m1 m2 beta = d_i_m_m_l_i q (RtoC om) p (RtoC m1) (RtoC m2) beta.
Proof. coh. Qed.
Lemma d_i_m_m_l_i_RRC q (om : R) (p : R) (m1 : R) (m2 : C) beta : d_i_m_m_l_i q om p m1 m2 beta = d_i_m_m_l_i q (RtoC om) p (RtoC m1) m2 beta.
Proof. coh. Qed.
Lemma d_i_m_m_l_i_RCR q (om : R) (p : R) (m1 : C) (m2 : R) beta : d_i_m_m_l_i q om p m1 m2 beta = d_i_m_m_l_i q (RtoC om) p m1 (RtoC m2) beta.
Proof. coh. Qed.
Lemma d_i_m_m_l_i_RCC q (om : R) (p : R) (m1 : C) (m2 : C) beta : d_i_m_m_l_i q om p m1 m2 beta = d_i_m_m_l_i q (RtoC om) p m1 m2 beta.
Proof. coh. Qed.
Lemma d_i_m_m_l_i_CRR q (om : C) (p : R) (m1 : R) (m2 : R) beta : d_i_m_m_l_i q om p m1 m2 beta = d_i_m_m_l_i q om p (RtoC m1) (RtoC m2) beta.
Proof. coh. Qed.
Lemma d_i_m_m_l_i_CRC q (om : C) (p : R) (m1 : R) (m2 : C) beta : d_i_m_m_l_i q om p m1 m2 beta = d_i_m_m_l_i q om p (RtoC m1) m2 beta.
Proof. coh. Qed.
Lemma d_i_m_m_l_i_CCR q (om : C) (p : R) (m1 : C) (m2 : R) beta : d_i_m_m_l_i q om p m1 m2 beta = d_i_m_m_l_i q om p m1 (RtoC m2) beta.
Proof. coh. Qed.
Lemma d_i_m_m_t_i_RRR q (om : R) (p : R) (m1 : R) (m2 : R) beta : d_i_m_m_t_i q om p m1 m2 beta = d_i_m_m_t_i q (RtoC om) p (RtoC m1) (RtoC m2) beta.
Proof. coh. Qed.
Lemma d_i_m_m_t_i_RRC q (om : R) (p : R) (m1 : R) (m2 : C) beta : d_i_m_m_t_i q om p m1 m2 beta = d_i_m_m_t_i q (RtoC om) p (RtoC m1) m2 beta.
Proof. coh. Qed.
Lemma d_i_m_m_t_i_RCR q (om : R) (p : R) (m1 : C) (m2 : R) beta : d_i_m_m_t_i q om p m1 m2 beta = d_i_m_m_t_i q (RtoC om) p m1 (RtoC m2) beta.
Proof. coh. Qed.
Lemma d_i_m_m_t_i_RCC q (om : R) (p : R) (m1 : C) (m2 : C) beta : d_i_m_m_t_i q om p m1 m2 beta = d_i_m_m_t_i q (RtoC om) p m1 m2 beta.
Proof. coh. Qed.
Lemma d_i_m_m_t_i_CRR q (om : C) (p : R) (m1 : R) (m2 : R) beta : d_i_m_m_t_i q om p m1 m2 beta = d_i_m_m_t_i q om p (RtoC m1) (RtoC m2) beta.
Proof. coh. Qed.
Lemma d_i_m_m_t_i_CRC q (om : C) (p : R) (m1 : R) (m2 : C) beta : d_i_m_m_t_i q om p m1 m2 beta = d_i_m_m_t_i q om p (RtoC m1) m2 beta.
Proof. coh. Qed.
Lemma d_i_m_m_t_i_CCR q (om : C) (p : R) (m1 : C) (m2 : R) beta : d_i_m_m_t_i q om p m1 m2 beta = d_i_m_m_t_i q om p m1 (RtoC m2) beta.
Proof. coh. Qed.
Lemma i_m_m_i_same_mass_RR q (om : R) (p : R) (m : R) beta : i_m_m_i_same_mass q om p m beta = i_m_m_i_same_mass q (RtoC om) p (RtoC m) beta.
Proof. coh. Qed.
Lemma i_m_m_i_same_mass_RC q (om : R) (p : R) (m : C) beta : i_m_m_i_same_mass q om p m beta = i_m_m_i_same_mass q (RtoC om) p m beta.
Proof. coh. Qed.
Lemma i_m_m_i_same_mass_CR q (om : C) (p : R) (m : R) beta : i_m_m_i_same_mass q om p m beta = i_m_m_i_same_mass q om p (RtoC m) beta.
Proof. coh. Qed.
Lemma i_m_m_l_i_same_mass_RR q (om : R) (p : R) (m : R) beta : i_m_m_l_i_same_mass q om p m beta = i_m_m_l_i_same_mass q (RtoC om) p (RtoC m) beta.
Proof. coh. Qed.
Lemma i_m_m_l_i_same_mass_RC q (om : R) (p : R) (m : C) beta : i_m_m_l_i_same_mass q om p m beta = i_m_m_l_i_same_mass q (RtoC om) p m beta.
Proof. coh. Qed.
Lemma i_m_m_l_i_same_mass_CR q (om : C) (p : R) (m : R) beta : i_m_m_l_i_same_mass q om p m beta = i_m_m_l_i_same_mass q om p (RtoC m) beta.
Proof. coh. Qed.
Lemma i_m_m_t_i_same_mass_RR q (om : R) (p : R) (m : R) beta : i_m_m_t_i_same_mass q om p m beta = i_m_m_t_i_same_mass q (RtoC om) p (RtoC m) beta.
Proof. coh. Qed.
Lemma i_m_m_t_i_same_mass_RC q (om : R) (p : R) (m : C) beta : i_m_m_t_i_same_mass q om p m beta = i_m_m_t_i_same_mass q (RtoC om) p m beta.
Proof. coh. Qed.
Lemma i_m_m_t_i_same_mass_CR q (om : C) (p : R) (m : R) beta : i_m_m_t_i_same_mass q om p m beta = i_m_m_t_i_same_mass q om p (RtoC m) beta.
Proof. coh. Qed.
Lemma i_m_0_i_RR q (om : R) (p : R) (m : R) beta : i_m_0_i q om p m beta = i_m_0_i q (RtoC om) p (RtoC m) beta.
Proof. coh. Qed.
Lemma i_m_0_i_RC q (om : R) (p : R) (m : C) beta : i_m_0_i q om p m beta = i_m_0_i q (RtoC om) p m beta.
Proof. coh. Qed.
Lemma i_m_0_i_CR q (om : C) (p : R) (m : R) beta : i_m_0_i q om p m beta = i_m_0_i q om p (RtoC m) beta.
Proof. coh. Qed.
Lemma i_m_0_l_i_RR q (om : R) (p : R) (m : R) beta : i_m_0_l_i q om p m beta = i_m_0_l_i q (RtoC om) p (RtoC m) beta.
Proof. coh. Qed.
Lemma i_m_0_l_i_RC q (om : R) (p : R) (m : C) beta : i_m_0_l_i q om p m beta = i_m_0_l_i q (RtoC om) p m beta.
Proof. coh. Qed.
Lemma i_m_0_l_i_CR q (om : C) (p : R) (m : R) beta : i_m_0_l_i q om p m beta = i_m_0_l_i q om p (RtoC m) beta.
Proof. coh. Qed.
Lemma i_m_0_t_i_RR q (om : R) (p : R) (m : R) beta : i_m_0_t_i q om p m beta = i_m_0_t_i q (RtoC om) p (RtoC m) beta.
Proof. coh. Qed.
Lemma i_m_0_t_i_RC q (om : R) (p : R) (m : C) beta : i_m_0_t_i q om p m beta = i_m_0_t_i q (RtoC om) p m beta.
Proof. coh. Qed.
Lemma i_m_0_t_i_CR q (om : C) (p : R) (m : R) beta : i_m_0_t_i q om p m beta = i_m_0_t_i q om p (RtoC m) beta.
Proof. coh. Qed.
Lemma d_i_m_m_i_same_mass_RR q (om : R) (p : R) (m : R) beta : d_i_m_m_i_same_mass q om p m beta = d_i_m_m_i_same_mass q (RtoC om) p (RtoC m) beta.
Proof. coh. Qed.
Lemma d_i_m_m_i_same_mass_RC q (om : R) (p : R) (m : C) beta : d_i_m_m_i_same_mass q om p m beta = d_i_m_m_i_same_mass q (RtoC om) p m beta.
Proof. coh. Qed.
Lemma d_i_m_m_i_same_mass_CR q (om : C) (p : R) (m : R) beta : d_i_m_m_i_same_mass q om p m beta = d_i_m_m_i_same_mass q om p (RtoC m) beta.
Proof. coh. Qed.
Lemma d_i_m_m_l_i_same_mass_RR q (om : R) (p : R) (m : R) beta : d_i_m_m_l_i_same_mass q om p m beta = d_i_m_m_l_i_same_mass q (RtoC om) p (RtoC m) beta.
Proof. coh. Qed.
Lemma d_i_m_m_l_i_same_mass_RC q (om : R) (p : R) (m : C) beta : d_i_m_m_l_i_same_mass q om p m beta = d_i_m_m_l_i_same_mass q (RtoC om) p m beta.
Proof. coh. Qed.
Lemma d_i_m_m_l_i_same_mass_CR q (om : C) (p : R) (m : R) beta : d_i_m_m_l_i_same_mass q om p m beta = d_i_m_m_l_i_same_mass q om p (RtoC m) beta.
Proof. coh. Qed.
Lemma d_i_m_m_t_i_same_mass_RR q (om : R) (p : R) (m : R) beta : d_i_m_m_t_i_same_mass q om p m beta = d_i_m_m_t_i_same_mass q (RtoC om) p (RtoC m) beta.
Proof. coh. Qed.
Lemma d_i_m_m_t_i_same_mass_RC q (om : R) (p : R) (m : C) beta : d_i_m_m_t_i_same_mass q om p m beta = d_i_m_m_t_i_same_mass q (RtoC om) p m beta.
Proof. coh. Qed.
Lemma d_i_m_m_t_i_same_mass_CR q (om : C) (p : R) (m : R) beta : d_i_m_m_t_i_same_mass q om p m beta = d_i_m_m_t_i_same_mass q om p (RtoC m) beta.
Proof. coh. Qed.
Lemma d_i_m_0_i_RR q (om : R) (p : R) (m : R) beta : d_i_m_0_i q om p m beta = d_i_m_0_i q (RtoC om) p (RtoC m) beta.
Proof. coh. Qed.
Lemma d_i_m_0_i_RC q (om : R) (p : R) (m : C) beta : d_i_m_0_i q om p m beta = d_i_m_0_i q (RtoC om) p m beta.
Proof. coh. Qed.
Lemma d_i_m_0_i_CR q (om : C) (p : R) (m : R) beta : d_i_m_0_i q om p m beta = d_i_m_0_i q om p (RtoC m) beta.
Proof. coh. Qed.
Lemma d_i_m_0_l_i_RR q (om : R) (p : R) (m : R) beta : d_i_m_0_l_i q om p m beta = d_i_m_0_l_i q (RtoC om) p (RtoC m) beta.
Proof. coh. Qed.
Lemma d_i_m_0_l_i_RC q (om : R) (p : R) (m : C) beta : d_i_m_0_l_i q om p m beta = d_i_m_0_l_i q (RtoC om) p m beta.
Proof. coh. Qed.
Lemma d_i_m_0_l_i_CR q (om : C) (p : R) (m : R) beta : d_i_m_0_l_i q om p m beta = d_i_m_0_l_i q om p (RtoC m) beta.
Proof. coh. Qed.
Lemma d_i_m_0_t_i_RR q (om : R) (p : R) (m : R) beta : d_i_m_0_t_i q om p m beta = d_i_m_0_t_i q (RtoC om) p (RtoC m) beta.
Proof. coh. Qed.
Lemma d_i_m_0_t_i_RC q (om : R) (p : R) (m : C) beta : d_i_m_0_t_i q om p m beta = d_i_m_0_t_i q (RtoC om) p m beta.
Proof. coh. Qed.
Lemma d_i_m_0_t_i_CR q (om : C) (p : R) (m : R) beta : d_i_m_0_t_i q om p m beta = d_i_m_0_t_i q om p (RtoC m) beta.
Proof. coh. Qed.
Lemma i_0_0_i_R q (om p : R) beta : i_0_0_i q om p beta = i_0_0_i q (RtoC om) p beta.
Proof. coh. Qed.
Lemma i_0_0_l_i_R q (om p : R) beta : i_0_0_l_i q om p beta = i_0_0_l_i q (RtoC om) p beta.
Proof. coh. Qed.
Lemma i_0_0_t_i_R q (om p : R) beta : i_0_0_t_i q om p beta = i_0_0_t_i q (RtoC om) p beta.
Proof. coh. Qed.
Lemma d_i_0_0_i_R q (om p : R) beta : d_i_0_0_i q om p beta = d_i_0_0_i q (RtoC om) p beta.
Proof. coh. Qed.
Lemma d_i_0_0_l_i_R q (om p : R) beta : d_i_0_0_l_i q om p beta = d_i_0_0_l_i q (RtoC om) p beta.
Proof. coh. Qed.
Lemma d_i_0_0_t_i_R q (om p : R) beta : d_i_0_0_t_i q om p beta = d_i_0_0_t_i q (RtoC om) p beta.
Proof. coh. Qed.
Lemma j_m_i_R q (m : R) beta : j_m_i q (RtoC m) beta = RtoC (j_m_i q m beta).
Proof. coh. Qed.
Lemma j_m_l_i_R q (m : R) beta : j_m_l_i q (RtoC m) beta = RtoC (j_m_l_i q m beta).
Proof. coh. Qed.
Lemma j_m_t_i_R q (m : R) beta : j_m_t_i q (RtoC m) beta = RtoC (j_m_t_i q m beta).
Proof. coh. Qed.
Lemma d_j_m_i_R q (m : R) beta : d_j_m_i q (RtoC m) beta = RtoC (d_j_m_i q m beta).
Proof. coh. Qed.
Lemma d_j_m_l_i_R q (m : R) beta : d_j_m_l_i q (RtoC m) beta = RtoC (d_j_m_l_i q m beta).
Proof. coh. Qed.
Lemma d_j_m_t_i_R q (m : R) beta : d_j_m_t_i q (RtoC m) beta = RtoC (d_j_m_t_i q m beta).
Proof. coh. Qed.
Lemma d2_j_m_i_R q (m : R) beta : d2_j_m_i q (RtoC m) beta = RtoC (d2_j_m_i q m beta).
Proof. coh. Qed.
Lemma d2_j_m_l_i_R q (m : R) beta : d2_j_m_l_i q (RtoC m) beta = RtoC (d2_j_m_l_i q m beta).
Proof. coh. Qed.
Lemma d2_j_m_t_i_R q (m : R) beta : d2_j_m_t_i q (RtoC m) beta = RtoC (d2_j_m_t_i q m beta).
Proof. coh. Qed.
Lemma zp_i_m_m_i_RRR q (om : R) (m1 : R) (m2 : R) beta : zp_i_m_m_i q om m1 m2 beta = zp_i_m_m_i q (RtoC om) (RtoC m1) (RtoC m2) beta.
Proof. cohzp. Qed.
Lemma zp_i_m_m_i_RRC q (om : R) (m1 : R) (m2 : C) beta : zp_i_m_m_i q om m1 m2 beta = zp_i_m_m_i q (RtoC om) (RtoC m1) m2 beta.
Proof. cohzp. Qed.
Lemma zp_i_m_m_i_RCR q (om : R) (m1 : C) (m2 : R) beta : zp_i_m_m_i q om m1 m2 beta = zp_i_m_m_i q (RtoC om) m1 (RtoC m2) beta.
Proof. cohzp. Qed.
Lemma zp_i_m_m_i_RCC q (om : R) (m1 : C) (m2 : C) beta : zp_i_m_m_i q om m1 m2 beta = zp_i_m_m_i q (RtoC om) m1 m2 beta.
Proof. cohzp. Qed.
Lemma zp_i_m_m_i_CRR q (om : C) (m1 : R) (m2 : R) beta : zp_i_m_m_i q om m1 m2 beta = zp_i_m_m_i q om (RtoC m1) (RtoC m2) beta.
Proof. cohzp. Qed.
Lemma zp_i_m_m_i_CRC q (om : C) (m1 : R) (m2 : C) beta : zp_i_m_m_i q om m1 m2 beta = zp_i_m_m_i q om (RtoC m1) m2 beta.
Proof. cohzp. Qed.
Lemma zp_i_m_m_i_CCR q (om : C) (m1 : C) (m2 : R) beta : zp_i_m_m_i q om m1 m2 beta = zp_i_m_m_i q om m1 (RtoC m2) beta.
Proof. cohzp. Qed.
Lemma zp_i_m_m_l_i_RRR q (om : R) (m1 : R) (m2 : R) beta : zp_i_m_m_l_i q om m1 m2 beta = zp_i_m_m_l_i q (RtoC om) (RtoC m1) (RtoC m2) beta.
Proof. cohzp. Qed.
Lemma zp_i_m_m_l_i_RRC q (om : R) (m1 : R) (m2 : C) beta : zp_i_m_m_l_i q om m1 m2 beta = zp_i_m_m_l_i q (RtoC om) (RtoC m1) m2 beta.
Proof. cohzp. Qed.
Lemma zp_i_m_m_l_i_RCR q (om : R) (m1 : C) (m2 : R) beta : zp_i_m_m_l_i q om m1 m2 beta = zp_i_m_m_l_i q (RtoC om) m1 (RtoC m2) beta.
Proof. cohzp. Qed.
Lemma zp_i_m_m_l_i_RCC q (om : R) (m1 : C) (m2 : C) beta : zp_i_m_m_l_i q om m1 m2 beta = zp_i_m_m_l_i q (RtoC om) m1 m2 beta.
Proof. cohzp. Qed.
Lemma zp_i_m_m_l_i_CRR q (om : C) (m1 : R) (m2 : R) beta : zp_i_m_m_l_i q om m1 m2 beta = zp_i_m_m_l_i q om (RtoC m1) (RtoC m2) beta.
Proof. cohzp. Qed.
Lemma zp_i_m_m_l_i_CRC q (om : C) (m1 : R) (m2 : C) beta : zp_i_m_m_l_i q om m1 m2 beta = zp_i_m_m_l_i q om (RtoC m1) m2 beta.
Proof. cohzp. Qed.
Lemma zp_i_m_m_l_i_CCR q (om : C) (m1 : C) (m2 : R) beta : zp_i_m_m_l_i q om m1 m2 beta = zp_i_m_m_l_i q om m1 (RtoC m2) beta.
Proof. cohzp. Qed.
Lemma zp_i_m_m_t_i_RRR q (om : R) (m1 : R) (m2 : R) beta : zp_i_m_m_t_i q om m1 m2 beta = zp_i_m_m_t_i q (RtoC om) (RtoC m1) (RtoC m2) beta.
Proof. cohzp. Qed.
Lemma zp_i_m_m_t_i_RRC q (om : R) (m1 : R) (m2 : C) beta : zp_i_m_m_t_i q om m1 m2 beta = zp_i_m_m_t_i q (RtoC om) (RtoC m1) m2 beta.
Proof. cohzp. Qed.
Lemma zp_i_m_m_t_i_RCR q (om : R) (m1 : C) (m2 : R) beta : zp_i_m_m_t_i q om m1 m2 beta = zp_i_m_m_t_i q (RtoC om) m1 (RtoC m2) beta.
Proof. cohzp. Qed.
Lemma zp_i_m_m_t_i_RCC q (om : R) (m1 : C) (m2 : C) beta : zp_i_m_m_t_i q om m1 m2 beta = zp_i_m_m_t_i q (RtoC om) m1 m2 beta.
Proof. cohzp. Qed.
Lemma zp_i_m_m_t_i_CRR q (om : C) (m1 : R) (m2 : R) beta : zp_i_m_m_t_i q om m1 m2 beta = zp_i_m_m_t_i q om (RtoC m1) (RtoC m2) beta.
Proof. cohzp. Qed.
Lemma zp_i_m_m_t_i_CRC q (om : C) (m1 : R) (m2 : C) beta : zp_i_m_m_t_i q om m1 m2 beta = zp_i_m_m_t_i q om (RtoC m1) m2 beta.
Proof. cohzp. Qed.
Lemma zp_i_m_m_t_i_CCR q (om : C) (m1 : C) (m2 : R) beta : zp_i_m_m_t_i q om m1 m2 beta = zp_i_m_m_t_i q om m1 (RtoC m2) beta.
Proof. cohzp. Qed.
Lemma zp_d_i_m_m_i_RRR q (om : R) (m1 : R) (m2 : R) beta : zp_d_i_m_m_i q om m1 m2 beta = zp_d_i_m_m_i q (RtoC om) (RtoC m1) (RtoC m2) beta.
Proof. cohzp. Qed.
Lemma zp_d_i_m_m_i_RRC q (om : R) (m1 : R) (m2 : C) beta : zp_d_i_m_m_i q om m1 m2 beta = zp_d_i_m_m_i q (RtoC om) (RtoC m1) m2 beta.
Proof. cohzp. Qed.
Lemma zp_d_i_m_m_i_RCR q (om : R) (m1 : C) (m2 : R) beta : zp_d_i_m_m_i q om m1 m2 beta = zp_d_i_m_m_i q (RtoC om) m1 (RtoC m2) beta.
Proof. cohzp. Qed.
Lemma zp_d_i_m_m_i_RCC q (om : R) (m1 : C) (m2 : C) beta : zp_d_i_m_m_i q om m1 m2 beta = zp_d_i_m_m_i q (RtoC om) m1 m2 beta.
Proof. cohzp. Qed.
Lemma zp_d_i_m_m_i_CRR q (om : C) (m1 : R) (m2 : R) beta : zp_d_i_m_m_i q om m1 m2 beta = zp_d_i_m_m_i q om (RtoC m1) (RtoC m2) beta.
Proof. cohzp. Qed.
Lemma zp_d_i_m_m_i_CRC q (om : C) (m1 : R) (m2 : C) beta : zp_d_i_m_m_i q om m1 m2 beta = zp_d_i_m_m_i q om (RtoC m1) m2 beta.
Proof. cohzp. Qed.
Lemma zp_d_i_m_m_i_CCR q (om : C) (m1 : C) (m2 : R) beta : zp_d_i_m_m_i q om m1 m2 beta = zp_d_i_m_m_i q om m1 (RtoC m2) beta.
Proof. cohzp. Qed.
Lemma zp_d_i_m_m_l_i_RRR q (om : R) (m1 : R) (m2 : R) beta : zp_d_i_m_m_l_i q om m1 m2 beta = zp_d_i_m_m_l_i q (RtoC om) (RtoC m1) (RtoC m2) beta.
Proof. cohzp. Qed.
Lemma zp_d_i_m_m_l_i_RRC q (om : R) (m1 : R) (m2 : C) beta : zp_d_i_m_m_l_i q om m1 m2 beta = zp_d_i_m_m_l_i q (RtoC om) (RtoC m1) m2 beta.
Proof. cohzp. Qed.
Lemma zp_d_i_m_m_l_i_RCR q (om : R) (m1 : C) (m2 : R) beta : zp_d_i_m_m_l_i q om m1 m2 beta = zp_d_i_m_m_l_i q (RtoC om) m1 (RtoC m2) beta.
Proof. cohzp. Qed.
Lemma zp_d_i_m_m_l_i_RCC q (om : R) (m1 : C) (m2 : C) beta : zp_d_i_m_m_l_i q om m1 m2 beta = zp_d_i_m_m_l_i q (RtoC om) m1 m2 beta.
Proof. cohzp. Qed.
Lemma zp_d_i_m_m_l_i_CRR q (om : C) (m1 : R) (m2 : R) beta : zp_d_i_m_m_l_i q om m1 m2 beta = zp_d_i_m_m_l_i q om (RtoC m1) (RtoC m2) beta.
Proof. cohzp. Qed.
Lemma zp_d_i_m_m_l_i_CRC q (om : C) (m1 : R) (m2 : C) beta : zp_d_i_m_m_l_i q om m1 m2 beta = zp_d_i_m_m_l_i q om (RtoC m1) m2 beta.
Proof. cohzp. Qed.
Lemma zp_d_i_m_m_l_i_CCR q (om : C) (m1 : C) (m2 : R) beta : zp_d_i_m_m_l_i q om m1 m2 beta = zp_d_i_m_m_l_i q om m1 (RtoC m2) beta.
Proof. cohzp. Qed.
Lemma zp_d_i_m_m_t_i_RRR q (om : R) (m1 : R) (m2 : R) beta : zp_d_i_m_m_t_i q om m1 m2 beta = zp_d_i_m_m_t_i q (RtoC om) (RtoC m1) (RtoC m2) beta.
Proof. cohzp. Qed.
Lemma zp_d_i_m_m_t_i_RRC q (om : R) (m1 : R) (m2 : C) beta : zp_d_i_m_m_t_i q om m1 m2 beta = zp_d_i_m_m_t_i q (RtoC om) (RtoC m1) m2 beta.
Proof. cohzp. Qed.
Lemma zp_d_i_m_m_t_i_RCR q (om : R) (m1 : C) (m2 : R) beta : zp_d_i_m_m_t_i q om m1 m2 beta = zp_d_i_m_m_t_i q (RtoC om) m1 (RtoC m2) beta.
Proof. cohzp. Qed.
Lemma zp_d_i_m_m_t_i_RCC q (om : R) (m1 : C) (m2 : C) beta : zp_d_i_m_m_t_i q om m1 m2 beta = zp_d_i_m_m_t_i q (RtoC om) m1 m2 beta.
Proof. cohzp. Qed.
Lemma zp_d_i_m_m_t_i_CRR q (om : C) (m1 : R) (m2 : R) beta : zp_d_i_m_m_t_i q om m1 m2 beta = zp_d_i_m_m_t_i q om (RtoC m1) (RtoC m2) beta.
Proof. cohzp. Qed.
Lemma zp_d_i_m_m_t_i_CRC q (om : C) (m1 : R) (m2 : C) beta : zp_d_i_m_m_t_i q om m1 m2 beta = zp_d_i_m_m_t_i q om (RtoC m1) m2 beta.
Proof. cohzp. Qed.
Lemma zp_d_i_m_m_t_i_CCR q (om : C) (m1 : C) (m2 : R) beta : zp_d_i_m_m_t_i q om m1 m2 beta = zp_d_i_m_m_t_i q om m1 (RtoC m2) beta.
Proof. cohzp. Qed.
Lemma zp_i_m_m_i_same_mass_RR q (om : R) (m : R) beta : zp_i_m_m_i_same_mass q om m beta = zp_i_m_m_i_same_mass q (RtoC om) (RtoC m) beta.
Proof. cohzp. Qed.
Lemma zp_i_m_m_i_same_mass_RC q (om : R) (m : C) beta : zp_i_m_m_i_same_mass q om m beta = zp_i_m_m_i_same_mass q (RtoC om) m beta.
Proof. cohzp. Qed.
Lemma zp_i_m_m_i_same_mass_CR q (om : C) (m : R) beta : zp_i_m_m_i_same_mass q om m beta = zp_i_m_m_i_same_mass q om (RtoC m) beta.
Proof. cohzp. Qed.
Lemma zp_i_m_m_l_i_same_mass_RR q (om : R) (m : R) beta : zp_i_m_m_l_i_same_mass q om m beta = zp_i_m_m_l_i_same_mass q (RtoC om) (RtoC m) beta.
Proof. cohzp. Qed.
Lemma zp_i_m_m_l_i_same_mass_RC q (om : R) (m : C) beta : zp_i_m_m_l_i_same_mass q om m beta = zp_i_m_m_l_i_same_mass q (RtoC om) m beta.
Proof. cohzp. Qed.
Lemma zp_i_m_m_l_i_same_mass_CR q (om : C) (m : R) beta : zp_i_m_m_l_i_same_mass q om m beta = zp_i_m_m_l_i_same_mass q om (RtoC m) beta.
Proof. cohzp. Qed.
Lemma zp_i_m_m_t_i_same_mass_RR q (om : R) (m : R) beta : zp_i_m_m_t_i_same_mass q om m beta = zp_i_m_m_t_i_same_mass q (RtoC om) (RtoC m) beta.
Proof. cohzp. Qed.
Lemma zp_i_m_m_t_i_same_mass_RC q (om : R) (m : C) beta : zp_i_m_m_t_i_same_mass q om m beta = zp_i_m_m_t_i_same_mass q (RtoC om) m beta.
Proof. cohzp. Qed.
Lemma zp_i_m_m_t_i_same_mass_CR q (om : C) (m : R) beta : zp_i_m_m_t_i_same_mass q om m beta = zp_i_m_m_t_i_same_mass q om (RtoC m) beta.
Proof. cohzp. Qed.
Lemma zp_i_m_0_i_RR q (om : R) (m : R) beta : zp_i_m_0_i q om m beta = zp_i_m_0_i q (RtoC om) (RtoC m) beta.
Proof. cohzp. Qed.
Lemma zp_i_m_0_i_RC q (om : R) (m : C) beta : zp_i_m_0_i q om m beta = zp_i_m_0_i q (RtoC om) m beta.
Proof. cohzp. Qed.
Lemma zp_i_m_0_i_CR q (om : C) (m : R) beta : zp_i_m_0_i q om m beta = zp_i_m_0_i q om (RtoC m) beta.
Proof. cohzp. Qed.
Lemma zp_i_m_0_l_i_RR q (om : R) (m : R) beta : zp_i_m_0_l_i q om m beta = zp_i_m_0_l_i q (RtoC om) (RtoC m) beta.
Proof. cohzp. Qed.
Lemma zp_i_m_0_l_i_RC q (om : R) (m : C) beta : zp_i_m_0_l_i q om m beta = zp_i_m_0_l_i q (RtoC om) m beta.
Proof. cohzp. Qed.
Lemma zp_i_m_0_l_i_CR q (om : C) (m : R) beta : zp_i_m_0_l_i q om m beta = zp_i_m_0_l_i q om (RtoC m) beta.
Proof. cohzp. Qed.
Lemma zp_i_m_0_t_i_RR q (om : R) (m : R) beta : zp_i_m_0_t_i q om m beta = zp_i_m_0_t_i q (RtoC om) (RtoC m) beta.
Proof. cohzp. Qed.
Lemma zp_i_m_0_t_i_RC q (om : R) (m : C) beta : zp_i_m_0_t_i q om m beta = zp_i_m_0_t_i q (RtoC om) m beta.
Proof. cohzp. Qed.
Lemma zp_i_m_0_t_i_CR q (om : C) (m : R) beta : zp_i_m_0_t_i q om m beta = zp_i_m_0_t_i q om (RtoC m) beta.
Proof. cohzp. Qed.
Lemma zp_d_i_m_m_i_same_mass_RR q (om : R) (m : R) beta : zp_d_i_m_m_i_same_mass q om m beta = zp_d_i_m_m_i_same_mass q (RtoC om) (RtoC m) beta.
Proof. cohzp. Qed.
Lemma zp_d_i_m_m_i_same_mass_RC q (om : R) (m : C) beta : zp_d_i_m_m_i_same_mass q om m beta = zp_d_i_m_m_i_same_mass q (RtoC om) m beta.
Proof. cohzp. Qed.
Lemma zp_d_i_m_m_i_same_mass_CR q (om : C) (m : R) beta : zp_d_i_m_m_i_same_mass q om m beta = zp_d_i_m_m_i_same_mass q om (RtoC m) beta.
Proof. cohzp. Qed.
Lemma zp_d_i_m_m_l_i_same_mass_RR q (om : R) (m : R) beta : zp_d_i_m_m_l_i_same_mass q om m beta = zp_d_i_m_m_l_i_same_mass q (RtoC om) (RtoC m) beta.
Proof. cohzp. Qed.
Lemma zp_d_i_m_m_l_i_same_mass_RC q (om : R) (m : C) beta : zp_d_i_m_m_l_i_same_mass q om m beta = zp_d_i_m_m_l_i_same_mass q (RtoC om) m beta.
Proof. cohzp. Qed.
Lemma zp_d_i_m_m_l_i_same_mass_CR q (om : C) (m : R) beta : zp_d_i_m_m_l_i_same_mass q om m beta = zp_d_i_m_m_l_i_same_mass q om (RtoC m) beta.
Proof. cohzp. Qed.
Lemma zp_d_i_m_m_t_i_same_mass_RR q (om : R) (m : R) beta : zp_d_i_m_m_t_i_same_mass q om m beta = zp_d_i_m_m_t_i_same_mass q (RtoC om) (RtoC m) beta.
Proof. cohzp. Qed.
Lemma zp_d_i_m_m_t_i_same_mass_RC q (om : R) (m : C) beta : zp_d_i_m_m_t_i_same_mass q om m beta = zp_d_i_m_m_t_i_same_mass q (RtoC om) m beta.
Proof. cohzp. Qed.
Lemma zp_d_i_m_m_t_i_same_mass_CR q (om : C) (m : R) beta : zp_d_i_m_m_t_i_same_mass q om m beta = zp_d_i_m_m_t_i_same_mass q om (RtoC m) beta.
Proof. cohzp. Qed.
Lemma zp_d_i_m_0_i_RR q (om : R) (m : R) beta : zp_d_i_m_0_i q om m beta = zp_d_i_m_0_i q (RtoC om) (RtoC m) beta.
Proof. cohzp. Qed.
Lemma zp_d_i_m_0_i_RC q (om : R) (m : C) beta : zp_d_i_m_0_i q om m beta = zp_d_i_m_0_i q (RtoC om) m beta.
Proof. cohzp. Qed.
Lemma zp_d_i_m_0_i_CR q (om : C) (m : R) beta : zp_d_i_m_0_i q om m beta = zp_d_i_m_0_i q om (RtoC m) beta.
Proof. cohzp. Qed.
Lemma zp_d_i_m_0_l_i_RR q (om : R) (m : R) beta : zp_d_i_m_0_l_i q om m beta = zp_d_i_m_0_l_i q (RtoC om) (RtoC m) beta.
Proof. cohzp. Qed.
Lemma zp_d_i_m_0_l_i_RC q (om : R) (m : C) beta : zp_d_i_m_0_l_i q om m beta = zp_d_i_m_0_l_i q (RtoC om) m beta.
Proof. cohzp. Qed.
Lemma zp_d_i_m_0_l_i_CR q (om : C) (m : R) beta : zp_d_i_m_0_l_i q om m beta = zp_d_i_m_0_l_i q om (RtoC m) beta.
Proof. cohzp. Qed.
Lemma zp_d_i_m_0_t_i_RR q (om : R) (m : R) beta : zp_d_i_m_0_t_i q om m beta = zp_d_i_m_0_t_i q (RtoC om) (RtoC m) beta.
Proof. cohzp. Qed.
Lemma zp_d_i_m_0_t_i_RC q (om : R) (m : C) beta : zp_d_i_m_0_t_i q om m beta = zp_d_i_m_0_t_i q (RtoC om) m beta.
Proof. cohzp. Qed.
Lemma zp_d_i_m_0_t_i_CR q (om : C) (m : R) beta : zp_d_i_m_0_t_i q om m beta = zp_d_i_m_0_t_i q om (RtoC m) beta.
Proof. cohzp. Qed.
Lemma zp_i_0_0_i_R q (om : R) beta : zp_i_0_0_i q om beta = zp_i_0_0_i q (RtoC om) beta.
Proof. cohzp. Qed.
Lemma zp_i_0_0_l_i_R q (om : R) beta : zp_i_0_0_l_i q om beta = zp_i_0_0_l_i q (RtoC om) beta.
Proof. cohzp. Qed.
Lemma zp_i_0_0_t_i_R q (om : R) beta : zp_i_0_0_t_i q om beta = zp_i_0_0_t_i q (RtoC om) beta.
Proof. cohzp. Qed.
Lemma zp_d_i_0_0_i_R q (om : R) beta : zp_d_i_0_0_i q om beta = zp_d_i_0_0_i q (RtoC om) beta.
Proof. cohzp. Qed.
Lemma zp_d_i_0_0_l_i_R q (om : R) beta : zp_d_i_0_0_l_i q om beta = zp_d_i_0_0_l_i q (RtoC om) beta.
Proof. cohzp. Qed.
Lemma zp_d_i_0_0_t_i_R q (om : R) beta : zp_d_i_0_0_t_i q om beta = zp_d_i_0_0_t_i q (RtoC om) beta.
Proof. cohzp. Qed.
Lemma zm_i_m_m_i_RR q p (m1 : R) (m2 : R) beta : zm_i_m_m_i q p m1 m2 beta = zm_i_m_m_i q p (RtoC m1) (RtoC m2) beta.
Proof. cohzm. Qed.
Lemma zm_i_m_m_i_RC q p (m1 : R) (m2 : C) beta : zm_i_m_m_i q p m1 m2 beta = zm_i_m_m_i q p (RtoC m1) m2 beta.
Proof. cohzm. Qed.
Lemma zm_i_m_m_i_CR q p (m1 : C) (m2 : R) beta : zm_i_m_m_i q p m1 m2 beta = zm_i_m_m_i q p m1 (RtoC m2) beta.
Proof. cohzm. Qed.
Lemma zm_i_m_m_l_i_RR q p (m1 : R) (m2 : R) beta : zm_i_m_m_l_i q p m1 m2 beta = zm_i_m_m_l_i q p (RtoC m1) (RtoC m2) beta.
Proof. cohzm. Qed.
Lemma zm_i_m_m_l_i_RC q p (m1 : R) (m2 : C) beta : zm_i_m_m_l_i q p m1 m2 beta = zm_i_m_m_l_i q p (RtoC m1) m2 beta.
Proof. cohzm. Qed.
Lemma zm_i_m_m_l_i_CR q p (m1 : C) (m2 : R) beta : zm_i_m_m_l_i q p m1 m2 beta = zm_i_m_m_l_i q p m1 (RtoC m2) beta.
Proof. cohzm. Qed.
Lemma zm_i_m_m_t_i_RR q p (m1 : R) (m2 : R) beta : zm_i_m_m_t_i q p m1 m2 beta = zm_i_m_m_t_i q p (RtoC m1) (RtoC m2) beta.
Proof. cohzm. Qed.
Lemma zm_i_m_m_t_i_RC q p (m1 : R) (m2 : C) beta : zm_i_m_m_t_i q p m1 m2 beta = zm_i_m_m_t_i q p (RtoC m1) m2 beta.
Proof. cohzm. Qed.
Lemma zm_i_m_m_t_i_CR q p (m1 : C) (m2 : R) beta : zm_i_m_m_t_i q p m1 m2 beta = zm_i_m_m_t_i q p m1 (RtoC m2) beta.
Proof. cohzm. Qed.
Lemma zm_d_i_m_m_i_RR q p (m1 : R) (m2 : R) beta : zm_d_i_m_m_i q p m1 m2 beta = zm_d_i_m_m_i q p (RtoC m1) (RtoC m2) beta.
Proof. cohzm. Qed.
Lemma zm_d_i_m_m_i_RC q p (m1 : R) (m2 : C) beta : zm_d_i_m_m_i q p m1 m2 beta = zm_d_i_m_m_i q p (RtoC m1) m2 beta.
Proof. cohzm. Qed.
Lemma zm_d_i_m_m_i_CR q p (m1 : C) (m2 : R) beta : zm_d_i_m_m_i q p m1 m2 beta = zm_d_i_m_m_i q p m1 (RtoC m2) beta.
Proof. cohzm. Qed.
Lemma zm_d_i_m_m_l_i_RR q p (m1 : R) (m2 : R) beta : zm_d_i_m_m_l_i q p m1 m2 beta = zm_d_i_m_m_l_i q p (RtoC m1) (RtoC m2) beta.
Proof. cohzm. Qed.
Lemma zm_d_i_m_m_l_i_RC q p (m1 : R) (m2 : C) beta : zm_d_i_m_m_l_i q p m1 m2 beta = zm_d_i_m_m_l_i q p (RtoC m1) m2 beta.
Proof. cohzm. Qed.
Lemma zm_d_i_m_m_l_i_CR q p (m1 : C) (m2 : R) beta : zm_d_i_m_m_l_i q p m1 m2 beta = zm_d_i_m_m_l_i q p m1 (RtoC m2) beta.
Proof. cohzm. Qed.
Lemma zm_d_i_m_m_t_i_RR q p (m1 : R) (m2 : R) beta : zm_d_i_m_m_t_i q p m1 m2 beta = zm_d_i_m_m_t_i q p (RtoC m1) (RtoC m2) beta.
Proof. cohzm. Qed.
Lemma zm_d_i_m_m_t_i_RC q p (m1 : R) (m2 : C) beta : zm_d_i_m_m_t_i q p m1 m2 beta = zm_d_i_m_m_t_i q p (RtoC m1) m2 beta.
Proof. cohzm. Qed.
Lemma zm_d_i_m_m_t_i_CR q p (m1 : C) (m2 : R) beta : zm_d_i_m_m_t_i q p m1 m2 beta = zm_d_i_m_m_t_i q p m1 (RtoC m2) beta.
Proof. cohzm. Qed.
Lemma zm_i_m_m_i_same_mass_R q p (m : R) beta : zm_i_m_m_i_same_mass q p (RtoC m) beta = RtoC (zm_i_m_m_i_same_mass q p m beta).
Proof. cohzm. Qed.
Lemma zm_i_m_m_l_i_same_mass_R q p (m : R) beta : zm_i_m_m_l_i_same_mass q p (RtoC m) beta = RtoC (zm_i_m_m_l_i_same_mass q p m beta).
Proof. cohzm. Qed.
Lemma zm_i_m_m_t_i_same_mass_R q p (m : R) beta : zm_i_m_m_t_i_same_mass q p (RtoC m) beta = RtoC (zm_i_m_m_t_i_same_mass q p m beta).
Proof. cohzm. Qed.
Lemma zm_d_i_m_m_i_same_mass_R q p (m : R) beta : zm_d_i_m_m_i_same_mass q p (RtoC m) beta = RtoC (zm_d_i_m_m_i_same_mass q p m beta).
Proof. cohzm. Qed.
Lemma zm_d_i_m_m_l_i_same_mass_R q p (m : R) beta : zm_d_i_m_m_l_i_same_mass q p (RtoC m) beta = RtoC (zm_d_i_m_m_l_i_same_mass q p m beta).
Proof. cohzm. Qed.
Lemma zm_d_i_m_m_t_i_same_mass_R q p (m : R) beta : zm_d_i_m_m_t_i_same_mass q p (RtoC m) beta = RtoC (zm_d_i_m_m_t_i_same_mass q p m beta).
Proof. cohzm. Qed.
Lemma zm_d_i_m_0_i_R q p (m : R) beta : zm_d_i_m_0_i q p (RtoC m) beta = RtoC (zm_d_i_m_0_i q p m beta).
Proof. cohzm. Qed.
Lemma zm_d_i_m_0_l_i_R q p (m : R) beta : zm_d_i_m_0_l_i q p (RtoC m) beta = RtoC (zm_d_i_m_0_l_i q p m beta).
Proof. cohzm. Qed.
Lemma zm_i_m_0_i_R q p (m : R) beta : zm_i_m_0_i q p m beta = zm_i_m_0_i q p (RtoC m) beta.
Proof. cohzm. Qed.
Lemma zm_i_m_0_l_i_R q p (m : R) beta : zm_i_m_0_l_i q p m beta = zm_i_m_0_l_i q p (RtoC m) beta.
Proof. cohzm. Qed.
Lemma zm_i_m_0_t_i_R q p (m : R) beta : zm_i_m_0_t_i q p m beta = zm_i_m_0_t_i q p (RtoC m) beta.
Proof. cohzm. Qed.
Lemma zm_d_i_m_0_t_i_R q p (m : R) beta : zm_d_i_m_0_t_i q p m beta = zm_d_i_m_0_t_i q p (RtoC m) beta.
Proof. cohzm. Qed.
