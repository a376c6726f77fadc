(** * The real and the complex instances of the polarizations agree *)
From Coq Require Import Reals Lra.
From Coquelicot Require Import Coquelicot.
From Verif Require Import Num CField MCommon MThermal MThermalZM MThermalZP MPolar PCplx PDistr PVac PDress2 PCoh.
Open Scope R_scope.

Ltac coh_core :=
  rewrite ?i_m_0_i_RR, ?i_m_0_i_CR, ?i_0_0_i_R, ?d_i_m_0_i_RR, ?d_i_m_0_i_CR, ?i_0_0_l_i_R, ?i_m_m_l_i_same_mass_RR, ?i_m_m_l_i_same_mass_CR,
    ?i_m_0_l_i_RR, ?i_m_0_l_i_CR, ?i_m_m_i_same_mass_RR, ?i_m_m_i_same_mass_CR, ?d_i_m_m_l_i_same_mass_RR, ?d_i_m_m_l_i_same_mass_CR,
    ?d_i_m_0_l_i_RR, ?d_i_m_0_l_i_CR, ?d_i_m_m_i_same_mass_RR, ?d_i_m_m_i_same_mass_CR,
    ?i_0_0_t_i_R, ?i_m_m_t_i_same_mass_RR, ?i_m_m_t_i_same_mass_CR, ?i_m_0_t_i_RR, ?i_m_0_t_i_CR, 
    ?d_i_m_m_t_i_same_mass_RR, ?d_i_m_m_t_i_same_mass_CR, ?d_i_m_0_t_i_RR, ?d_i_m_0_t_i_CR.
Ltac cohpol := cbv zeta; coh_core; numcbn; generalize PI2; intros; pushRtoC; try reflexivity; ring.
Lemma ghost_R q (om p m : R) beta : ghost_self_energy_thermal_part_landau_i q om p m beta = ghost_self_energy_thermal_part_landau_i q (RtoC om) p m beta.
Proof. unfold ghost_self_energy_thermal_part_landau_i. cohpol. Qed.
Lemma glue_l_R q (om p m : R) beta : polarization_glue_l_thermal_part_landau_i q om p m beta = polarization_glue_l_thermal_part_landau_i q (RtoC om) p m beta.
Proof. unfold polarization_glue_l_thermal_part_landau_i. cohpol. Qed.
Lemma glue_t_R q (om p m : R) beta : polarization_glue_t_thermal_part_landau_i q om p m beta = polarization_glue_t_thermal_part_landau_i q (RtoC om) p m beta.
Proof. unfold polarization_glue_t_thermal_part_landau_i. cohpol. Qed.
Ltac cohq := unfold tlog_same_mass, r_0_same_mass; cbv zeta; numcbn; generalize PI2; intros; pushRtoC; reflexivity.
Lemma quark_l_R nc q (om p mq : R) beta mu : polarization_quark_l_thermal_part_landau_i nc q om p mq beta mu = polarization_quark_l_thermal_part_landau_i nc q (RtoC om) p mq beta mu.
Proof. unfold polarization_quark_l_thermal_part_landau_i. cohq. Qed.
Lemma quark_t_R nc q (om p mq : R) beta mu : polarization_quark_t_thermal_part_landau_i nc q om p mq beta mu = polarization_quark_t_thermal_part_landau_i nc q (RtoC om) p mq beta mu.
Proof. unfold polarization_quark_t_thermal_part_landau_i. cohq. Qed.
Lemma quark0_l_R nc q (om p mq : R) mu : polarization_quark_l_thermal_part_zero_temp_landau_i nc q om p mq mu = polarization_quark_l_thermal_part_zero_temp_landau_i nc q (RtoC om) p mq mu.
Proof. unfold polarization_quark_l_thermal_part_zero_temp_landau_i. cohq. Qed.
Lemma quark0_t_R nc q (om p mq : R) mu : polarization_quark_t_thermal_part_zero_temp_landau_i nc q om p mq mu = polarization_quark_t_thermal_part_zero_temp_landau_i nc q (RtoC om) p mq mu.
Proof. unfold polarization_quark_t_thermal_part_zero_temp_landau_i. cohq. Qed.

Ltac coh_corezp :=
  rewrite ?zp_i_m_0_i_RR, ?zp_i_m_0_i_CR, ?zp_i_0_0_i_R, ?zp_d_i_m_0_i_RR, ?zp_d_i_m_0_i_CR, ?zp_i_0_0_l_i_R, ?zp_i_m_m_l_i_same_mass_RR, ?zp_i_m_m_l_i_same_mass_CR,
    ?zp_i_m_0_l_i_RR, ?zp_i_m_0_l_i_CR, ?zp_i_m_m_i_same_mass_RR, ?zp_i_m_m_i_same_mass_CR, ?zp_d_i_m_m_l_i_same_mass_RR, ?zp_d_i_m_m_l_i_same_mass_CR,
    ?zp_d_i_m_0_l_i_RR, ?zp_d_i_m_0_l_i_CR, ?zp_d_i_m_m_i_same_mass_RR, ?zp_d_i_m_m_i_same_mass_CR.
Ltac cohpolzp := cbv zeta; coh_corezp; numcbn; generalize PI2; intros; pushRtoC; try reflexivity; ring.
Lemma zp_ghost_R q (om m : R) beta : zp_ghost_self_energy_thermal_part_landau_i q om m beta = zp_ghost_self_energy_thermal_part_landau_i q (RtoC om) m beta.
Proof. unfold zp_ghost_self_energy_thermal_part_landau_i. cohpolzp. Qed.
Lemma zp_glue_l_R q (om m : R) beta : zp_polarization_glue_l_thermal_part_landau_i q om m beta = zp_polarization_glue_l_thermal_part_landau_i q (RtoC om) m beta.
Proof. unfold zp_polarization_glue_l_thermal_part_landau_i. cohpolzp. Qed.
Lemma zp_glue_t_R q (om m : R) beta : zp_polarization_glue_t_thermal_part_landau_i q om m beta = zp_polarization_glue_t_thermal_part_landau_i q (RtoC om) m beta.
Proof. apply zp_glue_l_R. Qed.
Ltac cohzq := cbv zeta; numcbn; generalize PI2; intros; pushRtoC; reflexivity.
Lemma zp_quark_l_R nc q (om mq : R) beta mu : zp_polarization_quark_l_thermal_part_landau_i nc q (RtoC om) mq beta mu = RtoC (zp_polarization_quark_l_thermal_part_landau_i nc q om mq beta mu).
Proof. unfold zp_polarization_quark_l_thermal_part_landau_i. cohzq. Qed.
Lemma zp_quark_t_R nc q (om mq : R) beta mu : zp_polarization_quark_t_thermal_part_landau_i nc q (RtoC om) mq beta mu = RtoC (zp_polarization_quark_t_thermal_part_landau_i nc q om mq beta mu).
Proof. apply zp_quark_l_R. Qed.
Lemma zp_quark0_l_R nc q (om mq : R) mu : zp_polarization_quark_l_thermal_part_zero_temp_landau_i nc q (RtoC om) mq mu = RtoC (zp_polarization_quark_l_thermal_part_zero_temp_landau_i nc q om mq mu).
Proof. unfold zp_polarization_quark_l_thermal_part_zero_temp_landau_i. cohzq. Qed.
Lemma zp_quark0_t_R nc q (om mq : R) mu : zp_polarization_quark_t_thermal_part_zero_temp_landau_i nc q (RtoC om) mq mu = RtoC (zp_polarization_quark_t_thermal_part_zero_temp_landau_i nc q om mq mu).
Proof. apply zp_quark0_l_R. Qed.
