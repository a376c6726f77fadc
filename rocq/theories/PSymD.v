(** * Symmetries of the thermal dressing functions in the complex frequency *)
From Coq Require Import Reals Psatz List FunctionalExtensionality.
From Coquelicot Require Import Coquelicot.
From Verif Require Import Num CField MCommon MConsts MVacuum MThermal MThermalZP MPolar MDress SpecInteg SpecDress PCplx PVac PVac2 PSym PSymC.
Import List ListNotations.
Open Scope R_scope.

Ltac headeq k H := let A := fresh in pose proof H as A; apply (f_equal (fun l => nth k l (RtoC 0))) in A; cbn [nth map] in A; exact A.
Section Even.
Variables (J : Integrator) (g : globals R).
Lemma ghost_self_energy_thermal_part_landau_i_ev (q : R) (om : C) (p : R) (m beta : R) : ghost_self_energy_thermal_part_landau_i q (- om)%C p m beta = ghost_self_energy_thermal_part_landau_i q om p m beta.
Proof. headeq 0%nat (glue_parts_even q p beta om m). Qed.
Lemma ghost_self_energy_ev (om : C) (p : R) (m beta : R) : ghost_self_energy J g (- om)%C p m beta = ghost_self_energy J g om p m beta.
Proof. unfold ghost_self_energy, ghost_self_energy_w_method. f_equal. extensionality t. now rewrite ghost_self_energy_thermal_part_landau_i_ev. Qed.
Lemma zp_ghost_self_energy_thermal_part_landau_i_ev (q : R) (om : C) (m beta : R) : zp_ghost_self_energy_thermal_part_landau_i q (- om)%C m beta = zp_ghost_self_energy_thermal_part_landau_i q om m beta.
Proof. headeq 0%nat (zp_glue_parts_even q beta om m). Qed.
Lemma zp_ghost_self_energy_ev (om : C) (m beta : R) : zp_ghost_self_energy J g (- om)%C m beta = zp_ghost_self_energy J g om m beta.
Proof. unfold zp_ghost_self_energy, zp_ghost_self_energy_w_method. f_equal. extensionality t. now rewrite zp_ghost_self_energy_thermal_part_landau_i_ev. Qed.
Lemma polarization_glue_l_thermal_part_landau_i_ev (q : R) (om : C) (p : R) (m beta : R) : polarization_glue_l_thermal_part_landau_i q (- om)%C p m beta = polarization_glue_l_thermal_part_landau_i q om p m beta.
Proof. headeq 1%nat (glue_parts_even q p beta om m). Qed.
Lemma polarization_glue_l_thermal_part_landau_ev (om : C) (p : R) (m beta : R) : polarization_glue_l_thermal_part_landau J g (- om)%C p m beta = polarization_glue_l_thermal_part_landau J g om p m beta.
Proof. unfold polarization_glue_l_thermal_part_landau, polarization_glue_l_thermal_part_landau_w_method. f_equal. extensionality t. now rewrite polarization_glue_l_thermal_part_landau_i_ev. Qed.
Lemma polarization_glue_t_thermal_part_landau_i_ev (q : R) (om : C) (p : R) (m beta : R) : polarization_glue_t_thermal_part_landau_i q (- om)%C p m beta = polarization_glue_t_thermal_part_landau_i q om p m beta.
Proof. headeq 2%nat (glue_parts_even q p beta om m). Qed.
Lemma polarization_glue_t_thermal_part_landau_ev (om : C) (p : R) (m beta : R) : polarization_glue_t_thermal_part_landau J g (- om)%C p m beta = polarization_glue_t_thermal_part_landau J g om p m beta.
Proof. unfold polarization_glue_t_thermal_part_landau, polarization_glue_t_thermal_part_landau_w_method. f_equal. extensionality t. now rewrite polarization_glue_t_thermal_part_landau_i_ev. Qed.
Lemma polarization_quark_l_thermal_part_landau_i_ev (q : R) (om : C) (p : R) (nc : nat) (mq beta mu : R) : polarization_quark_l_thermal_part_landau_i nc q (- om)%C p mq beta mu = polarization_quark_l_thermal_part_landau_i nc q om p mq beta mu.
Proof. headeq 0%nat (quark_parts_even q p beta om nc mq mu). Qed.
Lemma polarization_quark_l_thermal_part_landau_ev (om : C) (p : R) (mq beta mu : R) : polarization_quark_l_thermal_part_landau J g (- om)%C p mq beta mu = polarization_quark_l_thermal_part_landau J g om p mq beta mu.
Proof. unfold polarization_quark_l_thermal_part_landau, polarization_quark_l_thermal_part_landau_w_method. f_equal. extensionality t. now rewrite polarization_quark_l_thermal_part_landau_i_ev. Qed.
Lemma polarization_quark_l_thermal_part_zero_temp_landau_i_ev (q : R) (om : C) (p : R) (nc : nat) (mq mu : R) : polarization_quark_l_thermal_part_zero_temp_landau_i nc q (- om)%C p mq mu = polarization_quark_l_thermal_part_zero_temp_landau_i nc q om p mq mu.
Proof. headeq 0%nat (quark_parts_zero_temp_even q p om nc mq mu). Qed.
Lemma polarization_quark_l_thermal_part_zero_temp_landau_ev (om : C) (p : R) (mq mu : R) : polarization_quark_l_thermal_part_zero_temp_landau J g (- om)%C p mq mu = polarization_quark_l_thermal_part_zero_temp_landau J g om p mq mu.
Proof. unfold polarization_quark_l_thermal_part_zero_temp_landau, polarization_quark_l_thermal_part_zero_temp_landau_w_method. destruct (Rlt_dec _ _); [reflexivity|]. f_equal. extensionality t. now rewrite polarization_quark_l_thermal_part_zero_temp_landau_i_ev. Qed.
Lemma polarization_quark_t_thermal_part_landau_i_ev (q : R) (om : C) (p : R) (nc : nat) (mq beta mu : R) : polarization_quark_t_thermal_part_landau_i nc q (- om)%C p mq beta mu = polarization_quark_t_thermal_part_landau_i nc q om p mq beta mu.
Proof. headeq 1%nat (quark_parts_even q p beta om nc mq mu). Qed.
Lemma polarization_quark_t_thermal_part_landau_ev (om : C) (p : R) (mq beta mu : R) : polarization_quark_t_thermal_part_landau J g (- om)%C p mq beta mu = polarization_quark_t_thermal_part_landau J g om p mq beta mu.
Proof. unfold polarization_quark_t_thermal_part_landau, polarization_quark_t_thermal_part_landau_w_method. f_equal. extensionality t. now rewrite polarization_quark_t_thermal_part_landau_i_ev. Qed.
Lemma polarization_quark_t_thermal_part_zero_temp_landau_i_ev (q : R) (om : C) (p : R) (nc : nat) (mq mu : R) : polarization_quark_t_thermal_part_zero_temp_landau_i nc q (- om)%C p mq mu = polarization_quark_t_thermal_part_zero_temp_landau_i nc q om p mq mu.
Proof. headeq 1%nat (quark_parts_zero_temp_even q p om nc mq mu). Qed.
Lemma polarization_quark_t_thermal_part_zero_temp_landau_ev (om : C) (p : R) (mq mu : R) : polarization_quark_t_thermal_part_zero_temp_landau J g (- om)%C p mq mu = polarization_quark_t_thermal_part_zero_temp_landau J g om p mq mu.
Proof. unfold polarization_quark_t_thermal_part_zero_temp_landau, polarization_quark_t_thermal_part_zero_temp_landau_w_method. destruct (Rlt_dec _ _); [reflexivity|]. f_equal. extensionality t. now rewrite polarization_quark_t_thermal_part_zero_temp_landau_i_ev. Qed.
Lemma zp_polarization_glue_l_thermal_part_landau_i_ev (q : R) (om : C) (m beta : R) : zp_polarization_glue_l_thermal_part_landau_i q (- om)%C m beta = zp_polarization_glue_l_thermal_part_landau_i q om m beta.
Proof. headeq 1%nat (zp_glue_parts_even q beta om m). Qed.
Lemma zp_polarization_glue_l_thermal_part_landau_ev (om : C) (m beta : R) : zp_polarization_glue_l_thermal_part_landau J g (- om)%C m beta = zp_polarization_glue_l_thermal_part_landau J g om m beta.
Proof. unfold zp_polarization_glue_l_thermal_part_landau, zp_polarization_glue_l_thermal_part_landau_w_method. f_equal. extensionality t. now rewrite zp_polarization_glue_l_thermal_part_landau_i_ev. Qed.
Lemma zp_polarization_glue_t_thermal_part_landau_i_ev (q : R) (om : C) (m beta : R) : zp_polarization_glue_t_thermal_part_landau_i q (- om)%C m beta = zp_polarization_glue_t_thermal_part_landau_i q om m beta.
Proof. headeq 2%nat (zp_glue_parts_even q beta om m). Qed.
Lemma zp_polarization_glue_t_thermal_part_landau_ev (om : C) (m beta : R) : zp_polarization_glue_t_thermal_part_landau J g (- om)%C m beta = zp_polarization_glue_t_thermal_part_landau J g om m beta.
Proof. unfold zp_polarization_glue_t_thermal_part_landau, zp_polarization_glue_t_thermal_part_landau_w_method. f_equal. extensionality t. now rewrite zp_polarization_glue_t_thermal_part_landau_i_ev. Qed.
Lemma zp_polarization_quark_l_thermal_part_landau_i_ev (q : R) (om : C) (nc : nat) (mq beta mu : R) : zp_polarization_quark_l_thermal_part_landau_i nc q (- om)%C mq beta mu = zp_polarization_quark_l_thermal_part_landau_i nc q om mq beta mu.
Proof. headeq 0%nat (zp_quark_parts_even q beta om nc mq mu). Qed.
Lemma zp_polarization_quark_l_thermal_part_landau_ev (om : C) (mq beta mu : R) : zp_polarization_quark_l_thermal_part_landau J g (- om)%C mq beta mu = zp_polarization_quark_l_thermal_part_landau J g om mq beta mu.
Proof. unfold zp_polarization_quark_l_thermal_part_landau, zp_polarization_quark_l_thermal_part_landau_w_method. f_equal. extensionality t. now rewrite zp_polarization_quark_l_thermal_part_landau_i_ev. Qed.
Lemma zp_polarization_quark_l_thermal_part_zero_temp_landau_i_ev (q : R) (om : C) (nc : nat) (mq mu : R) : zp_polarization_quark_l_thermal_part_zero_temp_landau_i nc q (- om)%C mq mu = zp_polarization_quark_l_thermal_part_zero_temp_landau_i nc q om mq mu.
Proof. headeq 0%nat (zp_quark_parts_zero_temp_even q om nc mq mu). Qed.
Lemma zp_polarization_quark_l_thermal_part_zero_temp_landau_ev (om : C) (mq mu : R) : zp_polarization_quark_l_thermal_part_zero_temp_landau J g (- om)%C mq mu = zp_polarization_quark_l_thermal_part_zero_temp_landau J g om mq mu.
Proof. unfold zp_polarization_quark_l_thermal_part_zero_temp_landau, zp_polarization_quark_l_thermal_part_zero_temp_landau_w_method. destruct (Rlt_dec _ _); [reflexivity|]. f_equal. extensionality t. now rewrite zp_polarization_quark_l_thermal_part_zero_temp_landau_i_ev. Qed.
Lemma zp_polarization_quark_t_thermal_part_landau_i_ev (q : R) (om : C) (nc : nat) (mq beta mu : R) : zp_polarization_quark_t_thermal_part_landau_i nc q (- om)%C mq beta mu = zp_polarization_quark_t_thermal_part_landau_i nc q om mq beta mu.
Proof. headeq 1%nat (zp_quark_parts_even q beta om nc mq mu). Qed.
Lemma zp_polarization_quark_t_thermal_part_landau_ev (om : C) (mq beta mu : R) : zp_polarization_quark_t_thermal_part_landau J g (- om)%C mq beta mu = zp_polarization_quark_t_thermal_part_landau J g om mq beta mu.
Proof. unfold zp_polarization_quark_t_thermal_part_landau, zp_polarization_quark_t_thermal_part_landau_w_method. f_equal. extensionality t. now rewrite zp_polarization_quark_t_thermal_part_landau_i_ev. Qed.
Lemma zp_polarization_quark_t_thermal_part_zero_temp_landau_i_ev (q : R) (om : C) (nc : nat) (mq mu : R) : zp_polarization_quark_t_thermal_part_zero_temp_landau_i nc q (- om)%C mq mu = zp_polarization_quark_t_thermal_part_zero_temp_landau_i nc q om mq mu.
Proof. headeq 1%nat (zp_quark_parts_zero_temp_even q om nc mq mu). Qed.
Lemma zp_polarization_quark_t_thermal_part_zero_temp_landau_ev (om : C) (mq mu : R) : zp_polarization_quark_t_thermal_part_zero_temp_landau J g (- om)%C mq mu = zp_polarization_quark_t_thermal_part_zero_temp_landau J g om mq mu.
Proof. unfold zp_polarization_quark_t_thermal_part_zero_temp_landau, zp_polarization_quark_t_thermal_part_zero_temp_landau_w_method. destruct (Rlt_dec _ _); [reflexivity|]. f_equal. extensionality t. now rewrite zp_polarization_quark_t_thermal_part_zero_temp_landau_i_ev. Qed.
Lemma sum_quarks_ext {T : Type} {N : Num T} (f h : QuarkInternal -> T) l : (forall x, f x = h x) -> sum_quarks f l = sum_quarks h l.
Proof. intros H. replace h with f; auto. now extensionality x. Qed.
Lemma ym_ghost_dressing_inv_ev (om : C) (p : R) (m beta g0 : R) : ym_ghost_dressing_inv J g (- om)%C p m beta g0 = ym_ghost_dressing_inv J g om p m beta g0.
Proof. unfold ym_ghost_dressing_inv. cbv zeta. numcbn. rewrite sqopp, ?ghost_self_energy_ev, ?polarization_glue_l_thermal_part_landau_ev, ?polarization_glue_t_thermal_part_landau_ev, ?polarization_quark_l_thermal_part_landau_ev, ?polarization_quark_l_thermal_part_zero_temp_landau_ev, ?polarization_quark_t_thermal_part_landau_ev, ?polarization_quark_t_thermal_part_zero_temp_landau_ev. reflexivity. Qed.
Lemma ym_gluon_dressing_l_inv_ev (om : C) (p : R) (m beta f0 : R) : ym_gluon_dressing_l_inv J g (- om)%C p m beta f0 = ym_gluon_dressing_l_inv J g om p m beta f0.
Proof. unfold ym_gluon_dressing_l_inv. cbv zeta. numcbn. rewrite sqopp, ?ghost_self_energy_ev, ?polarization_glue_l_thermal_part_landau_ev, ?polarization_glue_t_thermal_part_landau_ev, ?polarization_quark_l_thermal_part_landau_ev, ?polarization_quark_l_thermal_part_zero_temp_landau_ev, ?polarization_quark_t_thermal_part_landau_ev, ?polarization_quark_t_thermal_part_zero_temp_landau_ev. reflexivity. Qed.
Lemma ym_gluon_dressing_t_inv_ev (om : C) (p : R) (m beta f0 : R) : ym_gluon_dressing_t_inv J g (- om)%C p m beta f0 = ym_gluon_dressing_t_inv J g om p m beta f0.
Proof. unfold ym_gluon_dressing_t_inv. cbv zeta. numcbn. rewrite sqopp, ?ghost_self_energy_ev, ?polarization_glue_l_thermal_part_landau_ev, ?polarization_glue_t_thermal_part_landau_ev, ?polarization_quark_l_thermal_part_landau_ev, ?polarization_quark_l_thermal_part_zero_temp_landau_ev, ?polarization_quark_t_thermal_part_landau_ev, ?polarization_quark_t_thermal_part_zero_temp_landau_ev. reflexivity. Qed.
Lemma qcd_gluon_dressing_l_inv_ev (om : C) (p : R) (m mq beta mu f0 : R) : qcd_gluon_dressing_l_inv J g (- om)%C p m mq beta mu f0 = qcd_gluon_dressing_l_inv J g om p m mq beta mu f0.
Proof. unfold qcd_gluon_dressing_l_inv. cbv zeta. numcbn. rewrite sqopp, ?ghost_self_energy_ev, ?polarization_glue_l_thermal_part_landau_ev, ?polarization_glue_t_thermal_part_landau_ev, ?polarization_quark_l_thermal_part_landau_ev, ?polarization_quark_l_thermal_part_zero_temp_landau_ev, ?polarization_quark_t_thermal_part_landau_ev, ?polarization_quark_t_thermal_part_zero_temp_landau_ev. reflexivity. Qed.
Lemma qcd_gluon_dressing_t_inv_ev (om : C) (p : R) (m mq beta mu f0 : R) : qcd_gluon_dressing_t_inv J g (- om)%C p m mq beta mu f0 = qcd_gluon_dressing_t_inv J g om p m mq beta mu f0.
Proof. unfold qcd_gluon_dressing_t_inv. cbv zeta. numcbn. rewrite sqopp, ?ghost_self_energy_ev, ?polarization_glue_l_thermal_part_landau_ev, ?polarization_glue_t_thermal_part_landau_ev, ?polarization_quark_l_thermal_part_landau_ev, ?polarization_quark_l_thermal_part_zero_temp_landau_ev, ?polarization_quark_t_thermal_part_landau_ev, ?polarization_quark_t_thermal_part_zero_temp_landau_ev. reflexivity. Qed.
Lemma qcd_gluon_dressing_l_inv_zero_temp_ev (om : C) (p : R) (m mq mu f0 : R) : qcd_gluon_dressing_l_inv_zero_temp J g (- om)%C p m mq mu f0 = qcd_gluon_dressing_l_inv_zero_temp J g om p m mq mu f0.
Proof. unfold qcd_gluon_dressing_l_inv_zero_temp. cbv zeta. numcbn. rewrite sqopp, ?ghost_self_energy_ev, ?polarization_glue_l_thermal_part_landau_ev, ?polarization_glue_t_thermal_part_landau_ev, ?polarization_quark_l_thermal_part_landau_ev, ?polarization_quark_l_thermal_part_zero_temp_landau_ev, ?polarization_quark_t_thermal_part_landau_ev, ?polarization_quark_t_thermal_part_zero_temp_landau_ev. reflexivity. Qed.
Lemma qcd_gluon_dressing_t_inv_zero_temp_ev (om : C) (p : R) (m mq mu f0 : R) : qcd_gluon_dressing_t_inv_zero_temp J g (- om)%C p m mq mu f0 = qcd_gluon_dressing_t_inv_zero_temp J g om p m mq mu f0.
Proof. unfold qcd_gluon_dressing_t_inv_zero_temp. cbv zeta. numcbn. rewrite sqopp, ?ghost_self_energy_ev, ?polarization_glue_l_thermal_part_landau_ev, ?polarization_glue_t_thermal_part_landau_ev, ?polarization_quark_l_thermal_part_landau_ev, ?polarization_quark_l_thermal_part_zero_temp_landau_ev, ?polarization_quark_t_thermal_part_landau_ev, ?polarization_quark_t_thermal_part_zero_temp_landau_ev. reflexivity. Qed.
Lemma qcd_gluon_dressing_l_inv_w_field_config_ev (om : C) (p : R) (beta mu f0 : R) (config : FieldConfig) : qcd_gluon_dressing_l_inv_w_field_config J g (- om)%C p beta mu f0 config = qcd_gluon_dressing_l_inv_w_field_config J g om p beta mu f0 config.
Proof. unfold qcd_gluon_dressing_l_inv_w_field_config. cbv zeta. rewrite (sum_quarks_ext (fun qi => nmul (polarization_quark_l_thermal_part_landau J g (- om)%C p (qi_mq qi) beta mu) _) (fun qi => nmul (polarization_quark_l_thermal_part_landau J g om p (qi_mq qi) beta mu) (toC (INR (qi_nf qi))))) by (intros x; now rewrite polarization_quark_l_thermal_part_landau_ev). numcbn. rewrite sqopp, ?ghost_self_energy_ev, ?polarization_glue_l_thermal_part_landau_ev, ?polarization_glue_t_thermal_part_landau_ev, ?polarization_quark_l_thermal_part_landau_ev, ?polarization_quark_l_thermal_part_zero_temp_landau_ev, ?polarization_quark_t_thermal_part_landau_ev, ?polarization_quark_t_thermal_part_zero_temp_landau_ev. reflexivity. Qed.
Lemma qcd_gluon_dressing_t_inv_w_field_config_ev (om : C) (p : R) (beta mu f0 : R) (config : FieldConfig) : qcd_gluon_dressing_t_inv_w_field_config J g (- om)%C p beta mu f0 config = qcd_gluon_dressing_t_inv_w_field_config J g om p beta mu f0 config.
Proof. unfold qcd_gluon_dressing_t_inv_w_field_config. cbv zeta. rewrite (sum_quarks_ext (fun qi => nmul (polarization_quark_t_thermal_part_landau J g (- om)%C p (qi_mq qi) beta mu) _) (fun qi => nmul (polarization_quark_t_thermal_part_landau J g om p (qi_mq qi) beta mu) (toC (INR (qi_nf qi))))) by (intros x; now rewrite polarization_quark_t_thermal_part_landau_ev). numcbn. rewrite sqopp, ?ghost_self_energy_ev, ?polarization_glue_l_thermal_part_landau_ev, ?polarization_glue_t_thermal_part_landau_ev, ?polarization_quark_l_thermal_part_landau_ev, ?polarization_quark_l_thermal_part_zero_temp_landau_ev, ?polarization_quark_t_thermal_part_landau_ev, ?polarization_quark_t_thermal_part_zero_temp_landau_ev. reflexivity. Qed.
Lemma qcd_gluon_dressing_l_inv_zero_temp_w_field_config_ev (om : C) (p : R) (mu f0 : R) (config : FieldConfig) : qcd_gluon_dressing_l_inv_zero_temp_w_field_config J g (- om)%C p mu f0 config = qcd_gluon_dressing_l_inv_zero_temp_w_field_config J g om p mu f0 config.
Proof. unfold qcd_gluon_dressing_l_inv_zero_temp_w_field_config. cbv zeta. rewrite (sum_quarks_ext (fun qi => nmul (polarization_quark_l_thermal_part_zero_temp_landau J g (- om)%C p (qi_mq qi) mu) _) (fun qi => nmul (polarization_quark_l_thermal_part_zero_temp_landau J g om p (qi_mq qi) mu) (toC (INR (qi_nf qi))))) by (intros x; now rewrite polarization_quark_l_thermal_part_zero_temp_landau_ev). numcbn. rewrite sqopp, ?ghost_self_energy_ev, ?polarization_glue_l_thermal_part_landau_ev, ?polarization_glue_t_thermal_part_landau_ev, ?polarization_quark_l_thermal_part_landau_ev, ?polarization_quark_l_thermal_part_zero_temp_landau_ev, ?polarization_quark_t_thermal_part_landau_ev, ?polarization_quark_t_thermal_part_zero_temp_landau_ev. reflexivity. Qed.
Lemma qcd_gluon_dressing_t_inv_zero_temp_w_field_config_ev (om : C) (p : R) (mu f0 : R) (config : FieldConfig) : qcd_gluon_dressing_t_inv_zero_temp_w_field_config J g (- om)%C p mu f0 config = qcd_gluon_dressing_t_inv_zero_temp_w_field_config J g om p mu f0 config.
Proof. unfold qcd_gluon_dressing_t_inv_zero_temp_w_field_config. cbv zeta. rewrite (sum_quarks_ext (fun qi => nmul (polarization_quark_t_thermal_part_zero_temp_landau J g (- om)%C p (qi_mq qi) mu) _) (fun qi => nmul (polarization_quark_t_thermal_part_zero_temp_landau J g om p (qi_mq qi) mu) (toC (INR (qi_nf qi))))) by (intros x; now rewrite polarization_quark_t_thermal_part_zero_temp_landau_ev). numcbn. rewrite sqopp, ?ghost_self_energy_ev, ?polarization_glue_l_thermal_part_landau_ev, ?polarization_glue_t_thermal_part_landau_ev, ?polarization_quark_l_thermal_part_landau_ev, ?polarization_quark_l_thermal_part_zero_temp_landau_ev, ?polarization_quark_t_thermal_part_landau_ev, ?polarization_quark_t_thermal_part_zero_temp_landau_ev. reflexivity. Qed.
Lemma zp_ym_ghost_dressing_inv_ev (om : C) (m beta g0 : R) : zp_ym_ghost_dressing_inv J g (- om)%C m beta g0 = zp_ym_ghost_dressing_inv J g om m beta g0.
Proof. unfold zp_ym_ghost_dressing_inv. cbv zeta. numcbn. rewrite sqopp, ?zp_ghost_self_energy_ev, ?zp_polarization_glue_l_thermal_part_landau_ev, ?zp_polarization_glue_t_thermal_part_landau_ev, ?zp_polarization_quark_l_thermal_part_landau_ev, ?zp_polarization_quark_l_thermal_part_zero_temp_landau_ev, ?zp_polarization_quark_t_thermal_part_landau_ev, ?zp_polarization_quark_t_thermal_part_zero_temp_landau_ev. reflexivity. Qed.
Lemma zp_ym_gluon_dressing_l_inv_ev (om : C) (m beta f0 : R) : zp_ym_gluon_dressing_l_inv J g (- om)%C m beta f0 = zp_ym_gluon_dressing_l_inv J g om m beta f0.
Proof. unfold zp_ym_gluon_dressing_l_inv. cbv zeta. numcbn. rewrite sqopp, ?zp_ghost_self_energy_ev, ?zp_polarization_glue_l_thermal_part_landau_ev, ?zp_polarization_glue_t_thermal_part_landau_ev, ?zp_polarization_quark_l_thermal_part_landau_ev, ?zp_polarization_quark_l_thermal_part_zero_temp_landau_ev, ?zp_polarization_quark_t_thermal_part_landau_ev, ?zp_polarization_quark_t_thermal_part_zero_temp_landau_ev. reflexivity. Qed.
Lemma zp_ym_gluon_dressing_t_inv_ev (om : C) (m beta f0 : R) : zp_ym_gluon_dressing_t_inv J g (- om)%C m beta f0 = zp_ym_gluon_dressing_t_inv J g om m beta f0.
Proof. apply zp_ym_gluon_dressing_l_inv_ev. Qed.
Lemma zp_qcd_gluon_dressing_l_inv_ev (om : C) (m mq beta mu f0 : R) : zp_qcd_gluon_dressing_l_inv J g (- om)%C m mq beta mu f0 = zp_qcd_gluon_dressing_l_inv J g om m mq beta mu f0.
Proof. unfold zp_qcd_gluon_dressing_l_inv. cbv zeta. numcbn. rewrite sqopp, ?zp_ghost_self_energy_ev, ?zp_polarization_glue_l_thermal_part_landau_ev, ?zp_polarization_glue_t_thermal_part_landau_ev, ?zp_polarization_quark_l_thermal_part_landau_ev, ?zp_polarization_quark_l_thermal_part_zero_temp_landau_ev, ?zp_polarization_quark_t_thermal_part_landau_ev, ?zp_polarization_quark_t_thermal_part_zero_temp_landau_ev. reflexivity. Qed.
Lemma zp_qcd_gluon_dressing_t_inv_ev (om : C) (m mq beta mu f0 : R) : zp_qcd_gluon_dressing_t_inv J g (- om)%C m mq beta mu f0 = zp_qcd_gluon_dressing_t_inv J g om m mq beta mu f0.
Proof. unfold zp_qcd_gluon_dressing_t_inv. cbv zeta. numcbn. rewrite sqopp, ?zp_ghost_self_energy_ev, ?zp_polarization_glue_l_thermal_part_landau_ev, ?zp_polarization_glue_t_thermal_part_landau_ev, ?zp_polarization_quark_l_thermal_part_landau_ev, ?zp_polarization_quark_l_thermal_part_zero_temp_landau_ev, ?zp_polarization_quark_t_thermal_part_landau_ev, ?zp_polarization_quark_t_thermal_part_zero_temp_landau_ev. reflexivity. Qed.
Lemma zp_qcd_gluon_dressing_l_inv_zero_temp_ev (om : C) (m mq mu f0 : R) : zp_qcd_gluon_dressing_l_inv_zero_temp J g (- om)%C m mq mu f0 = zp_qcd_gluon_dressing_l_inv_zero_temp J g om m mq mu f0.
Proof. unfold zp_qcd_gluon_dressing_l_inv_zero_temp. cbv zeta. numcbn. rewrite sqopp, ?zp_ghost_self_energy_ev, ?zp_polarization_glue_l_thermal_part_landau_ev, ?zp_polarization_glue_t_thermal_part_landau_ev, ?zp_polarization_quark_l_thermal_part_landau_ev, ?zp_polarization_quark_l_thermal_part_zero_temp_landau_ev, ?zp_polarization_quark_t_thermal_part_landau_ev, ?zp_polarization_quark_t_thermal_part_zero_temp_landau_ev. reflexivity. Qed.
Lemma zp_qcd_gluon_dressing_t_inv_zero_temp_ev (om : C) (m mq mu f0 : R) : zp_qcd_gluon_dressing_t_inv_zero_temp J g (- om)%C m mq mu f0 = zp_qcd_gluon_dressing_t_inv_zero_temp J g om m mq mu f0.
Proof. unfold zp_qcd_gluon_dressing_t_inv_zero_temp. cbv zeta. numcbn. rewrite sqopp, ?zp_ghost_self_energy_ev, ?zp_polarization_glue_l_thermal_part_landau_ev, ?zp_polarization_glue_t_thermal_part_landau_ev, ?zp_polarization_quark_l_thermal_part_landau_ev, ?zp_polarization_quark_l_thermal_part_zero_temp_landau_ev, ?zp_polarization_quark_t_thermal_part_landau_ev, ?zp_polarization_quark_t_thermal_part_zero_temp_landau_ev. reflexivity. Qed.
Lemma zp_qcd_gluon_dressing_l_inv_w_field_config_ev (om : C) (beta mu f0 : R) (config : FieldConfig) : zp_qcd_gluon_dressing_l_inv_w_field_config J g (- om)%C beta mu f0 config = zp_qcd_gluon_dressing_l_inv_w_field_config J g om beta mu f0 config.
Proof. unfold zp_qcd_gluon_dressing_l_inv_w_field_config. cbv zeta. rewrite (sum_quarks_ext (fun qi => nmul (zp_polarization_quark_l_thermal_part_landau J g (- om)%C (qi_mq qi) beta mu) _) (fun qi => nmul (zp_polarization_quark_l_thermal_part_landau J g om (qi_mq qi) beta mu) (toC (INR (qi_nf qi))))) by (intros x; now rewrite zp_polarization_quark_l_thermal_part_landau_ev). numcbn. rewrite sqopp, ?zp_ghost_self_energy_ev, ?zp_polarization_glue_l_thermal_part_landau_ev, ?zp_polarization_glue_t_thermal_part_landau_ev, ?zp_polarization_quark_l_thermal_part_landau_ev, ?zp_polarization_quark_l_thermal_part_zero_temp_landau_ev, ?zp_polarization_quark_t_thermal_part_landau_ev, ?zp_polarization_quark_t_thermal_part_zero_temp_landau_ev. reflexivity. Qed.
Lemma zp_qcd_gluon_dressing_t_inv_w_field_config_ev (om : C) (beta mu f0 : R) (config : FieldConfig) : zp_qcd_gluon_dressing_t_inv_w_field_config J g (- om)%C beta mu f0 config = zp_qcd_gluon_dressing_t_inv_w_field_config J g om beta mu f0 config.
Proof. unfold zp_qcd_gluon_dressing_t_inv_w_field_config. cbv zeta. rewrite (sum_quarks_ext (fun qi => nmul (zp_polarization_quark_t_thermal_part_landau J g (- om)%C (qi_mq qi) beta mu) _) (fun qi => nmul (zp_polarization_quark_t_thermal_part_landau J g om (qi_mq qi) beta mu) (toC (INR (qi_nf qi))))) by (intros x; now rewrite zp_polarization_quark_t_thermal_part_landau_ev). numcbn. rewrite sqopp, ?zp_ghost_self_energy_ev, ?zp_polarization_glue_l_thermal_part_landau_ev, ?zp_polarization_glue_t_thermal_part_landau_ev, ?zp_polarization_quark_l_thermal_part_landau_ev, ?zp_polarization_quark_l_thermal_part_zero_temp_landau_ev, ?zp_polarization_quark_t_thermal_part_landau_ev, ?zp_polarization_quark_t_thermal_part_zero_temp_landau_ev. reflexivity. Qed.
Lemma zp_qcd_gluon_dressing_l_inv_zero_temp_w_field_config_ev (om : C) (mu f0 : R) (config : FieldConfig) : zp_qcd_gluon_dressing_l_inv_zero_temp_w_field_config J g (- om)%C mu f0 config = zp_qcd_gluon_dressing_l_inv_zero_temp_w_field_config J g om mu f0 config.
Proof. unfold zp_qcd_gluon_dressing_l_inv_zero_temp_w_field_config. cbv zeta. rewrite (sum_quarks_ext (fun qi => nmul (zp_polarization_quark_l_thermal_part_zero_temp_landau J g (- om)%C (qi_mq qi) mu) _) (fun qi => nmul (zp_polarization_quark_l_thermal_part_zero_temp_landau J g om (qi_mq qi) mu) (toC (INR (qi_nf qi))))) by (intros x; now rewrite zp_polarization_quark_l_thermal_part_zero_temp_landau_ev). numcbn. rewrite sqopp, ?zp_ghost_self_energy_ev, ?zp_polarization_glue_l_thermal_part_landau_ev, ?zp_polarization_glue_t_thermal_part_landau_ev, ?zp_polarization_quark_l_thermal_part_landau_ev, ?zp_polarization_quark_l_thermal_part_zero_temp_landau_ev, ?zp_polarization_quark_t_thermal_part_landau_ev, ?zp_polarization_quark_t_thermal_part_zero_temp_landau_ev. reflexivity. Qed.
Lemma zp_qcd_gluon_dressing_t_inv_zero_temp_w_field_config_ev (om : C) (mu f0 : R) (config : FieldConfig) : zp_qcd_gluon_dressing_t_inv_zero_temp_w_field_config J g (- om)%C mu f0 config = zp_qcd_gluon_dressing_t_inv_zero_temp_w_field_config J g om mu f0 config.
Proof. unfold zp_qcd_gluon_dressing_t_inv_zero_temp_w_field_config. cbv zeta. rewrite (sum_quarks_ext (fun qi => nmul (zp_polarization_quark_t_thermal_part_zero_temp_landau J g (- om)%C (qi_mq qi) mu) _) (fun qi => nmul (zp_polarization_quark_t_thermal_part_zero_temp_landau J g om (qi_mq qi) mu) (toC (INR (qi_nf qi))))) by (intros x; now rewrite zp_polarization_quark_t_thermal_part_zero_temp_landau_ev). numcbn. rewrite sqopp, ?zp_ghost_self_energy_ev, ?zp_polarization_glue_l_thermal_part_landau_ev, ?zp_polarization_glue_t_thermal_part_landau_ev, ?zp_polarization_quark_l_thermal_part_landau_ev, ?zp_polarization_quark_l_thermal_part_zero_temp_landau_ev, ?zp_polarization_quark_t_thermal_part_landau_ev, ?zp_polarization_quark_t_thermal_part_zero_temp_landau_ev. reflexivity. Qed.
Lemma gen_families_even (om : C) (p : R) (m mq beta mu g0 f0 : R) cfg : gen_families J g (- om)%C p m mq beta mu g0 f0 cfg = gen_families J g om p m mq beta mu g0 f0 cfg.
Proof.
  unfold gen_families, ym_ghost_propagator, ym_gluon_propagator_l, ym_gluon_propagator_t, qcd_gluon_propagator_l, qcd_gluon_propagator_t, qcd_gluon_propagator_l_zero_temp, qcd_gluon_propagator_t_zero_temp, qcd_gluon_propagator_l_w_field_config, qcd_gluon_propagator_t_w_field_config, qcd_gluon_propagator_l_zero_temp_w_field_config, qcd_gluon_propagator_t_zero_temp_w_field_config.
  unfold ym_ghost_dressing, ym_gluon_dressing_l, ym_gluon_dressing_t, qcd_gluon_dressing_l, qcd_gluon_dressing_t, qcd_gluon_dressing_l_zero_temp, qcd_gluon_dressing_t_zero_temp, qcd_gluon_dressing_l_w_field_config, qcd_gluon_dressing_t_w_field_config, qcd_gluon_dressing_l_zero_temp_w_field_config, qcd_gluon_dressing_t_zero_temp_w_field_config.
  rewrite ?ym_ghost_dressing_inv_ev, ?ym_gluon_dressing_l_inv_ev, ?ym_gluon_dressing_t_inv_ev, ?qcd_gluon_dressing_l_inv_ev, ?qcd_gluon_dressing_t_inv_ev, ?qcd_gluon_dressing_l_inv_zero_temp_ev, ?qcd_gluon_dressing_t_inv_zero_temp_ev, ?qcd_gluon_dressing_l_inv_w_field_config_ev, ?qcd_gluon_dressing_t_inv_w_field_config_ev, ?qcd_gluon_dressing_l_inv_zero_temp_w_field_config_ev, ?qcd_gluon_dressing_t_inv_zero_temp_w_field_config_ev. numcbn. rewrite ?sqopp. reflexivity.
Qed.
Lemma zp_families_even (om : C) (m mq beta mu g0 f0 : R) cfg : zp_families J g (- om)%C m mq beta mu g0 f0 cfg = zp_families J g om m mq beta mu g0 f0 cfg.
Proof.
  unfold zp_families, zp_ym_ghost_propagator, zp_ym_gluon_propagator_l, zp_ym_gluon_propagator_t, zp_qcd_gluon_propagator_l, zp_qcd_gluon_propagator_t, zp_qcd_gluon_propagator_l_zero_temp, zp_qcd_gluon_propagator_t_zero_temp, zp_qcd_gluon_propagator_l_w_field_config, zp_qcd_gluon_propagator_t_w_field_config, zp_qcd_gluon_propagator_l_zero_temp_w_field_config, zp_qcd_gluon_propagator_t_zero_temp_w_field_config.
  unfold zp_ym_ghost_dressing, zp_ym_gluon_dressing_l, zp_ym_gluon_dressing_t, zp_qcd_gluon_dressing_l, zp_qcd_gluon_dressing_t, zp_qcd_gluon_dressing_l_zero_temp, zp_qcd_gluon_dressing_t_zero_temp, zp_qcd_gluon_dressing_l_w_field_config, zp_qcd_gluon_dressing_t_w_field_config, zp_qcd_gluon_dressing_l_zero_temp_w_field_config, zp_qcd_gluon_dressing_t_zero_temp_w_field_config.
  rewrite ?zp_ym_ghost_dressing_inv_ev, ?zp_ym_gluon_dressing_l_inv_ev, ?zp_ym_gluon_dressing_t_inv_ev, ?zp_qcd_gluon_dressing_l_inv_ev, ?zp_qcd_gluon_dressing_t_inv_ev, ?zp_qcd_gluon_dressing_l_inv_zero_temp_ev, ?zp_qcd_gluon_dressing_t_inv_zero_temp_ev, ?zp_qcd_gluon_dressing_l_inv_w_field_config_ev, ?zp_qcd_gluon_dressing_t_inv_w_field_config_ev, ?zp_qcd_gluon_dressing_l_inv_zero_temp_w_field_config_ev, ?zp_qcd_gluon_dressing_t_inv_zero_temp_w_field_config_ev. numcbn. rewrite ?sqopp. reflexivity.
Qed.
End Even.
