(** * Which integration method the default wrappers use *)
From Coq Require Import Reals List Psatz.
From Coquelicot Require Import Coquelicot.
From Verif Require Import Num MCommon MConsts MVacuum MUtils MPolar MDress MQuark SpecConsts SpecWrappers PConsts.
Import ListNotations.
Open Scope R_scope.

Lemma sum_quarks_ext {T} {N : Num T} (f f' : QuarkInternal -> T) l :
  (forall q, f q = f' q) -> sum_quarks f l = sum_quarks f' l.
Proof.
  intros H. unfold sum_quarks. generalize (ofR (T := T) 0). induction l as [|q l IH]; intros a; simpl; auto.
  now rewrite H, IH.
Qed.

Lemma find_root_ext {T Tol} (Ops : RootOps T Tol) f f' g tol n :
  (forall x, f x = f' x) -> find_root Ops f g tol n = find_root Ops f' g tol n.
Proof.
  intros H. unfold find_root. destruct (ro_eq _ _ _); auto. destruct (negb _); auto.
  rewrite !H. f_equal.
  generalize (fst g) (snd g) (f' (fst g)) (f' (snd g)).
  induction n; intros; simpl; auto. destruct (ro_nan Ops t2); auto. destruct (ro_small Ops t2 tol); auto.
  rewrite H. apply IHn.
Qed.

Ltac sq_rewrite tac :=
  match goal with |- context [sum_quarks ?f ?l] =>
    match goal with |- context [sum_quarks ?f' l] =>
      lazymatch f' with f => fail | _ => rewrite (sum_quarks_ext f f' l) by (intros; tac; reflexivity) end end end.

Section Default.
Context {T : Type} {N : Num T}.
Context (J J' : Integrator) (g : globals R).
Hypothesis HC : forall f a b, integrateC J f a b (get_default_integration_method g)
            = integrateC J' f a b (get_default_integration_method g).
Hypothesis HR : forall f a b, integrateR J f a b (get_default_integration_method g)
            = integrateR J' f a b (get_default_integration_method g).

Lemma ghost_self_energy_agree (om : T) (p m beta : R) : ghost_self_energy J g om p m beta = ghost_self_energy J' g om p m beta.
Proof. unfold ghost_self_energy, ghost_self_energy_w_method. apply HC. Qed.
Lemma polarization_glue_l_thermal_part_landau_agree (om : T) (p m beta : R) : polarization_glue_l_thermal_part_landau J g om p m beta = polarization_glue_l_thermal_part_landau J' g om p m beta.
Proof. unfold polarization_glue_l_thermal_part_landau, polarization_glue_l_thermal_part_landau_w_method. apply HC. Qed.
Lemma polarization_glue_t_thermal_part_landau_agree (om : T) (p m beta : R) : polarization_glue_t_thermal_part_landau J g om p m beta = polarization_glue_t_thermal_part_landau J' g om p m beta.
Proof. unfold polarization_glue_t_thermal_part_landau, polarization_glue_t_thermal_part_landau_w_method. apply HC. Qed.
Lemma polarization_quark_l_thermal_part_landau_agree (om : T) (p mq beta mu : R) : polarization_quark_l_thermal_part_landau J g om p mq beta mu = polarization_quark_l_thermal_part_landau J' g om p mq beta mu.
Proof. unfold polarization_quark_l_thermal_part_landau, polarization_quark_l_thermal_part_landau_w_method. apply HC. Qed.
Lemma polarization_quark_t_thermal_part_landau_agree (om : T) (p mq beta mu : R) : polarization_quark_t_thermal_part_landau J g om p mq beta mu = polarization_quark_t_thermal_part_landau J' g om p mq beta mu.
Proof. unfold polarization_quark_t_thermal_part_landau, polarization_quark_t_thermal_part_landau_w_method. apply HC. Qed.
Lemma polarization_quark_l_thermal_part_zero_temp_landau_agree (om : T) (p mq mu : R) : polarization_quark_l_thermal_part_zero_temp_landau J g om p mq mu = polarization_quark_l_thermal_part_zero_temp_landau J' g om p mq mu.
Proof. unfold polarization_quark_l_thermal_part_zero_temp_landau, polarization_quark_l_thermal_part_zero_temp_landau_w_method. destruct (Rlt_dec _ _); [reflexivity|]. apply HC. Qed.
Lemma polarization_quark_t_thermal_part_zero_temp_landau_agree (om : T) (p mq mu : R) : polarization_quark_t_thermal_part_zero_temp_landau J g om p mq mu = polarization_quark_t_thermal_part_zero_temp_landau J' g om p mq mu.
Proof. unfold polarization_quark_t_thermal_part_zero_temp_landau, polarization_quark_t_thermal_part_zero_temp_landau_w_method. destruct (Rlt_dec _ _); [reflexivity|]. apply HC. Qed.
Lemma zp_ghost_self_energy_agree (om : T) (m beta : R) : zp_ghost_self_energy J g om m beta = zp_ghost_self_energy J' g om m beta.
Proof. unfold zp_ghost_self_energy, zp_ghost_self_energy_w_method. apply HC. Qed.
Lemma zp_polarization_glue_l_thermal_part_landau_agree (om : T) (m beta : R) : zp_polarization_glue_l_thermal_part_landau J g om m beta = zp_polarization_glue_l_thermal_part_landau J' g om m beta.
Proof. unfold zp_polarization_glue_l_thermal_part_landau, zp_polarization_glue_l_thermal_part_landau_w_method. apply HC. Qed.
Lemma zp_polarization_glue_t_thermal_part_landau_agree (om : T) (m beta : R) : zp_polarization_glue_t_thermal_part_landau J g om m beta = zp_polarization_glue_t_thermal_part_landau J' g om m beta.
Proof. unfold zp_polarization_glue_t_thermal_part_landau, zp_polarization_glue_t_thermal_part_landau_w_method. apply HC. Qed.
Lemma zp_polarization_quark_l_thermal_part_landau_agree (om : T) (mq beta mu : R) : zp_polarization_quark_l_thermal_part_landau J g om mq beta mu = zp_polarization_quark_l_thermal_part_landau J' g om mq beta mu.
Proof. unfold zp_polarization_quark_l_thermal_part_landau, zp_polarization_quark_l_thermal_part_landau_w_method. apply HC. Qed.
Lemma zp_polarization_quark_t_thermal_part_landau_agree (om : T) (mq beta mu : R) : zp_polarization_quark_t_thermal_part_landau J g om mq beta mu = zp_polarization_quark_t_thermal_part_landau J' g om mq beta mu.
Proof. unfold zp_polarization_quark_t_thermal_part_landau, zp_polarization_quark_t_thermal_part_landau_w_method. apply HC. Qed.
Lemma zp_polarization_quark_l_thermal_part_zero_temp_landau_agree (om : T) (mq mu : R) : zp_polarization_quark_l_thermal_part_zero_temp_landau J g om mq mu = zp_polarization_quark_l_thermal_part_zero_temp_landau J' g om mq mu.
Proof. unfold zp_polarization_quark_l_thermal_part_zero_temp_landau, zp_polarization_quark_l_thermal_part_zero_temp_landau_w_method. destruct (Rlt_dec _ _); [reflexivity|]. apply HC. Qed.
Lemma zp_polarization_quark_t_thermal_part_zero_temp_landau_agree (om : T) (mq mu : R) : zp_polarization_quark_t_thermal_part_zero_temp_landau J g om mq mu = zp_polarization_quark_t_thermal_part_zero_temp_landau J' g om mq mu.
Proof. unfold zp_polarization_quark_t_thermal_part_zero_temp_landau, zp_polarization_quark_t_thermal_part_zero_temp_landau_w_method. destruct (Rlt_dec _ _); [reflexivity|]. apply HC. Qed.
Lemma zm_ghost_self_energy_agree (p m beta : R) : zm_ghost_self_energy J g p m beta = zm_ghost_self_energy J' g p m beta.
Proof. unfold zm_ghost_self_energy, zm_ghost_self_energy_w_method. apply HR. Qed.
Lemma ym_gluon_propagator_l_agree (om : T) (p : R) (m beta f0 : R) : ym_gluon_propagator_l J g om p m beta f0 = ym_gluon_propagator_l J' g om p m beta f0.
Proof. unfold ym_gluon_propagator_l, ym_gluon_dressing_l, ym_gluon_dressing_l_inv; cbv zeta. rewrite polarization_glue_l_thermal_part_landau_agree. reflexivity. Qed.
Lemma qcd_gluon_propagator_l_agree (om : T) (p : R) (m mq beta mu f0 : R) : qcd_gluon_propagator_l J g om p m mq beta mu f0 = qcd_gluon_propagator_l J' g om p m mq beta mu f0.
Proof. unfold qcd_gluon_propagator_l, qcd_gluon_dressing_l, qcd_gluon_dressing_l_inv; cbv zeta. rewrite polarization_glue_l_thermal_part_landau_agree, polarization_quark_l_thermal_part_landau_agree. reflexivity. Qed.
Lemma qcd_gluon_propagator_l_zero_temp_agree (om : T) (p : R) (m mq mu f0 : R) : qcd_gluon_propagator_l_zero_temp J g om p m mq mu f0 = qcd_gluon_propagator_l_zero_temp J' g om p m mq mu f0.
Proof. unfold qcd_gluon_propagator_l_zero_temp, qcd_gluon_dressing_l_zero_temp, qcd_gluon_dressing_l_inv_zero_temp; cbv zeta. rewrite polarization_quark_l_thermal_part_zero_temp_landau_agree. reflexivity. Qed.
Lemma qcd_gluon_propagator_l_w_field_config_agree (om : T) (p : R) (beta mu f0 : R) (c : FieldConfig) : qcd_gluon_propagator_l_w_field_config J g om p beta mu f0 c = qcd_gluon_propagator_l_w_field_config J' g om p beta mu f0 c.
Proof. unfold qcd_gluon_propagator_l_w_field_config, qcd_gluon_dressing_l_w_field_config, qcd_gluon_dressing_l_inv_w_field_config; cbv zeta. sq_rewrite ltac:(rewrite polarization_quark_l_thermal_part_landau_agree). rewrite polarization_glue_l_thermal_part_landau_agree. reflexivity. Qed.
Lemma qcd_gluon_propagator_l_zero_temp_w_field_config_agree (om : T) (p : R) (mu f0 : R) (c : FieldConfig) : qcd_gluon_propagator_l_zero_temp_w_field_config J g om p mu f0 c = qcd_gluon_propagator_l_zero_temp_w_field_config J' g om p mu f0 c.
Proof. unfold qcd_gluon_propagator_l_zero_temp_w_field_config, qcd_gluon_dressing_l_zero_temp_w_field_config, qcd_gluon_dressing_l_inv_zero_temp_w_field_config; cbv zeta. sq_rewrite ltac:(rewrite polarization_quark_l_thermal_part_zero_temp_landau_agree). reflexivity. Qed.
Lemma ym_gluon_propagator_t_agree (om : T) (p : R) (m beta f0 : R) : ym_gluon_propagator_t J g om p m beta f0 = ym_gluon_propagator_t J' g om p m beta f0.
Proof. unfold ym_gluon_propagator_t, ym_gluon_dressing_t, ym_gluon_dressing_t_inv; cbv zeta. rewrite polarization_glue_t_thermal_part_landau_agree. reflexivity. Qed.
Lemma qcd_gluon_propagator_t_agree (om : T) (p : R) (m mq beta mu f0 : R) : qcd_gluon_propagator_t J g om p m mq beta mu f0 = qcd_gluon_propagator_t J' g om p m mq beta mu f0.
Proof. unfold qcd_gluon_propagator_t, qcd_gluon_dressing_t, qcd_gluon_dressing_t_inv; cbv zeta. rewrite polarization_glue_t_thermal_part_landau_agree, polarization_quark_t_thermal_part_landau_agree. reflexivity. Qed.
Lemma qcd_gluon_propagator_t_zero_temp_agree (om : T) (p : R) (m mq mu f0 : R) : qcd_gluon_propagator_t_zero_temp J g om p m mq mu f0 = qcd_gluon_propagator_t_zero_temp J' g om p m mq mu f0.
Proof. unfold qcd_gluon_propagator_t_zero_temp, qcd_gluon_dressing_t_zero_temp, qcd_gluon_dressing_t_inv_zero_temp; cbv zeta. rewrite polarization_quark_t_thermal_part_zero_temp_landau_agree. reflexivity. Qed.
Lemma qcd_gluon_propagator_t_w_field_config_agree (om : T) (p : R) (beta mu f0 : R) (c : FieldConfig) : qcd_gluon_propagator_t_w_field_config J g om p beta mu f0 c = qcd_gluon_propagator_t_w_field_config J' g om p beta mu f0 c.
Proof. unfold qcd_gluon_propagator_t_w_field_config, qcd_gluon_dressing_t_w_field_config, qcd_gluon_dressing_t_inv_w_field_config; cbv zeta. sq_rewrite ltac:(rewrite polarization_quark_t_thermal_part_landau_agree). rewrite polarization_glue_t_thermal_part_landau_agree. reflexivity. Qed.
Lemma qcd_gluon_propagator_t_zero_temp_w_field_config_agree (om : T) (p : R) (mu f0 : R) (c : FieldConfig) : qcd_gluon_propagator_t_zero_temp_w_field_config J g om p mu f0 c = qcd_gluon_propagator_t_zero_temp_w_field_config J' g om p mu f0 c.
Proof. unfold qcd_gluon_propagator_t_zero_temp_w_field_config, qcd_gluon_dressing_t_zero_temp_w_field_config, qcd_gluon_dressing_t_inv_zero_temp_w_field_config; cbv zeta. sq_rewrite ltac:(rewrite polarization_quark_t_thermal_part_zero_temp_landau_agree). reflexivity. Qed.
Lemma zp_ym_gluon_propagator_l_agree (om : T) (m beta f0 : R) : zp_ym_gluon_propagator_l J g om m beta f0 = zp_ym_gluon_propagator_l J' g om m beta f0.
Proof. unfold zp_ym_gluon_propagator_l, zp_ym_gluon_dressing_l, zp_ym_gluon_dressing_l_inv; cbv zeta. rewrite zp_polarization_glue_l_thermal_part_landau_agree. reflexivity. Qed.
Lemma zp_qcd_gluon_propagator_l_agree (om : T) (m mq beta mu f0 : R) : zp_qcd_gluon_propagator_l J g om m mq beta mu f0 = zp_qcd_gluon_propagator_l J' g om m mq beta mu f0.
Proof. unfold zp_qcd_gluon_propagator_l, zp_qcd_gluon_dressing_l, zp_qcd_gluon_dressing_l_inv; cbv zeta. rewrite zp_polarization_glue_l_thermal_part_landau_agree, zp_polarization_quark_l_thermal_part_landau_agree. reflexivity. Qed.
Lemma zp_qcd_gluon_propagator_l_zero_temp_agree (om : T) (m mq mu f0 : R) : zp_qcd_gluon_propagator_l_zero_temp J g om m mq mu f0 = zp_qcd_gluon_propagator_l_zero_temp J' g om m mq mu f0.
Proof. unfold zp_qcd_gluon_propagator_l_zero_temp, zp_qcd_gluon_dressing_l_zero_temp, zp_qcd_gluon_dressing_l_inv_zero_temp; cbv zeta. rewrite zp_polarization_quark_l_thermal_part_zero_temp_landau_agree. reflexivity. Qed.
Lemma zp_qcd_gluon_propagator_l_w_field_config_agree (om : T) (beta mu f0 : R) (c : FieldConfig) : zp_qcd_gluon_propagator_l_w_field_config J g om beta mu f0 c = zp_qcd_gluon_propagator_l_w_field_config J' g om beta mu f0 c.
Proof. unfold zp_qcd_gluon_propagator_l_w_field_config, zp_qcd_gluon_dressing_l_w_field_config, zp_qcd_gluon_dressing_l_inv_w_field_config; cbv zeta. sq_rewrite ltac:(rewrite zp_polarization_quark_l_thermal_part_landau_agree). rewrite zp_polarization_glue_l_thermal_part_landau_agree. reflexivity. Qed.
Lemma zp_qcd_gluon_propagator_l_zero_temp_w_field_config_agree (om : T) (mu f0 : R) (c : FieldConfig) : zp_qcd_gluon_propagator_l_zero_temp_w_field_config J g om mu f0 c = zp_qcd_gluon_propagator_l_zero_temp_w_field_config J' g om mu f0 c.
Proof. unfold zp_qcd_gluon_propagator_l_zero_temp_w_field_config, zp_qcd_gluon_dressing_l_zero_temp_w_field_config, zp_qcd_gluon_dressing_l_inv_zero_temp_w_field_config; cbv zeta. sq_rewrite ltac:(rewrite zp_polarization_quark_l_thermal_part_zero_temp_landau_agree). reflexivity. Qed.
Lemma zp_ym_gluon_propagator_t_agree (om : T) (m beta f0 : R) : zp_ym_gluon_propagator_t J g om m beta f0 = zp_ym_gluon_propagator_t J' g om m beta f0.
Proof. unfold zp_ym_gluon_propagator_t, zp_ym_gluon_dressing_t, zp_ym_gluon_dressing_t_inv, zp_ym_gluon_dressing_l_inv; cbv zeta. rewrite zp_polarization_glue_l_thermal_part_landau_agree. reflexivity. Qed.
Lemma zp_qcd_gluon_propagator_t_agree (om : T) (m mq beta mu f0 : R) : zp_qcd_gluon_propagator_t J g om m mq beta mu f0 = zp_qcd_gluon_propagator_t J' g om m mq beta mu f0.
Proof. unfold zp_qcd_gluon_propagator_t, zp_qcd_gluon_dressing_t, zp_qcd_gluon_dressing_t_inv; cbv zeta. rewrite zp_polarization_glue_t_thermal_part_landau_agree, zp_polarization_quark_t_thermal_part_landau_agree. reflexivity. Qed.
Lemma zp_qcd_gluon_propagator_t_zero_temp_agree (om : T) (m mq mu f0 : R) : zp_qcd_gluon_propagator_t_zero_temp J g om m mq mu f0 = zp_qcd_gluon_propagator_t_zero_temp J' g om m mq mu f0.
Proof. unfold zp_qcd_gluon_propagator_t_zero_temp, zp_qcd_gluon_dressing_t_zero_temp, zp_qcd_gluon_dressing_t_inv_zero_temp; cbv zeta. rewrite zp_polarization_quark_t_thermal_part_zero_temp_landau_agree. reflexivity. Qed.
Lemma zp_qcd_gluon_propagator_t_w_field_config_agree (om : T) (beta mu f0 : R) (c : FieldConfig) : zp_qcd_gluon_propagator_t_w_field_config J g om beta mu f0 c = zp_qcd_gluon_propagator_t_w_field_config J' g om beta mu f0 c.
Proof. unfold zp_qcd_gluon_propagator_t_w_field_config, zp_qcd_gluon_dressing_t_w_field_config, zp_qcd_gluon_dressing_t_inv_w_field_config; cbv zeta. sq_rewrite ltac:(rewrite zp_polarization_quark_t_thermal_part_landau_agree). rewrite zp_polarization_glue_t_thermal_part_landau_agree. reflexivity. Qed.
Lemma zp_qcd_gluon_propagator_t_zero_temp_w_field_config_agree (om : T) (mu f0 : R) (c : FieldConfig) : zp_qcd_gluon_propagator_t_zero_temp_w_field_config J g om mu f0 c = zp_qcd_gluon_propagator_t_zero_temp_w_field_config J' g om mu f0 c.
Proof. unfold zp_qcd_gluon_propagator_t_zero_temp_w_field_config, zp_qcd_gluon_dressing_t_zero_temp_w_field_config, zp_qcd_gluon_dressing_t_inv_zero_temp_w_field_config; cbv zeta. sq_rewrite ltac:(rewrite zp_polarization_quark_t_thermal_part_zero_temp_landau_agree). reflexivity. Qed.
Lemma ym_ghost_propagator_agree (om : T) (p m beta g0 : R) : ym_ghost_propagator J g om p m beta g0 = ym_ghost_propagator J' g om p m beta g0.
Proof. unfold ym_ghost_propagator, ym_ghost_dressing, ym_ghost_dressing_inv; cbv zeta. rewrite ghost_self_energy_agree. reflexivity. Qed.
Lemma zp_ym_ghost_propagator_agree (om : T) (m beta g0 : R) : zp_ym_ghost_propagator J g om m beta g0 = zp_ym_ghost_propagator J' g om m beta g0.
Proof. unfold zp_ym_ghost_propagator, zp_ym_ghost_dressing, zp_ym_ghost_dressing_inv; cbv zeta. rewrite zp_ghost_self_energy_agree. reflexivity. Qed.
Lemma zm_ym_ghost_propagator_agree (p m beta g0 : R) : zm_ym_ghost_propagator J g p m beta g0 = zm_ym_ghost_propagator J' g p m beta g0.
Proof. unfold zm_ym_ghost_propagator, zm_ym_ghost_dressing, zm_ym_ghost_dressing_inv; cbv zeta. rewrite zm_ghost_self_energy_agree. reflexivity. Qed.
End Default.

Section ZeroMatsubara.
Context (J J' : Integrator) (g : globals R).
Hypothesis HR : forall f a b, integrateR J f a b (zm_default_method OpsR g)
            = integrateR J' f a b (zm_default_method OpsR g).

Lemma zm_polarization_glue_l_thermal_part_landau_agree (p m beta : R) : zm_polarization_glue_l_thermal_part_landau J g p m beta = zm_polarization_glue_l_thermal_part_landau J' g p m beta.
Proof. unfold zm_polarization_glue_l_thermal_part_landau, zm_polarization_glue_l_thermal_part_landau_w_method. apply HR. Qed.
Lemma zm_polarization_glue_t_thermal_part_landau_agree (p m beta : R) : zm_polarization_glue_t_thermal_part_landau J g p m beta = zm_polarization_glue_t_thermal_part_landau J' g p m beta.
Proof. unfold zm_polarization_glue_t_thermal_part_landau, zm_polarization_glue_t_thermal_part_landau_w_method. apply HR. Qed.
Lemma zm_polarization_quark_l_thermal_part_landau_agree (p mq beta mu : R) : zm_polarization_quark_l_thermal_part_landau J g p mq beta mu = zm_polarization_quark_l_thermal_part_landau J' g p mq beta mu.
Proof. unfold zm_polarization_quark_l_thermal_part_landau, zm_polarization_quark_l_thermal_part_landau_w_method. apply HR. Qed.
Lemma zm_polarization_quark_t_thermal_part_landau_agree (p mq beta mu : R) : zm_polarization_quark_t_thermal_part_landau J g p mq beta mu = zm_polarization_quark_t_thermal_part_landau J' g p mq beta mu.
Proof. unfold zm_polarization_quark_t_thermal_part_landau, zm_polarization_quark_t_thermal_part_landau_w_method. apply HR. Qed.
Lemma zm_polarization_quark_l_thermal_part_zero_temp_landau_agree (p mq mu : R) : zm_polarization_quark_l_thermal_part_zero_temp_landau J g p mq mu = zm_polarization_quark_l_thermal_part_zero_temp_landau J' g p mq mu.
Proof. unfold zm_polarization_quark_l_thermal_part_zero_temp_landau, zm_polarization_quark_l_thermal_part_zero_temp_landau_w_method. destruct (Rlt_dec _ _); [reflexivity|]. apply HR. Qed.
Lemma zm_polarization_quark_t_thermal_part_zero_temp_landau_agree (p mq mu : R) : zm_polarization_quark_t_thermal_part_zero_temp_landau J g p mq mu = zm_polarization_quark_t_thermal_part_zero_temp_landau J' g p mq mu.
Proof. unfold zm_polarization_quark_t_thermal_part_zero_temp_landau, zm_polarization_quark_t_thermal_part_zero_temp_landau_w_method. destruct (Rlt_dec _ _); [reflexivity|]. apply HR. Qed.
Lemma zm_ym_gluon_propagator_l_agree (p : R) (m beta f0 : R) : zm_ym_gluon_propagator_l J g p m beta f0 = zm_ym_gluon_propagator_l J' g p m beta f0.
Proof. unfold zm_ym_gluon_propagator_l, zm_ym_gluon_dressing_l, zm_ym_gluon_dressing_l_inv; cbv zeta. rewrite zm_polarization_glue_l_thermal_part_landau_agree. reflexivity. Qed.
Lemma zm_qcd_gluon_propagator_l_agree (p : R) (m mq beta mu f0 : R) : zm_qcd_gluon_propagator_l J g p m mq beta mu f0 = zm_qcd_gluon_propagator_l J' g p m mq beta mu f0.
Proof. unfold zm_qcd_gluon_propagator_l, zm_qcd_gluon_dressing_l, zm_qcd_gluon_dressing_l_inv; cbv zeta. rewrite zm_polarization_glue_l_thermal_part_landau_agree, zm_polarization_quark_l_thermal_part_landau_agree. reflexivity. Qed.
Lemma zm_qcd_gluon_propagator_l_zero_temp_agree (p : R) (m mq mu f0 : R) : zm_qcd_gluon_propagator_l_zero_temp J g p m mq mu f0 = zm_qcd_gluon_propagator_l_zero_temp J' g p m mq mu f0.
Proof. unfold zm_qcd_gluon_propagator_l_zero_temp, zm_qcd_gluon_dressing_l_zero_temp, zm_qcd_gluon_dressing_l_inv_zero_temp; cbv zeta. rewrite zm_polarization_quark_l_thermal_part_zero_temp_landau_agree. reflexivity. Qed.
Lemma zm_qcd_gluon_propagator_l_w_field_config_agree (p : R) (beta mu f0 : R) (c : FieldConfig) : zm_qcd_gluon_propagator_l_w_field_config J g p beta mu f0 c = zm_qcd_gluon_propagator_l_w_field_config J' g p beta mu f0 c.
Proof. unfold zm_qcd_gluon_propagator_l_w_field_config, zm_qcd_gluon_dressing_l_w_field_config, zm_qcd_gluon_dressing_l_inv_w_field_config; cbv zeta. sq_rewrite ltac:(rewrite zm_polarization_quark_l_thermal_part_landau_agree). rewrite zm_polarization_glue_l_thermal_part_landau_agree. reflexivity. Qed.
Lemma zm_qcd_gluon_propagator_l_zero_temp_w_field_config_agree (p : R) (mu f0 : R) (c : FieldConfig) : zm_qcd_gluon_propagator_l_zero_temp_w_field_config J g p mu f0 c = zm_qcd_gluon_propagator_l_zero_temp_w_field_config J' g p mu f0 c.
Proof. unfold zm_qcd_gluon_propagator_l_zero_temp_w_field_config, zm_qcd_gluon_dressing_l_zero_temp_w_field_config, zm_qcd_gluon_dressing_l_inv_zero_temp_w_field_config; cbv zeta. sq_rewrite ltac:(rewrite zm_polarization_quark_l_thermal_part_zero_temp_landau_agree). reflexivity. Qed.
Lemma zm_ym_gluon_propagator_t_agree (p : R) (m beta f0 : R) : zm_ym_gluon_propagator_t J g p m beta f0 = zm_ym_gluon_propagator_t J' g p m beta f0.
Proof. unfold zm_ym_gluon_propagator_t, zm_ym_gluon_dressing_t, zm_ym_gluon_dressing_t_inv; cbv zeta. rewrite zm_polarization_glue_t_thermal_part_landau_agree. reflexivity. Qed.
Lemma zm_qcd_gluon_propagator_t_agree (p : R) (m mq beta mu f0 : R) : zm_qcd_gluon_propagator_t J g p m mq beta mu f0 = zm_qcd_gluon_propagator_t J' g p m mq beta mu f0.
Proof. unfold zm_qcd_gluon_propagator_t, zm_qcd_gluon_dressing_t, zm_qcd_gluon_dressing_t_inv; cbv zeta. rewrite zm_polarization_glue_t_thermal_part_landau_agree, zm_polarization_quark_t_thermal_part_landau_agree. reflexivity. Qed.
Lemma zm_qcd_gluon_propagator_t_zero_temp_agree (p : R) (m mq mu f0 : R) : zm_qcd_gluon_propagator_t_zero_temp J g p m mq mu f0 = zm_qcd_gluon_propagator_t_zero_temp J' g p m mq mu f0.
Proof. unfold zm_qcd_gluon_propagator_t_zero_temp, zm_qcd_gluon_dressing_t_zero_temp, zm_qcd_gluon_dressing_t_inv_zero_temp; cbv zeta. rewrite zm_polarization_quark_t_thermal_part_zero_temp_landau_agree. reflexivity. Qed.
Lemma zm_qcd_gluon_propagator_t_w_field_config_agree (p : R) (beta mu f0 : R) (c : FieldConfig) : zm_qcd_gluon_propagator_t_w_field_config J g p beta mu f0 c = zm_qcd_gluon_propagator_t_w_field_config J' g p beta mu f0 c.
Proof. unfold zm_qcd_gluon_propagator_t_w_field_config, zm_qcd_gluon_dressing_t_w_field_config, zm_qcd_gluon_dressing_t_inv_w_field_config; cbv zeta. sq_rewrite ltac:(rewrite zm_polarization_quark_t_thermal_part_landau_agree). rewrite zm_polarization_glue_t_thermal_part_landau_agree. reflexivity. Qed.
Lemma zm_qcd_gluon_propagator_t_zero_temp_w_field_config_agree (p : R) (mu f0 : R) (c : FieldConfig) : zm_qcd_gluon_propagator_t_zero_temp_w_field_config J g p mu f0 c = zm_qcd_gluon_propagator_t_zero_temp_w_field_config J' g p mu f0 c.
Proof. unfold zm_qcd_gluon_propagator_t_zero_temp_w_field_config, zm_qcd_gluon_dressing_t_zero_temp_w_field_config, zm_qcd_gluon_dressing_t_inv_zero_temp_w_field_config; cbv zeta. sq_rewrite ltac:(rewrite zm_polarization_quark_t_thermal_part_zero_temp_landau_agree). reflexivity. Qed.
End ZeroMatsubara.

Lemma charge_density_agree J J' g :
  (forall f a b, integrateR J f a b (get_default_integration_method g)
            = integrateR J' f a b (get_default_integration_method g)) ->
  forall m beta mu, charge_density J g m beta mu = charge_density J' g m beta mu.
Proof. intros HR. intros. unfold charge_density, charge_density_with_method. apply HR. Qed.

Lemma chemical_potential_agree J J' g :
  (forall f a b, integrateR J f a b (get_default_integration_method g)
            = integrateR J' f a b (get_default_integration_method g)) ->
  forall m beta n, chemical_potential J g m beta n = chemical_potential J' g m beta n.
Proof.
  intros HR m beta n. unfold chemical_potential, chemical_potential_with_method.
  destruct (Req_EM_T n 0); [reflexivity|].
  generalize 1000%nat. intros k.
  rewrite (find_root_ext RootOpsR _ (fun mu => n - charge_density_with_method J' g m beta mu (get_default_integration_method g))).
  reflexivity.
  intros x. f_equal. now apply charge_density_agree.
Qed.

Lemma default_agree {T : Type} {N : Num T} J J' (g : globals R) :
  agree_on (G7K15 (get_default_tol_integral g) (get_default_max_iter_integral g)) J J' ->
  same_results_default (T := T) J J' g.
Proof.
  intros [HC HR]. unfold same_results_default.
  split; [intros; apply ghost_self_energy_agree; assumption|].
  split; [intros; apply polarization_glue_l_thermal_part_landau_agree; assumption|].
  split; [intros; apply polarization_glue_t_thermal_part_landau_agree; assumption|].
  split; [intros; apply polarization_quark_l_thermal_part_landau_agree; assumption|].
  split; [intros; apply polarization_quark_t_thermal_part_landau_agree; assumption|].
  split; [intros; apply polarization_quark_l_thermal_part_zero_temp_landau_agree; assumption|].
  split; [intros; apply polarization_quark_t_thermal_part_zero_temp_landau_agree; assumption|].
  split; [intros; apply zp_ghost_self_energy_agree; assumption|].
  split; [intros; apply zp_polarization_glue_l_thermal_part_landau_agree; assumption|].
  split; [intros; apply zp_polarization_glue_t_thermal_part_landau_agree; assumption|].
  split; [intros; apply zp_polarization_quark_l_thermal_part_landau_agree; assumption|].
  split; [intros; apply zp_polarization_quark_t_thermal_part_landau_agree; assumption|].
  split; [intros; apply zp_polarization_quark_l_thermal_part_zero_temp_landau_agree; assumption|].
  split; [intros; apply zp_polarization_quark_t_thermal_part_zero_temp_landau_agree; assumption|].
  split; [intros; apply zm_ghost_self_energy_agree; assumption|].
  split; [intros; apply ym_gluon_propagator_l_agree; assumption|].
  split; [intros; apply qcd_gluon_propagator_l_agree; assumption|].
  split; [intros; apply qcd_gluon_propagator_l_zero_temp_agree; assumption|].
  split; [intros; apply qcd_gluon_propagator_l_w_field_config_agree; assumption|].
  split; [intros; apply qcd_gluon_propagator_l_zero_temp_w_field_config_agree; assumption|].
  split; [intros; apply ym_gluon_propagator_t_agree; assumption|].
  split; [intros; apply qcd_gluon_propagator_t_agree; assumption|].
  split; [intros; apply qcd_gluon_propagator_t_zero_temp_agree; assumption|].
  split; [intros; apply qcd_gluon_propagator_t_w_field_config_agree; assumption|].
  split; [intros; apply qcd_gluon_propagator_t_zero_temp_w_field_config_agree; assumption|].
  split; [intros; apply zp_ym_gluon_propagator_l_agree; assumption|].
  split; [intros; apply zp_qcd_gluon_propagator_l_agree; assumption|].
  split; [intros; apply zp_qcd_gluon_propagator_l_zero_temp_agree; assumption|].
  split; [intros; apply zp_qcd_gluon_propagator_l_w_field_config_agree; assumption|].
  split; [intros; apply zp_qcd_gluon_propagator_l_zero_temp_w_field_config_agree; assumption|].
  split; [intros; apply zp_ym_gluon_propagator_t_agree; assumption|].
  split; [intros; apply zp_qcd_gluon_propagator_t_agree; assumption|].
  split; [intros; apply zp_qcd_gluon_propagator_t_zero_temp_agree; assumption|].
  split; [intros; apply zp_qcd_gluon_propagator_t_w_field_config_agree; assumption|].
  split; [intros; apply zp_qcd_gluon_propagator_t_zero_temp_w_field_config_agree; assumption|].
  split; [intros; apply ym_ghost_propagator_agree; assumption|].
  split; [intros; apply zp_ym_ghost_propagator_agree; assumption|].
  split; [intros; apply zm_ym_ghost_propagator_agree; assumption|].
  split; [intros; apply charge_density_agree; assumption|].
  intros; apply chemical_potential_agree; assumption.
Qed.

Lemma zm_agree J J' (g : globals R) :
  agree_on (G7K15 (/ 10 ^ 8) (get_default_max_iter_integral g)) J J' ->
  same_results_zero_matsubara J J' g.
Proof.
  intros [_ HR'].
  assert (HR : forall f a b, integrateR J f a b (zm_default_method OpsR g)
            = integrateR J' f a b (zm_default_method OpsR g)).
  { intros. rewrite zm_method_real. apply HR'. }
  unfold same_results_zero_matsubara.
  split; [intros; apply zm_polarization_glue_l_thermal_part_landau_agree; assumption|].
  split; [intros; apply zm_polarization_glue_t_thermal_part_landau_agree; assumption|].
  split; [intros; apply zm_polarization_quark_l_thermal_part_landau_agree; assumption|].
  split; [intros; apply zm_polarization_quark_t_thermal_part_landau_agree; assumption|].
  split; [intros; apply zm_polarization_quark_l_thermal_part_zero_temp_landau_agree; assumption|].
  split; [intros; apply zm_polarization_quark_t_thermal_part_zero_temp_landau_agree; assumption|].
  split; [intros; apply zm_ym_gluon_propagator_l_agree; assumption|].
  split; [intros; apply zm_qcd_gluon_propagator_l_agree; assumption|].
  split; [intros; apply zm_qcd_gluon_propagator_l_zero_temp_agree; assumption|].
  split; [intros; apply zm_qcd_gluon_propagator_l_w_field_config_agree; assumption|].
  split; [intros; apply zm_qcd_gluon_propagator_l_zero_temp_w_field_config_agree; assumption|].
  split; [intros; apply zm_ym_gluon_propagator_t_agree; assumption|].
  split; [intros; apply zm_qcd_gluon_propagator_t_agree; assumption|].
  split; [intros; apply zm_qcd_gluon_propagator_t_zero_temp_agree; assumption|].
  split; [intros; apply zm_qcd_gluon_propagator_t_w_field_config_agree; assumption|].
  intros; apply zm_qcd_gluon_propagator_t_zero_temp_w_field_config_agree; assumption.
Qed.
