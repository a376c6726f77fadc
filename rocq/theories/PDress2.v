(** * Proofs about the thermal dressing functions: lists of values *)
From Coq Require Import Reals List Psatz Permutation Lia.
From Coquelicot Require Import Coquelicot.
From Verif Require Import Num CField MConsts MVacuum MThermal MPolar MDress SpecVac SpecDress PCplx PVac PVac3 PDress.
Import List ListNotations.
Open Scope R_scope.

Lemma RtoC_inv_all x : RtoC (/ x) = (/ RtoC x)%C.
Proof.
  destruct (Req_dec x 0) as [->|H]; [|now apply RtoC_inv'].
  rewrite Rinv_0. apply Ceq; simpl; unfold Rdiv; ring.
Qed.

Ltac lists_unfold := unfold thermal_values_C, thermal_ym_values_C, thermal_cfg_values_C, thermal_values_R, thermal_ym_values_R, thermal_cfg_values_R,
  gen_ym_l, gen_ym_t, gen_qcd_l, gen_qcd_t, gen_qcd_zt_l, gen_qcd_zt_t, gen_qcd_cfg_l, gen_qcd_cfg_t, gen_qcd_zt_cfg_l, gen_qcd_zt_cfg_t,
  zp_ym_l, zp_ym_t, zp_qcd_l, zp_qcd_t, zp_qcd_zt_l, zp_qcd_zt_t, zp_qcd_cfg_l, zp_qcd_cfg_t, zp_qcd_zt_cfg_l, zp_qcd_zt_cfg_t,
  zm_ym_l, zm_ym_t, zm_qcd_l, zm_qcd_t, zm_qcd_zt_l, zm_qcd_zt_t, zm_qcd_cfg_l, zm_qcd_cfg_t, zm_qcd_zt_cfg_l, zm_qcd_zt_cfg_t,
  gen_ym_vac, zp_ym_vac, zm_ym_vac; cbn [app]; dress_unfold.

Lemma no_quarks_R J g om p m mq beta mu f0 : g_nf g = 0%nat -> g_nf_div_nc g = 0 ->
  thermal_values_C J g om p m mq beta mu f0 = thermal_ym_values_C J g (om : R) p m beta f0.
Proof.
  intros E1 E2. lists_unfold.
  rewrite nf0_gen_R_l, nf0_gen_R_t, nf0_zt_gen_R_l, nf0_zt_gen_R_t, nf0_zp_R_l, nf0_zp_R_t, nf0_zt_zp_R_l, nf0_zt_zp_R_t by auto.
  unfold ym_gluon_dressing_landau. numcbn. rewrite !RtoC_inv_all. reflexivity.
Qed.
Lemma no_quarks_C J g (om : C) p m mq beta mu f0 : g_nf g = 0%nat -> g_nf_div_nc g = 0 ->
  thermal_values_C J g om p m mq beta mu f0 = thermal_ym_values_C J g om p m beta f0.
Proof.
  intros E1 E2. lists_unfold.
  rewrite nf0_gen_C_l, nf0_gen_C_t, nf0_zt_gen_C_l, nf0_zt_gen_C_t, nf0_zp_C_l, nf0_zp_C_t, nf0_zt_zp_C_l, nf0_zt_zp_C_t by auto.
  unfold ym_gluon_dressing_landau. reflexivity.
Qed.
Lemma no_quarks_zm J g p m mq beta mu f0 : g_nf g = 0%nat -> g_nf_div_nc g = 0 ->
  thermal_values_R J g p m mq beta mu f0 = thermal_ym_values_R J g p m beta f0.
Proof.
  intros E1 E2. lists_unfold.
  rewrite nf0_zm_R_l, nf0_zm_R_t, nf0_zt_zm_R_l, nf0_zt_zm_R_t by auto.
  unfold ym_gluon_dressing_landau. reflexivity.
Qed.

Lemma empty_cfg_R J g om p nc m quarks beta mu f0 : Forall (fun q : nat * R => fst q = 0%nat) quarks ->
  thermal_cfg_values_C J g om p beta mu f0 (FieldConfig_new nc m quarks) = thermal_ym_values_C J g (om : R) p m beta f0.
Proof.
  intros H. lists_unfold.
  rewrite cfg0_gen_R_l, cfg0_gen_R_t, cfg0_zt_gen_R_l, cfg0_zt_gen_R_t, cfg0_zp_R_l, cfg0_zp_R_t, cfg0_zt_zp_R_l, cfg0_zt_zp_R_t by auto.
  unfold ym_gluon_dressing_landau. numcbn. rewrite !RtoC_inv_all. reflexivity.
Qed.
Lemma empty_cfg_C J g (om : C) p nc m quarks beta mu f0 : Forall (fun q : nat * R => fst q = 0%nat) quarks ->
  thermal_cfg_values_C J g om p beta mu f0 (FieldConfig_new nc m quarks) = thermal_ym_values_C J g om p m beta f0.
Proof.
  intros H. lists_unfold.
  rewrite cfg0_gen_C_l, cfg0_gen_C_t, cfg0_zt_gen_C_l, cfg0_zt_gen_C_t, cfg0_zp_C_l, cfg0_zp_C_t, cfg0_zt_zp_C_l, cfg0_zt_zp_C_t by auto.
  unfold ym_gluon_dressing_landau. reflexivity.
Qed.
Lemma empty_cfg_zm J g p nc m quarks beta mu f0 : Forall (fun q : nat * R => fst q = 0%nat) quarks ->
  thermal_cfg_values_R J g p beta mu f0 (FieldConfig_new nc m quarks) = thermal_ym_values_R J g p m beta f0.
Proof.
  intros H. lists_unfold.
  rewrite cfg0_zm_R_l, cfg0_zm_R_t, cfg0_zt_zm_R_l, cfg0_zt_zm_R_t by auto.
  unfold ym_gluon_dressing_landau. reflexivity.
Qed.

(** ** Equivalent configurations *)
Definition cfg_equiv (c c' : FieldConfig) : Prop :=
  fc_gluon c = fc_gluon c' /\ same_loops (T := R) c c' /\ same_loops (T := C) c c' /\
  (forall F : R -> C, sum_quarks (fun qi => (F (qi_mq qi) * RtoC (INR (qi_nf qi)))%C) (fc_quarks_internal c) =
      sum_quarks (fun qi => (F (qi_mq qi) * RtoC (INR (qi_nf qi)))%C) (fc_quarks_internal c')) /\
  (forall F : R -> R, sum_quarks (fun qi => F (qi_mq qi) * INR (qi_nf qi)) (fc_quarks_internal c) =
      sum_quarks (fun qi => F (qi_mq qi) * INR (qi_nf qi)) (fc_quarks_internal c')).

Lemma cfg_equiv_R J g om p c c' beta mu f0 : cfg_equiv c c' ->
  thermal_cfg_values_C J g om p beta mu f0 c = thermal_cfg_values_C J g (om : R) p beta mu f0 c'.
Proof.
  intros (E1 & E2 & E3 & E4 & E5). lists_unfold.
  assert (V : forall s : R, qcd_gluon_dressing_inv_landau_w_field_config s f0 c = qcd_gluon_dressing_inv_landau_w_field_config s f0 c')
    by (intros s; inv_eqs; apply E2).
  inv_unfold. numcbn. rewrite !E1, !V.
  rewrite (E4 (fun mq => polarization_quark_l_thermal_part_landau J g om p mq beta mu)),
    (E4 (fun mq => polarization_quark_t_thermal_part_landau J g om p mq beta mu)),
    (E4 (fun mq => zp_polarization_quark_l_thermal_part_landau J g om mq beta mu)),
    (E4 (fun mq => zp_polarization_quark_t_thermal_part_landau J g om mq beta mu)),
    (E4 (fun mq => polarization_quark_l_thermal_part_zero_temp_landau J g om p mq mu)),
    (E4 (fun mq => polarization_quark_t_thermal_part_zero_temp_landau J g om p mq mu)),
    (E4 (fun mq => zp_polarization_quark_l_thermal_part_zero_temp_landau J g om mq mu)),
    (E4 (fun mq => zp_polarization_quark_t_thermal_part_zero_temp_landau J g om mq mu)). reflexivity.
Qed.
Lemma cfg_equiv_C J g (om : C) p c c' beta mu f0 : cfg_equiv c c' ->
  thermal_cfg_values_C J g om p beta mu f0 c = thermal_cfg_values_C J g om p beta mu f0 c'.
Proof.
  intros (E1 & E2 & E3 & E4 & E5). lists_unfold.
  assert (V : forall s : C, qcd_gluon_dressing_inv_landau_w_field_config s f0 c = qcd_gluon_dressing_inv_landau_w_field_config s f0 c')
    by (intros s; inv_eqs; apply E3).
  inv_unfold. numcbn. rewrite !E1, !V.
  rewrite (E4 (fun mq => polarization_quark_l_thermal_part_landau J g om p mq beta mu)),
    (E4 (fun mq => polarization_quark_t_thermal_part_landau J g om p mq beta mu)),
    (E4 (fun mq => zp_polarization_quark_l_thermal_part_landau J g om mq beta mu)),
    (E4 (fun mq => zp_polarization_quark_t_thermal_part_landau J g om mq beta mu)),
    (E4 (fun mq => polarization_quark_l_thermal_part_zero_temp_landau J g om p mq mu)),
    (E4 (fun mq => polarization_quark_t_thermal_part_zero_temp_landau J g om p mq mu)),
    (E4 (fun mq => zp_polarization_quark_l_thermal_part_zero_temp_landau J g om mq mu)),
    (E4 (fun mq => zp_polarization_quark_t_thermal_part_zero_temp_landau J g om mq mu)). reflexivity.
Qed.
Lemma cfg_equiv_zm J g p c c' beta mu f0 : cfg_equiv c c' ->
  thermal_cfg_values_R J g p beta mu f0 c = thermal_cfg_values_R J g p beta mu f0 c'.
Proof.
  intros (E1 & E2 & E3 & E4 & E5). lists_unfold.
  assert (V : forall s : R, qcd_gluon_dressing_inv_landau_w_field_config s f0 c = qcd_gluon_dressing_inv_landau_w_field_config s f0 c')
    by (intros s; inv_eqs; apply E2).
  inv_unfold. numcbn. rewrite !E1, !V.
  rewrite (E5 (fun mq => zm_polarization_quark_l_thermal_part_landau J g p mq beta mu)),
    (E5 (fun mq => zm_polarization_quark_t_thermal_part_landau J g p mq beta mu)),
    (E5 (fun mq => zm_polarization_quark_l_thermal_part_zero_temp_landau J g p mq mu)),
    (E5 (fun mq => zm_polarization_quark_t_thermal_part_zero_temp_landau J g p mq mu)). reflexivity.
Qed.

Lemma wsum_perm_C l l' : Permutation l l' -> wsum_C l = wsum_C l'.
Proof. induction 1; rewrite ?wsum_C_cons; auto; [now rewrite IHPermutation|ring|congruence]. Qed.
Lemma wsum_perm_R l l' : Permutation l l' -> wsum_R l = wsum_R l'.
Proof. induction 1; rewrite ?wsum_R_cons; auto; [now rewrite IHPermutation|ring|congruence]. Qed.
Lemma wsum_app_C l l' : wsum_C (l ++ l') = (wsum_C l + wsum_C l')%C.
Proof. induction l; cbn [app]; rewrite ?wsum_C_cons, ?wsum_C_nil; [ring|rewrite IHl; ring]. Qed.
Lemma wsum_app_R l l' : wsum_R (l ++ l') = wsum_R l + wsum_R l'.
Proof. induction l; cbn [app]; rewrite ?wsum_R_cons, ?wsum_R_nil; [ring|rewrite IHl; ring]. Qed.

Lemma perm_equiv nc m l l' : Permutation l l' -> cfg_equiv (FieldConfig_new nc m l) (FieldConfig_new nc m l').
Proof.
  intros P. split; [reflexivity|]. split; [apply perm_loops_R, fc_perm, P|]. split; [apply perm_loops_C, fc_perm, P|].
  split; intros F; [rewrite !sum_quarks_wsum_C|rewrite !sum_quarks_wsum_R]; [apply wsum_perm_C|apply wsum_perm_R]; now apply Permutation_map.
Qed.
Lemma merge_equiv nc m n1 n2 mq l1 l2 : cfg_equiv
  (FieldConfig_new nc m (l1 ++ (n1, mq) :: (n2, mq) :: l2)) (FieldConfig_new nc m (l1 ++ ((n1 + n2)%nat, mq) :: l2)).
Proof.
  split; [reflexivity|]. split; [apply merge_loops_R|]. split; [apply merge_loops_C|].
  split; intros F; [rewrite !sum_quarks_wsum_C|rewrite !sum_quarks_wsum_R];
    rewrite !map_app, ?wsum_app_C, ?wsum_app_R; cbn [map]; rewrite ?wsum_C_cons, ?wsum_R_cons; cbn [fst snd];
    rewrite plus_INR, ?RtoC_plus; ring.
Qed.
Lemma absent_equiv nc m mq l1 l2 : cfg_equiv
  (FieldConfig_new nc m (l1 ++ (0%nat, mq) :: l2)) (FieldConfig_new nc m (l1 ++ l2)).
Proof.
  split; [reflexivity|]. split; [apply zero_loops_R|]. split; [apply zero_loops_C|].
  split; intros F; [rewrite !sum_quarks_wsum_C|rewrite !sum_quarks_wsum_R];
    rewrite !map_app, ?wsum_app_C, ?wsum_app_R; cbn [map]; rewrite ?wsum_C_cons, ?wsum_R_cons; cbn [fst snd INR]; ring.
Qed.

(** ** One quark species *)
Lemma vac_single_R nc m nf mq (s f0 : R) :
  qcd_gluon_dressing_inv_landau_w_field_config s f0 (FieldConfig_new nc m [(nf, mq)]) = qcd_gluon_dressing_inv_landau (INR nf / INR nc) s (mq / m) f0.
Proof. reflexivity. Qed.
Lemma vac_single_C nc m nf mq (s : C) f0 :
  qcd_gluon_dressing_inv_landau_w_field_config s f0 (FieldConfig_new nc m [(nf, mq)]) = qcd_gluon_dressing_inv_landau (INR nf / INR nc) s (mq / m) f0.
Proof. reflexivity. Qed.
Lemma sum_single_C (F : R -> C) nc m nf mq :
  sum_quarks (fun qi => (F (qi_mq qi) * RtoC (INR (qi_nf qi)))%C) (fc_quarks_internal (FieldConfig_new nc m [(nf, mq)])) = (RtoC (INR nf) * F mq)%C.
Proof. rewrite sum_quarks_wsum_C. cbn [map]. rewrite wsum_C_cons, wsum_C_nil. cbn [fst snd]. ring. Qed.
Lemma sum_single_R (F : R -> R) nc m nf mq :
  sum_quarks (fun qi => F (qi_mq qi) * INR (qi_nf qi)) (fc_quarks_internal (FieldConfig_new nc m [(nf, mq)])) = INR nf * F mq.
Proof. rewrite sum_quarks_wsum_R. cbn [map]. rewrite wsum_R_cons, wsum_R_nil. cbn [fst snd]. ring. Qed.

Ltac single_C g om p beta mu J := 
  rewrite (sum_single_C (fun mq => polarization_quark_l_thermal_part_landau J g om p mq beta mu)),
    (sum_single_C (fun mq => polarization_quark_t_thermal_part_landau J g om p mq beta mu)),
    (sum_single_C (fun mq => zp_polarization_quark_l_thermal_part_landau J g om mq beta mu)),
    (sum_single_C (fun mq => zp_polarization_quark_t_thermal_part_landau J g om mq beta mu)),
    (sum_single_C (fun mq => polarization_quark_l_thermal_part_zero_temp_landau J g om p mq mu)),
    (sum_single_C (fun mq => polarization_quark_t_thermal_part_zero_temp_landau J g om p mq mu)),
    (sum_single_C (fun mq => zp_polarization_quark_l_thermal_part_zero_temp_landau J g om mq mu)),
    (sum_single_C (fun mq => zp_polarization_quark_t_thermal_part_zero_temp_landau J g om mq mu)).
Lemma single_R J g om p nc m nf mq beta mu f0 : g_nf g = nf -> g_nf_div_nc g = INR nf / INR nc ->
  thermal_cfg_values_C J g om p beta mu f0 (FieldConfig_new nc m [(nf, mq)]) = thermal_values_C J g (om : R) p m mq beta mu f0.
Proof.
  intros E1 E2. lists_unfold. inv_unfold. unfold nf_div_nc, get_number_of_fermions. rewrite E1, E2, !fc_gluon_new, !vac_single_R. numcbn.
  single_C g om p beta mu J. reflexivity.
Qed.
Lemma single_C J g (om : C) p nc m nf mq beta mu f0 : g_nf g = nf -> g_nf_div_nc g = INR nf / INR nc ->
  thermal_cfg_values_C J g om p beta mu f0 (FieldConfig_new nc m [(nf, mq)]) = thermal_values_C J g om p m mq beta mu f0.
Proof.
  intros E1 E2. lists_unfold. inv_unfold. unfold nf_div_nc, get_number_of_fermions. rewrite E1, E2, !fc_gluon_new, !vac_single_C. numcbn.
  single_C g om p beta mu J. reflexivity.
Qed.
Lemma single_zm J g p nc m nf mq beta mu f0 : g_nf g = nf -> g_nf_div_nc g = INR nf / INR nc ->
  thermal_cfg_values_R J g p beta mu f0 (FieldConfig_new nc m [(nf, mq)]) = thermal_values_R J g p m mq beta mu f0.
Proof.
  intros E1 E2. lists_unfold. inv_unfold. unfold nf_div_nc, get_number_of_fermions. rewrite E1, E2, !fc_gluon_new, !vac_single_R. numcbn.
  rewrite (sum_single_R (fun mq => zm_polarization_quark_l_thermal_part_landau J g p mq beta mu)),
    (sum_single_R (fun mq => zm_polarization_quark_t_thermal_part_landau J g p mq beta mu)),
    (sum_single_R (fun mq => zm_polarization_quark_l_thermal_part_zero_temp_landau J g p mq mu)),
    (sum_single_R (fun mq => zm_polarization_quark_t_thermal_part_zero_temp_landau J g p mq mu)).
  rewrite !(Rplus_comm (zm_polarization_glue_l_thermal_part_landau _ _ _ _ _)), !(Rplus_comm (zm_polarization_glue_t_thermal_part_landau _ _ _ _ _)).
  reflexivity.
Qed.

(** ** Zero momentum *)
Lemma zp_lt {T} {NT : Num T} J g (om : T) m mq beta mu f0 cfg :
  zp_ym_t J g om m beta f0 = zp_ym_l J g om m beta f0 /\
  zp_qcd_t J g om m mq beta mu f0 = zp_qcd_l J g om m mq beta mu f0 /\
  zp_qcd_zt_t J g om m mq mu f0 = zp_qcd_zt_l J g om m mq mu f0 /\
  zp_qcd_cfg_t J g om beta mu f0 cfg = zp_qcd_cfg_l J g om beta mu f0 cfg /\
  zp_qcd_zt_cfg_t J g om mu f0 cfg = zp_qcd_zt_cfg_l J g om mu f0 cfg.
Proof. repeat split; reflexivity. Qed.
