(** * The number of colors seen by the field-configuration functions *)
From Coq Require Import Reals List Lra Lia FunctionalExtensionality.
From Coquelicot Require Import Coquelicot.
From Verif Require Import Num CField MCommon MConsts MVacuum MThermal MPolar MDress MQuark SpecDress SpecInt PCplx PDistr PVac PDress PDress2 PInt.
Import List ListNotations.
Open Scope R_scope.

(** An exact integration routine exists. *)
Definition RInt_J : Integrator :=
  {| integrateR := fun f a b _ => RInt f a b;
     integrateC := fun f a b _ => (RInt (fun x => fst (f x)) a b, RInt (fun x => snd (f x)) a b) |}.
Lemma RInt_J_exact : exact_integrator RInt_J.
Proof.
  split; intros f a b I v H; cbn [integrateR integrateC RInt_J].
  - now apply is_RInt_unique.
  - destruct v as [v1 v2]. f_equal; apply is_RInt_unique;
    [exact (is_RInt_fct_extend_fst (U := R_NormedModule) (V := R_NormedModule) _ _ _ _ H)|exact (is_RInt_fct_extend_snd (U := R_NormedModule) (V := R_NormedModule) _ _ _ _ H)].
Qed.

(** The only global settings a configuration function can depend on. *)
Lemma cfg_globals J g g' : g_nc g = g_nc g' -> g_tol_integral g = g_tol_integral g' ->
  g_max_iter_integral g = g_max_iter_integral g' -> g_matsubara_reg g = g_matsubara_reg g' ->
  (forall (om : R) p beta mu f0 cfg, thermal_cfg_values_C J g om p beta mu f0 cfg = thermal_cfg_values_C J g' om p beta mu f0 cfg) /\
  (forall (om : C) p beta mu f0 cfg, thermal_cfg_values_C J g om p beta mu f0 cfg = thermal_cfg_values_C J g' om p beta mu f0 cfg) /\
  (forall p beta mu f0 cfg, thermal_cfg_values_R J g p beta mu f0 cfg = thermal_cfg_values_R J g' p beta mu f0 cfg).
Proof.
  destruct g, g'; cbn; intros -> -> -> ->. repeat split; reflexivity.
Qed.

Definition sea_h (om mq q : R) : R :=
  2 * (q * q) * (q * q - 3 * (mq * mq + q * q)) / ((om * om + 4 * (mq * mq + q * q)) * sqrt (mq * mq + q * q) * 3 * (PI * PI)).
Lemma sea_h_eq nc om mq mu q : mq <> 0 -> nc <> 0%nat -> Rabs mq < Rabs mu -> 0 < q < fermi_momentum mq mu ->
  zp_polarization_quark_l_thermal_part_zero_temp_landau_i nc q om mq mu = sea_h om mq q / INR nc.
Proof.
  intros Hm Hn Hmu Hq. unfold zp_polarization_quark_l_thermal_part_zero_temp_landau_i, sea_h.
  rewrite occ_inside; [|apply energy_pos|apply energy_lt; lra].
  rewrite energy_R. numcbn. rewrite sqrt_def by nra.
  assert (INR nc <> 0) by (now apply not_0_INR). pose proof PI_neq0.
  assert (P : 0 < mq * mq) by nra. assert (0 < sqrt (mq * mq + q * q)) by (apply sqrt_lt_R0; nra).
  change PI2 with (PI * PI). field. repeat split; auto; nra.
Qed.
Lemma sea_h_neg om mq q : mq <> 0 -> q <> 0 -> sea_h om mq q < 0.
Proof.
  intros Hm Hq. unfold sea_h. assert (0 < mq * mq) by nra. assert (0 < q * q) by nra.
  assert (0 < sqrt (mq * mq + q * q)) by (apply sqrt_lt_R0; nra). pose proof PI2_pos.
  set (d := (om * om + 4 * (mq * mq + q * q)) * sqrt (mq * mq + q * q) * 3 * (PI * PI)).
  assert (D : 0 < / d) by (apply Rinv_0_lt_compat; unfold d; pose proof (Rle_0_sqr om); unfold Rsqr in *; generalize dependent (PI * PI); intros pp **; repeat apply Rmult_lt_0_compat; lra).
  assert (N : 0 < 2 * (q * q) * (3 * (mq * mq + q * q) - q * q)) by (apply Rmult_lt_0_compat; lra).
  unfold Rdiv. assert (X := Rmult_lt_0_compat _ _ N D). nra.
Qed.
Lemma sea_h_cont om mq q : mq <> 0 -> continuous (sea_h om mq) q.
Proof.
  intros Hm. apply (ex_derive_continuous (V := R_NormedModule)). unfold sea_h.
  assert (0 < mq * mq) by nra. assert (0 < sqrt (mq * mq + q * q)) by (apply sqrt_lt_R0; nra). pose proof PI2_pos.
  auto_derive. split; [nra|]. split; [|auto]. apply Rgt_not_eq. generalize dependent (PI * PI); intros pp **. pose proof (Rle_0_sqr om); pose proof (Rle_0_sqr q); unfold Rsqr in *; repeat apply Rmult_lt_0_compat; lra.
Qed.
Lemma sea_int om mq k : mq <> 0 -> 0 < k -> exists v, is_RInt (sea_h om mq) 0 k v /\ v < 0.
Proof.
  intros Hm Hk. destruct (ex_RInt_continuous (V := R_CompleteNormedModule) (sea_h om mq) 0 k) as [v Hv].
  { intros; now apply sea_h_cont. }
  exists v. split; auto. assert (E := is_RInt_unique (V := R_CompleteNormedModule) _ _ _ _ Hv). rewrite <- E.
  assert (L : RInt (fun x => opp (sea_h om mq x)) 0 k = - RInt (sea_h om mq) 0 k).
  { exact (RInt_opp (V := R_CompleteNormedModule) (sea_h om mq) 0 k (ex_intro _ v Hv)). }
  enough (0 < RInt (fun x => opp (sea_h om mq x)) 0 k) by (rewrite L in H; lra).
  apply RInt_gt_0; auto.
  - intros x Hx. enough (sea_h om mq x < 0) by (cbn; lra). apply sea_h_neg; lra.
  - intros x Hx. apply (continuous_opp (V := R_NormedModule)). now apply sea_h_cont.
Qed.
Lemma sea_value J g om mq mu v : exact_integrator J -> mq <> 0 -> Rabs mq < Rabs mu -> g_nc g <> 0%nat ->
  is_RInt (sea_h om mq) 0 (fermi_momentum mq mu) v ->
  zp_polarization_quark_l_thermal_part_zero_temp_landau J g om mq mu = RtoC (v / INR (g_nc g)).
Proof.
  intros [_ HJ] Hm Hmu Hn Hv. unfold zp_polarization_quark_l_thermal_part_zero_temp_landau, zp_polarization_quark_l_thermal_part_zero_temp_landau_w_method.
  destruct Rlt_dec; [lra|]. apply HJ.
  apply (is_RInt_fct_extend_pair (U := R_NormedModule) (V := R_NormedModule)); cbn [fst snd].
  - apply (is_RInt_scal _ _ _ (/ INR (g_nc g))) in Hv. eapply is_RInt_ext; [|replace (v / INR (g_nc g)) with (scal (/ INR (g_nc g)) v) by (cbn; unfold mult; cbn; unfold Rdiv; ring); exact Hv].
    intros q Hq. pose proof (kF_pos mq mu). rewrite Rmin_left, Rmax_right in Hq by lra.
    cbn [toC NumR fst RtoC]. unfold get_number_of_colors. rewrite sea_h_eq by auto. cbn; unfold mult; cbn; unfold Rdiv; ring.
  - apply is_RInt_zero.
Qed.

Lemma cfg_depends_on_global_nc J g n om nc m nf mq mu f0 : exact_integrator J ->
  om <> 0 -> mq <> 0 -> Rabs mq < Rabs mu -> nf <> 0%nat -> g_nc g <> 0%nat -> n <> 0%nat -> n <> g_nc g ->
  zp_qcd_gluon_dressing_l_inv_zero_temp_w_field_config J (set_number_of_colors OpsR n g) om mu f0 (FieldConfig_new nc m [(nf, mq)]) <>
  zp_qcd_gluon_dressing_l_inv_zero_temp_w_field_config J g (om : R) mu f0 (FieldConfig_new nc m [(nf, mq)]).
Proof.
  intros HJ Ho Hm Hmu Hnf Hg Hn D E.
  destruct (sea_int om mq (fermi_momentum mq mu) Hm (kF_strict _ _ Hmu)) as [v [Hv Nv]].
  unfold zp_qcd_gluon_dressing_l_inv_zero_temp_w_field_config in E. cbv zeta in E. numcbn_all.
  rewrite !(sum_single_C (fun mq => zp_polarization_quark_l_thermal_part_zero_temp_landau J _ om mq mu)) in E.
  rewrite !(sea_value J _ om mq mu v) in E by auto. cbn [g_nc set_number_of_colors] in E.
  set (V := qcd_gluon_dressing_inv_landau_w_field_config _ _ _) in E. clearbody V.
  apply (f_equal fst) in E. cbn in E. ring_simplify in E.
  assert (INR n <> 0) by (now apply not_0_INR). assert (INR (g_nc g) <> 0) by (now apply not_0_INR). assert (INR nf <> 0) by (now apply not_0_INR).
  assert (P : PREFACTOR <> 0) by (unfold PREFACTOR; pose proof PI_RGT_0; assert (0 < PI * PI) by nra; lra).
  assert (X : / (om * om) * PREFACTOR * INR nf * (v / INR n) = / (om * om) * PREFACTOR * INR nf * (v / INR (g_nc g))) by lra.
  assert (Y : v / INR n = v / INR (g_nc g)).
  { generalize dependent PREFACTOR. intros pf **. apply Rmult_eq_reg_l in X; auto.
    apply Rmult_integral_contrapositive_currified; auto. apply Rmult_integral_contrapositive_currified; auto. apply Rinv_neq_0_compat. nra. }
  apply D, INR_eq. apply Rmult_eq_reg_l with v; [|lra].
  apply (f_equal (fun z => z * INR n * INR (g_nc g))) in Y. field_simplify in Y; auto; lra.
Qed.
