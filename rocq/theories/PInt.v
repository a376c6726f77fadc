(** * Proofs about the integrated thermal parts: substitution, Fermi sea *)
From Coq Require Import Reals List Psatz Lia FunctionalExtensionality.
From Coquelicot Require Import Coquelicot.
From Verif Require Import Num CField MCommon MConsts MVacuum MThermal MThermalZM MThermalZP MPolar MDress MQuark SpecLim SpecInt PCplx PVac PLim PDistr.
Import List ListNotations.
Open Scope R_scope.

(** ** Substitution *)
Lemma compact_int (f : R -> R) Q : 0 < Q -> (forall x, 0 <= x <= Q -> continuous f x) ->
  is_RInt (compact_R f) (/ (1 + Q)) 1 (RInt f 0 Q).
Proof.
  intros HQ Hf.
  assert (D : forall x, / (1 + Q) <= x <= 1 -> 0 < x /\ 0 <= (1 - x) / x <= Q).
  { intros x [H1 H2]. assert (P : 0 < x) by (eapply Rlt_le_trans; [|apply H1]; apply Rinv_0_lt_compat; lra).
    split; auto. split; [apply Rdiv_le_0_compat; lra|].
    apply Rmult_le_reg_r with x; auto. unfold Rdiv. rewrite Rmult_assoc, Rinv_l, Rmult_1_r by lra.
    apply (Rmult_le_compat_r (1 + Q)) in H1; [|lra]. rewrite Rinv_l in H1 by lra. lra. }
  assert (I1 : / (1 + Q) <= 1) by (rewrite <- Rinv_1; apply Rinv_le_contravar; lra).
  assert (S := is_RInt_comp f (fun t => (1 - t) / t) (fun t => - / (t * t)) (/ (1 + Q)) 1).
  rewrite Rmin_left, Rmax_right in S by lra.
  assert (E1 : (1 - / (1 + Q)) / / (1 + Q) = Q) by (field; lra).
  assert (E2 : (1 - 1) / 1 = 0) by field. rewrite E1, E2 in S.
  assert (S' : is_RInt (fun y => scal (- / (y * y)) (f ((1 - y) / y))) (/ (1 + Q)) 1 (RInt f Q 0)).
  { apply S.
    - intros x Hx. apply Hf, D, Hx.
    - intros x Hx. destruct (D x Hx) as [P _]. split.
      + auto_derive; [lra|]. field; lra.
      + apply (ex_derive_continuous (V := R_NormedModule)). auto_derive. nra. }
  apply (is_RInt_scal _ _ _ (-1)) in S'.
  replace (RInt f 0 Q) with (scal (-1) (RInt f Q 0)).
  - apply is_RInt_ext with (2 := S'). intros x Hx. rewrite Rmin_left, Rmax_right in Hx by lra.
    unfold compact_R, scal; simpl; unfold mult; simpl. destruct (D x ltac:(lra)) as [P _]. eqR. field. lra.
  - rewrite <- (opp_RInt_swap f 0 Q). { unfold scal, opp; simpl; unfold mult; simpl. eqR; ring. }
    apply (ex_RInt_continuous f). intros x Hx. rewrite Rmin_left, Rmax_right in Hx by lra. now apply Hf.
Qed.

Lemma compact_int_pair (f : R -> C) Q : 0 < Q -> (forall x, 0 <= x <= Q -> continuous (fun q => fst (f q)) x) ->
  (forall x, 0 <= x <= Q -> continuous (fun q => snd (f q)) x) ->
  is_RInt (V := C_R_NormedModule) (compact_C f) (/ (1 + Q)) 1 (RInt (fun q => fst (f q)) 0 Q, RInt (fun q => snd (f q)) 0 Q).
Proof.
  intros HQ H1 H2.
  assert (I1 : / (1 + Q) <= 1) by (rewrite <- Rinv_1; apply Rinv_le_contravar; lra).
  apply (is_RInt_fct_extend_pair (U := R_NormedModule) (V := R_NormedModule)); cbn [fst snd].
  - eapply is_RInt_ext; [|apply (compact_int (fun q => fst (f q)) Q HQ H1)].
    intros x Hx. rewrite Rmin_left, Rmax_right in Hx by lra.
    assert (P : 0 < x) by (eapply Rlt_trans; [|apply Hx]; apply Rinv_0_lt_compat; lra).
    unfold compact_R, compact_C. cbn. eqR. field. lra.
  - eapply is_RInt_ext; [|apply (compact_int (fun q => snd (f q)) Q HQ H2)].
    intros x Hx. rewrite Rmin_left, Rmax_right in Hx by lra.
    assert (P : 0 < x) by (eapply Rlt_trans; [|apply Hx]; apply Rinv_0_lt_compat; lra).
    unfold compact_R, compact_C. cbn. eqR. field. lra.
Qed.

(** The limits agree as well: the half-line integral converges iff the
    compactified one does, to the same value. *)
Lemma compact_limit (f : R -> R) l : (forall x, 0 <= x -> continuous f x) ->
  tends INF (fun Q => RInt f 0 Q) l <-> tends (at_right 0) (fun e => RInt (compact_R f) e 1) l.
Proof.
  intros Hf.
  assert (E : forall Q, 0 < Q -> RInt (compact_R f) (/ (1 + Q)) 1 = RInt f 0 Q).
  { intros Q HQ. apply is_RInt_unique, compact_int; auto. intros; apply Hf; lra. }
  split; intros H.
  - assert (G : filterlim (fun e => / e - 1) (at_right 0) INF).
    { intros P [M HM]. assert (A := inv_right_0 (fun y => P (y - 1))). apply A.
      exists (M + 1). intros x Hx. apply HM. lra. }
    eapply tends_ext; [|exact (filterlim_comp _ _ _ _ _ _ _ _ G H)].
    apply (ev_right _ 0 1); [lra|]. intros e He. cbv beta.
    assert (0 < / e - 1) by (enough (1 < / e) by lra; rewrite <- Rinv_1 at 1; apply Rinv_lt_contravar; lra).
    rewrite <- E by auto. f_equal. field. lra.
  - assert (G : filterlim (fun Q => / (1 + Q)) INF (at_right 0)).
    { assert (A : filterlim (fun Q => / (1 + Q)) INF (locally 0)).
      { assert (B : tends INF (fun s => / s) 0) by apply tends_inv_infty.
        apply (filterlim_comp _ _ _ (fun Q => 1 + Q) Rinv INF INF (locally 0)); [|exact B].
        intros P [M HM]. exists (M - 1). intros x Hx. apply HM. lra. }
      intros P HP. specialize (A _ HP). unfold filtermap in *. destruct A as [M HM].
      exists (Rmax M 0). intros x Hx. apply HM.
      - eapply Rle_lt_trans; [|apply Hx]. apply Rmax_l.
      - apply Rinv_0_lt_compat. enough (0 < x) by lra. eapply Rle_lt_trans; [|apply Hx]. apply Rmax_r. }
    eapply tends_ext; [|exact (filterlim_comp _ _ _ _ _ _ _ _ G H)].
    apply (ev_infty _ 0). intros Q HQ. now apply E.
Qed.

Lemma half_line_C {T} {NT : Num T} J g (om : T) p m mq beta mu I :
  Forall (fun x : C * (R -> C) * Integral R => let '(v, f, d) := x in v = integrateC J (compact_C f) 0 1 d)
    (half_line_integrals_C J g om p m mq beta mu I).
Proof.
  assert (E : (fun (f : R -> C) t => (f ((1 - t) / t)%R / RtoC (t * t))%C) = compact_C).
  { apply functional_extensionality; intros f; apply functional_extensionality; intros t. unfold compact_C.
    now replace (t ^ 2)%R with (t * t)%R by ring. }
  rewrite <- E. unfold half_line_integrals_C; cbv zeta.
  repeat (apply Forall_cons || apply Forall_nil); reflexivity.
Qed.
Lemma zm_method g : zm_default_method OpsR g = G7K15 (/ 10 ^ 8) (g_max_iter_integral g).
Proof.
  unfold zm_default_method, get_default_integration_method, OpsR; cbn [f_eqb f_lit_1em8].
  rewrite Nat.eqb_refl. destruct (Req_EM_T (g_tol_integral g) (g_tol_integral g)); [reflexivity|contradiction].
Qed.
Lemma half_line_R J g p m mq beta mu I :
  Forall (fun x : R * (R -> R) * Integral R => let '(v, f, d) := x in v = integrateR J (compact_R f) 0 1 d)
    (half_line_integrals_R J g p m mq beta mu I).
Proof.
  assert (E : (fun (f : R -> R) t => f ((1 - t) / t) / (t * t)) = compact_R).
  { apply functional_extensionality; intros f; apply functional_extensionality; intros t. unfold compact_R.
    now replace (t ^ 2) with (t * t) by ring. }
  rewrite <- E. unfold half_line_integrals_R; cbv zeta. rewrite <- zm_method.
  repeat (apply Forall_cons || apply Forall_nil); reflexivity.
Qed.
Lemma fermi_sea_C {T} {NT : Num T} J g (om : T) p mq mu I : Rabs mq <= Rabs mu ->
  Forall (fun x : C * (R -> C) * Integral R => let '(v, f, d) := x in v = integrateC J f 0 (sqrt (mu * mu - mq * mq)) d)
    (fermi_sea_integrals_C J g om p mq mu I).
Proof.
  intros H. unfold fermi_sea_integrals_C; cbv zeta. rewrite <- kF_R.
  unfold polarization_quark_l_thermal_part_zero_temp_landau, polarization_quark_t_thermal_part_zero_temp_landau,
    zp_polarization_quark_l_thermal_part_zero_temp_landau, zp_polarization_quark_t_thermal_part_zero_temp_landau,
    polarization_quark_l_thermal_part_zero_temp_landau_w_method, polarization_quark_t_thermal_part_zero_temp_landau_w_method,
    zp_polarization_quark_l_thermal_part_zero_temp_landau_w_method, zp_polarization_quark_t_thermal_part_zero_temp_landau_w_method.
  destruct (Rlt_dec (Rabs mu) (Rabs mq)); [lra|].
  repeat (apply Forall_cons || apply Forall_nil); reflexivity.
Qed.
Lemma fermi_sea_R J g p mq mu I : Rabs mq <= Rabs mu ->
  Forall (fun x : R * (R -> R) * Integral R => let '(v, f, d) := x in v = integrateR J f 0 (sqrt (mu * mu - mq * mq)) d)
    (fermi_sea_integrals_R J g p mq mu I).
Proof.
  intros H. unfold fermi_sea_integrals_R; cbv zeta. rewrite <- kF_R, <- zm_method.
  unfold zm_polarization_quark_l_thermal_part_zero_temp_landau, zm_polarization_quark_t_thermal_part_zero_temp_landau,
    zm_polarization_quark_l_thermal_part_zero_temp_landau_w_method, zm_polarization_quark_t_thermal_part_zero_temp_landau_w_method.
  destruct (Rlt_dec (Rabs mu) (Rabs mq)); [lra|].
  repeat (apply Forall_cons || apply Forall_nil); reflexivity.
Qed.
Lemma no_sea_C {T} {NT : Num T} J g (om : T) p mq mu I : Rabs mu < Rabs mq ->
  Forall (fun x : C * (R -> C) * Integral R => let '(v, f, d) := x in v = RtoC 0)
    (fermi_sea_integrals_C J g om p mq mu I).
Proof.
  intros H. unfold fermi_sea_integrals_C; cbv zeta.
  unfold polarization_quark_l_thermal_part_zero_temp_landau, polarization_quark_t_thermal_part_zero_temp_landau,
    zp_polarization_quark_l_thermal_part_zero_temp_landau, zp_polarization_quark_t_thermal_part_zero_temp_landau,
    polarization_quark_l_thermal_part_zero_temp_landau_w_method, polarization_quark_t_thermal_part_zero_temp_landau_w_method,
    zp_polarization_quark_l_thermal_part_zero_temp_landau_w_method, zp_polarization_quark_t_thermal_part_zero_temp_landau_w_method.
  destruct (Rlt_dec (Rabs mu) (Rabs mq)); [|lra].
  repeat (apply Forall_cons || apply Forall_nil); reflexivity.
Qed.
Lemma no_sea_R J g p mq mu I : Rabs mu < Rabs mq ->
  Forall (fun x : R * (R -> R) * Integral R => let '(v, f, d) := x in v = 0)
    (fermi_sea_integrals_R J g p mq mu I).
Proof.
  intros H. unfold fermi_sea_integrals_R; cbv zeta.
  unfold zm_polarization_quark_l_thermal_part_zero_temp_landau, zm_polarization_quark_t_thermal_part_zero_temp_landau,
    zm_polarization_quark_l_thermal_part_zero_temp_landau_w_method, zm_polarization_quark_t_thermal_part_zero_temp_landau_w_method.
  destruct (Rlt_dec (Rabs mu) (Rabs mq)); [|lra].
  repeat (apply Forall_cons || apply Forall_nil); reflexivity.
Qed.

(** ** The zero-temperature integrands vanish outside the Fermi sea *)
Definition outside (mq mu q : R) : Prop := Rabs mu < Rabs mq \/ (Rabs mq <= Rabs mu /\ sqrt (mu * mu - mq * mq) < q).
Lemma occ_out mq mu q : outside mq mu q -> fermi_distribution_double_zero_temp (energy (T := R) q mq) mu = 0.
Proof.
  intros [H|[H1 H2]]; apply occ_outside.
  - eapply Rlt_le_trans; [exact H|apply energy_ge_mass].
  - rewrite <- kF_R in H2. now apply energy_gt.
Qed.
Lemma zt_l_out_R nc q (om p mq mu : R) : outside mq mu q -> polarization_quark_l_thermal_part_zero_temp_landau_i nc q om p mq mu = RtoC 0.
Proof. intros H. unfold polarization_quark_l_thermal_part_zero_temp_landau_i. rewrite (occ_out mq mu q H). cbv zeta. numcbn. rewrite Rmult_0_r. ring. Qed.
Lemma zt_l_out_C nc q (om : C) (p mq mu : R) : outside mq mu q -> polarization_quark_l_thermal_part_zero_temp_landau_i nc q om p mq mu = RtoC 0.
Proof. intros H. unfold polarization_quark_l_thermal_part_zero_temp_landau_i. rewrite (occ_out mq mu q H). cbv zeta. numcbn. rewrite Rmult_0_r. ring. Qed.
Lemma zt_t_out_R nc q (om p mq mu : R) : outside mq mu q -> polarization_quark_t_thermal_part_zero_temp_landau_i nc q om p mq mu = RtoC 0.
Proof. intros H. unfold polarization_quark_t_thermal_part_zero_temp_landau_i. rewrite (occ_out mq mu q H). cbv zeta. numcbn. unfold Rdiv. rewrite Ropp_0, !Rmult_0_l. ring. Qed.
Lemma zt_t_out_C nc q (om : C) (p mq mu : R) : outside mq mu q -> polarization_quark_t_thermal_part_zero_temp_landau_i nc q om p mq mu = RtoC 0.
Proof. intros H. unfold polarization_quark_t_thermal_part_zero_temp_landau_i. rewrite (occ_out mq mu q H). cbv zeta. numcbn. unfold Rdiv. rewrite Ropp_0, !Rmult_0_l. ring. Qed.
Lemma zt_zp_out_R nc q (om mq mu : R) : outside mq mu q -> zp_polarization_quark_l_thermal_part_zero_temp_landau_i nc q om mq mu = 0.
Proof. intros H. unfold zp_polarization_quark_l_thermal_part_zero_temp_landau_i. rewrite (occ_out mq mu q H). cbv zeta. numcbn. ring. Qed.
Lemma zt_zp_out_C nc q (om : C) (mq mu : R) : outside mq mu q -> zp_polarization_quark_l_thermal_part_zero_temp_landau_i nc q om mq mu = RtoC 0.
Proof. intros H. unfold zp_polarization_quark_l_thermal_part_zero_temp_landau_i. rewrite (occ_out mq mu q H). cbv zeta. numcbn. ring. Qed.
Lemma zt_zm_l_out nc q (p mq mu : R) : outside mq mu q -> zm_polarization_quark_l_thermal_part_zero_temp_landau_i nc q p mq mu = 0.
Proof. intros H. unfold zm_polarization_quark_l_thermal_part_zero_temp_landau_i. rewrite (occ_out mq mu q H). cbv zeta. numcbn. unfold Rdiv. ring. Qed.
Lemma zt_zm_t_out nc q (p mq mu : R) : outside mq mu q -> zm_polarization_quark_t_thermal_part_zero_temp_landau_i nc q p mq mu = 0.
Proof. intros H. unfold zm_polarization_quark_t_thermal_part_zero_temp_landau_i. rewrite (occ_out mq mu q H). cbv zeta. numcbn. unfold Rdiv. ring. Qed.

Lemma integrands_outside_R J g om p mq mu I q : outside mq mu q ->
  Forall (fun x : C * (R -> C) * Integral R => let '(v, f, d) := x in f q = RtoC 0) (fermi_sea_integrals_C J g (om : R) p mq mu I).
Proof.
  intros H. unfold fermi_sea_integrals_C; cbv zeta. repeat (apply Forall_cons || apply Forall_nil);
  first [now apply zt_l_out_R|now apply zt_t_out_R|cbn [toC NumR]; apply f_equal; apply zt_zp_out_R; auto].
Qed.
Lemma integrands_outside_C J g (om : C) p mq mu I q : outside mq mu q ->
  Forall (fun x : C * (R -> C) * Integral R => let '(v, f, d) := x in f q = RtoC 0) (fermi_sea_integrals_C J g om p mq mu I).
Proof.
  intros H. unfold fermi_sea_integrals_C; cbv zeta. repeat (apply Forall_cons || apply Forall_nil).
  1-2: now apply zt_l_out_C. 1-2: now apply zt_t_out_C. all: exact (zt_zp_out_C (g_nc g) q om mq mu H).
Qed.
Lemma integrands_outside_zm J g p mq mu I q : outside mq mu q ->
  Forall (fun x : R * (R -> R) * Integral R => let '(v, f, d) := x in f q = 0) (fermi_sea_integrals_R J g p mq mu I).
Proof.
  intros H. unfold fermi_sea_integrals_R; cbv zeta. repeat (apply Forall_cons || apply Forall_nil);
  first [rewrite zt_l_out_R by auto; reflexivity|rewrite zt_t_out_R by auto; reflexivity].
Qed.
Lemma integrands_outside_zm_doc nc p mq mu q : outside mq mu q ->
  Forall (fun f : R -> R => f q = 0) (zm_fermi_sea_integrands nc p mq mu).
Proof.
  intros H. repeat (apply Forall_cons || apply Forall_nil); [now apply zt_zm_l_out|now apply zt_zm_t_out].
Qed.

Lemma extend_sea {V : NormedModule R_AbsRing} (f : R -> V) k K v : k <= K -> (forall q, k < q -> f q = zero) ->
  is_RInt f 0 k v -> is_RInt f 0 K v.
Proof.
  intros HK Z H. rewrite <- (plus_zero_r v). apply is_RInt_Chasles with k; auto.
  apply is_RInt_ext with (f := fun _ => zero).
  - intros x Hx. rewrite Rmin_left, Rmax_right in Hx by lra. symmetry. apply Z, Hx.
  - assert (A := is_RInt_const k K (zero : V)). rewrite (@scal_zero_r R_Ring (NormedModule.ModuleSpace R_AbsRing V)) in A. exact A.
Qed.
Lemma empty_sea {V : NormedModule R_AbsRing} (f : R -> V) K : (forall q, f q = zero) -> is_RInt f 0 K zero.
Proof.
  intros Z. apply is_RInt_ext with (f := fun _ => zero).
  - intros x _. now rewrite Z.
  - assert (A := is_RInt_const 0 K (zero : V)). rewrite (@scal_zero_r R_Ring (NormedModule.ModuleSpace R_AbsRing V)) in A. exact A.
Qed.
