(** * Convergence of the thermal integrals and their zero-temperature limit *)
From Coq Require Import Reals Lra Lia List Psatz.
From Coquelicot Require Import Coquelicot.
From Verif Require Import Num CField MCommon MConsts MVacuum MThermal MThermalZM MThermalZP MPolar MDress MQuark SpecInteg SpecInt SpecLim SpecDress SpecCold PCplx PDistr PVac PDress PDress2 PCoh PCoh2 PLogs PMass PMassZ PMass2 PReal PForms PForms2 PCombo PComboR PReg PLim PLimC PJoint PJoint2 PInt PCfg PCold PBound PColdG PColdI PFermi PZpForm PColdQ.
Import List ListNotations.
Open Scope R_scope.
Local Notation PI2 := MThermal.PI2.

Definition good (f : R -> C) : Prop := exists v : C, is_RInt (V := C_R_NormedModule) (compact_C f) 0 1 v.
Definition goodR (f : R -> R) : Prop := ex_RInt (compact_R f) 0 1.

Lemma fst_int (f : R -> C) v : is_RInt (V := C_R_NormedModule) (compact_C f) 0 1 v -> is_RInt (compact_R (fun q => fst (f q))) 0 1 (fst v).
Proof.
  intros H. destruct v as [u v]. pose proof (is_RInt_fct_extend_fst (U := R_NormedModule) (V := R_NormedModule) _ _ _ _ H) as A.
  eapply (is_RInt_ext (V := R_NormedModule)); [|exact A]. rewrite Rmin_left, Rmax_right by lra. intros t Ht. apply compact_fst. lra.
Qed.
Lemma good_fst f : good f -> goodR (fun q => fst (f q)).
Proof. intros [v H]. exists (fst v). now apply fst_int. Qed.

Section Glue.
Variables (om p m : R).
Hypothesis Hom : om <> 0.
Hypothesis Hm : m <> 0.
Lemma glue_ints b0 k : 0 < p -> 0 < b0 -> exists K, forall b, b0 <= b -> exists v : C,
  is_RInt (V := C_R_NormedModule) (compact_C (fun q => nth k (glue_parts q om p m b) (RtoC 0))) 0 1 v /\ Rabs (fst v) <= K / b /\ Rabs (snd v) <= K / b.
Proof.
  intros Hp Hb0. apply (Rd_integrals b0 (fun b q => nth k (glue_parts q om p m b) (RtoC 0)) Hb0); [now apply glue_Rd|].
  intros b q Hb Hq. apply (glue_joint (fun x => x) (fun _ => om) (fun _ => p) q om p b); auto; try lra; first [apply tends_const|intros P HP; exact HP].
Qed.
Lemma zp_glue_ints b0 k : 0 < b0 -> exists K, forall b, b0 <= b -> exists v : C,
  is_RInt (V := C_R_NormedModule) (compact_C (fun q => nth k (zp_glue_parts q om m b) (RtoC 0))) 0 1 v /\ Rabs (fst v) <= K / b /\ Rabs (snd v) <= K / b.
Proof.
  intros Hb0. apply (Rd_integrals b0 (fun b q => nth k (zp_glue_parts q om m b) (RtoC 0)) Hb0); [now apply zp_glue_Rd|].
  intros b q Hb Hq. apply zp_glue_cont; auto; lra.
Qed.
Lemma glue_good b k : 0 < p -> 0 < b -> good (fun q => nth k (glue_parts q om p m b) (RtoC 0)).
Proof. intros Hp Hb. destruct (glue_ints b k Hp Hb) as (K & H). destruct (H b (Rle_refl b)) as (v & Hv & _). now exists v. Qed.
Lemma zp_glue_good b k : 0 < b -> good (fun q => nth k (zp_glue_parts q om m b) (RtoC 0)).
Proof. intros Hb. destruct (zp_glue_ints b k Hb) as (K & H). destruct (H b (Rle_refl b)) as (v & Hv & _). now exists v. Qed.
End Glue.

Section Quark.
Variables (nc : nat) (om mq : R).
Hypothesis Hnc : (0 < nc)%nat.
Hypothesis Hom : om <> 0.
Section P.
Variable p : R.
Hypothesis Hp : 0 < p.
Lemma ql_eq b mu q : 0 < q -> polarization_quark_l_thermal_part_landau_i nc q om p mq b mu = RtoC (dT mq mu (wl nc om p mq) b q).
Proof. intros Hq. rewrite quark_l_form by auto. unfold dT. now rewrite FQl_lin. Qed.
Lemma qt_eq b mu q : 0 < q -> polarization_quark_t_thermal_part_landau_i nc q om p mq b mu = RtoC (dT mq mu (wt nc om p mq) b q).
Proof. intros Hq. rewrite quark_t_form by auto. unfold dT. now rewrite FQt_lin. Qed.
Lemma ql0_eq mu q : 0 < q -> polarization_quark_l_thermal_part_zero_temp_landau_i nc q om p mq mu = RtoC (dZ mq mu (wl nc om p mq) q).
Proof. intros Hq. rewrite quark0_l_form by auto. unfold dZ. now rewrite FQl_lin. Qed.
Lemma qt0_eq mu q : 0 < q -> polarization_quark_t_thermal_part_zero_temp_landau_i nc q om p mq mu = RtoC (dZ mq mu (wt nc om p mq) q).
Proof. intros Hq. rewrite quark0_t_form by auto. unfold dZ. now rewrite FQt_lin. Qed.
End P.
Lemma zpq_eq f q : 0 < q -> / ((om * om + 4 * (energy q mq * energy q mq)) * energy q mq * 3 * PI2 * INR nc) * 2 * f * (q * q) * (3 * - (energy q mq * energy q mq) + q * q) = wp nc om mq q * f.
Proof.
  intros Hq. unfold wp, Rdiv. ring.
Qed.
Lemma zpl_eq b mu q : 0 < q -> zp_polarization_quark_l_thermal_part_landau_i nc q om mq b mu = dT mq mu (wp nc om mq) b q.
Proof. intros Hq. unfold dT. rewrite <- zpq_eq by auto. unfold zp_polarization_quark_l_thermal_part_landau_i. numcbn. ring. Qed.
Lemma zpl0_eq mu q : 0 < q -> zp_polarization_quark_l_thermal_part_zero_temp_landau_i nc q om mq mu = dZ mq mu (wp nc om mq) q.
Proof. intros Hq. unfold dZ. rewrite <- zpq_eq by auto. unfold zp_polarization_quark_l_thermal_part_zero_temp_landau_i. numcbn. ring. Qed.
End Quark.
Lemma cd_eq nc m b mu q : charge_density_i nc q m b mu = cT m mu (wc nc) b q.
Proof. unfold charge_density_i, cT, wc, Rdiv. ring. Qed.

Lemma dT_good m mu w b f : Ob 1 w -> (forall q, 0 < q -> continuous w q) -> 0 < b -> (forall q, 0 < q -> f q = RtoC (dT m mu w b q)) -> good f.
Proof. intros Ow Cw Hb E. eexists. eapply compact_RtoC; [exact E|]. now apply dT_is. Qed.

Section Conv.
Variables (J : Integrator) (g : globals R) (p m mq beta mu : R) (I : Integral R).
Hypothesis Hnc : (0 < g_nc g)%nat.
Hypothesis Hp : 0 < p.
Hypothesis Hm : m <> 0.
Hypothesis Hb : 0 < beta.
Lemma conv_C (om : R) : om <> 0 -> Forall (fun x : C * (R -> C) * Integral R => let '(_, f, _) := x in good f) (half_line_integrals_C J g om p m mq beta mu I).
Proof.
  intros Hom.
  assert (G : forall k, good (fun q => nth k (glue_parts q om p m beta) (RtoC 0))) by (intros; now apply glue_good).
  assert (Z : forall k, good (fun q => nth k (zp_glue_parts q om m beta) (RtoC 0))) by (intros; now apply zp_glue_good).
  assert (QL : good (fun q => polarization_quark_l_thermal_part_landau_i (g_nc g) q om p mq beta mu)).
  { eapply (dT_good mq mu (wl (g_nc g) om p mq) beta); [now apply wl_Ob|intros; now apply wl_cont|auto|]. intros. now apply ql_eq. }
  assert (QT : good (fun q => polarization_quark_t_thermal_part_landau_i (g_nc g) q om p mq beta mu)).
  { eapply (dT_good mq mu (wt (g_nc g) om p mq) beta); [now apply wt_Ob|intros; now apply wt_cont|auto|]. intros. now apply qt_eq. }
  assert (QP : good (fun q => toC (zp_polarization_quark_l_thermal_part_landau_i (g_nc g) q om mq beta mu))).
  { eapply (dT_good mq mu (wp (g_nc g) om mq) beta); [now apply wp_Ob|intros; now apply wp_cont|auto|]. intros. rewrite zpl_eq by auto. reflexivity. }
  unfold half_line_integrals_C; cbv zeta.
  repeat (apply Forall_cons || apply Forall_nil); first [exact (G 0%nat)|exact (Z 0%nat)|exact (G 1%nat)|exact (G 2%nat)|exact (Z 1%nat)|exact (Z 2%nat)|exact QL|exact QT|exact QP].
Qed.
Lemma conv_R : g_matsubara_reg g <> 0 -> Forall (fun x : R * (R -> R) * Integral R => let '(_, f, _) := x in goodR f) (skipn 2 (half_line_integrals_R J g p m mq beta mu I)).
Proof.
  intros Hr. pose proof (conv_C (g_matsubara_reg g) Hr) as H. unfold half_line_integrals_C in H; cbv zeta in H.
  rewrite !Forall_cons_iff in H. decompose [and] H. clear H.
  assert (Q : goodR (fun q => charge_density_i (g_nc g) q m beta mu)).
  { eexists. eapply (compact_ext _ (cT m mu (wc (g_nc g)) beta)); [intros; apply cd_eq|]. apply cT_is; auto using wc_Ob. intros; now apply wc_cont. }
  unfold half_line_integrals_R; cbv zeta; cbn [skipn].
  repeat (apply Forall_cons || apply Forall_nil); first [exact Q|apply good_fst; assumption].
Qed.
Lemma conv_sea_C (om : R) : om <> 0 -> Rabs mq <= Rabs mu -> Forall (fun x : C * (R -> C) * Integral R => let '(_, f, _) := x in
  exists v : C, is_RInt (V := C_R_NormedModule) f 0 (sqrt (mu * mu - mq * mq)) v) (fermi_sea_integrals_C J g om p mq mu I).
Proof.
  intros Hom H. pose proof (sqrt_pos (mu * mu - mq * mq)) as S0.
  assert (QL : exists v : C, is_RInt (V := C_R_NormedModule) (fun q => polarization_quark_l_thermal_part_zero_temp_landau_i (g_nc g) q om p mq mu) 0 (sqrt (mu * mu - mq * mq)) v).
  { eexists. eapply sea_RtoC; [auto|intros; now apply ql0_eq|]. apply dZ_is; auto; [now apply wl_Ob|intros; now apply wl_cont]. }
  assert (QT : exists v : C, is_RInt (V := C_R_NormedModule) (fun q => polarization_quark_t_thermal_part_zero_temp_landau_i (g_nc g) q om p mq mu) 0 (sqrt (mu * mu - mq * mq)) v).
  { eexists. eapply sea_RtoC; [auto|intros; now apply qt0_eq|]. apply dZ_is; auto; [now apply wt_Ob|intros; now apply wt_cont]. }
  assert (QP : exists v : C, is_RInt (V := C_R_NormedModule) (fun q => toC (zp_polarization_quark_l_thermal_part_zero_temp_landau_i (g_nc g) q om mq mu)) 0 (sqrt (mu * mu - mq * mq)) v).
  { eexists. eapply sea_RtoC; [auto|intros; rewrite zpl0_eq by auto; reflexivity|]. apply dZ_is; auto; [now apply wp_Ob|intros; now apply wp_cont]. }
  unfold fermi_sea_integrals_C; cbv zeta. repeat (apply Forall_cons || apply Forall_nil); first [exact QL|exact QT|exact QP].
Qed.
Lemma conv_sea_R : g_matsubara_reg g <> 0 -> Rabs mq <= Rabs mu -> Forall (fun x : R * (R -> R) * Integral R => let '(_, f, _) := x in
  ex_RInt f 0 (sqrt (mu * mu - mq * mq))) (fermi_sea_integrals_R J g p mq mu I).
Proof.
  intros Hr H. pose proof (conv_sea_C (g_matsubara_reg g) Hr H) as A. unfold fermi_sea_integrals_C in A; cbv zeta in A.
  assert (F : forall f : R -> C, (exists v : C, is_RInt (V := C_R_NormedModule) f 0 (sqrt (mu * mu - mq * mq)) v) -> ex_RInt (fun q => fst (f q)) 0 (sqrt (mu * mu - mq * mq))).
  { intros f [[u v] Hv]. exists u. exact (is_RInt_fct_extend_fst (U := R_NormedModule) (V := R_NormedModule) _ _ _ _ Hv). }
  rewrite !Forall_cons_iff in A. decompose [and] A. clear A.
  unfold fermi_sea_integrals_R; cbv zeta. repeat (apply Forall_cons || apply Forall_nil); apply F; assumption.
Qed.

(** An exact integration routine returns these integrals. *)
Hypothesis HJ : exact_integrator J.
Lemma values_C (om : R) : om <> 0 -> Forall (fun x : C * (R -> C) * Integral R => let '(v, f, _) := x in is_RInt (V := C_R_NormedModule) (compact_C f) 0 1 v) (half_line_integrals_C J g om p m mq beta mu I).
Proof.
  intros Hom. pose proof (conv_C om Hom) as A. pose proof (half_line_C J g om p m mq beta mu I) as B. rewrite Forall_forall in *.
  intros [[v f] d] Hx. specialize (A _ Hx). specialize (B _ Hx). cbv beta iota in *. destruct A as [u Hu]. subst v. now rewrite (proj2 HJ _ _ _ _ _ Hu).
Qed.
Lemma values_R : g_matsubara_reg g <> 0 -> Forall (fun x : R * (R -> R) * Integral R => let '(v, f, _) := x in is_RInt (compact_R f) 0 1 v) (skipn 2 (half_line_integrals_R J g p m mq beta mu I)).
Proof.
  intros Hr. pose proof (conv_R Hr) as A. pose proof (half_line_R J g p m mq beta mu I) as B.
  assert (B' := Forall_forall (fun x : R * (R -> R) * Integral R => let '(v, f, d) := x in v = integrateR J (compact_R f) 0 1 d) (half_line_integrals_R J g p m mq beta mu I)).
  rewrite Forall_forall in A |- *. intros [[v f] d] Hx. specialize (A _ Hx).
  assert (Hin : In (v, f, d) (half_line_integrals_R J g p m mq beta mu I)).
  { rewrite <- (firstn_skipn 2 (half_line_integrals_R J g p m mq beta mu I)). apply in_or_app. now right. }
  pose proof (proj1 B' B _ Hin) as E. cbv beta iota in *. destruct A as [u Hu]. subst v. now rewrite (proj1 HJ _ _ _ _ _ Hu).
Qed.
End Conv.

(** ** Zero-temperature limit *)
Section Lim.
Variables (J : Integrator).
Hypothesis HJ : exact_integrator J.
Lemma inv_K K : tends CINF (fun b => K / b) 0.
Proof.
  apply (tends_eq _ (K * 0)); [ring|]. unfold Rdiv. apply tends_mult; [apply tends_const|].
  intros P HP. destruct HP as [eps He]. exists (/ eps). intros b Hb. apply He. pose proof (cond_pos eps) as E0. pose proof (Rinv_0_lt_compat _ E0).
  unfold ball; simpl; unfold AbsRing_ball, abs, minus, plus, opp; simpl. rewrite Ropp_0, Rplus_0_r. rewrite Rabs_right by (left; apply Rinv_0_lt_compat; lra).
  rewrite <- (Rinv_inv eps). apply Rinv_lt_contravar; [apply Rmult_lt_0_compat; lra|auto].
Qed.
Lemma ev1 : CINF (fun b => 1 <= b). Proof. exists 1. intros; lra. Qed.
Lemma glue_lim (f : R -> R -> C) d : (exists K, forall b, 1 <= b -> exists v : C, is_RInt (V := C_R_NormedModule) (compact_C (f b)) 0 1 v /\ Rabs (fst v) <= K / b /\ Rabs (snd v) <= K / b) ->
  tendsC CINF (fun b => integrateC J (compact_C (f b)) 0 1 d) (RtoC 0) /\ tends CINF (fun b => integrateR J (compact_R (fun q => fst (f b q))) 0 1 d) 0.
Proof.
  intros [K H].
  assert (A : CINF (fun b => Rabs (fst (integrateC J (compact_C (f b)) 0 1 d)) <= K / b /\ Rabs (snd (integrateC J (compact_C (f b)) 0 1 d)) <= K / b /\ Rabs (integrateR J (compact_R (fun q => fst (f b q))) 0 1 d) <= K / b)).
  { generalize ev1. apply filter_imp. intros b Hb. destruct (H b Hb) as (v & Hv & V1 & V2). rewrite (proj2 HJ _ _ _ _ _ Hv), (proj1 HJ _ _ _ _ _ (fst_int _ _ Hv)). auto. }
  split; [split|].
  - eapply (tends_squeeze0 _ (fun b => K / b)); [|apply (inv_K K)]. revert A. apply filter_imp. tauto.
  - eapply (tends_squeeze0 _ (fun b => K / b)); [|apply (inv_K K)]. revert A. apply filter_imp. tauto.
  - eapply (tends_squeeze0 _ (fun b => K / b)); [|apply (inv_K K)]. revert A. apply filter_imp. tauto.
Qed.
Lemma quark_lim m mu w (f : R -> R -> C) d : Ob 1 w -> (forall q, 0 < q -> continuous w q) -> (forall b q, 0 < q -> f b q = RtoC (dT m mu w b q)) ->
  tendsC CINF (fun b => integrateC J (compact_C (f b)) 0 1 d) (RtoC (sea2 m mu w)) /\ tends CINF (fun b => integrateR J (compact_R (fun q => fst (f b q))) 0 1 d) (sea2 m mu w).
Proof.
  intros Ow Cw E.
  assert (V : forall b, 0 < b -> is_RInt (V := C_R_NormedModule) (compact_C (f b)) 0 1 (RtoC (RInt (compact_R (dT m mu w b)) 0 1))).
  { intros b Hb. apply (compact_RtoC _ (dT m mu w b)); [intros; now apply E|]. pose proof (dT_is m mu w Ow Cw b Hb) as D. now rewrite (is_RInt_unique _ _ _ _ D). }
  assert (P0 : CINF (fun b => 0 < b)) by (exists 0; auto).
  split.
  - apply (tendsC_ext (fun b => RtoC (RInt (compact_R (dT m mu w b)) 0 1))).
    + revert P0. apply filter_imp. intros b Hb. now rewrite (proj2 HJ _ _ _ _ _ (V b Hb)).
    + apply tendsC_RtoC. now apply d_cold.
  - apply (tends_ext (fun b => RInt (compact_R (dT m mu w b)) 0 1)).
    + revert P0. apply filter_imp. intros b Hb. now rewrite (proj1 HJ _ _ _ _ _ (fst_int _ _ (V b Hb))).
    + now apply d_cold.
Qed.
End Lim.
