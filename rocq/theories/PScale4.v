(** * The uniform limits of the gluon dressing functions and propagators *)
From Coq Require Import Reals Lra Lia List Psatz.
From Coquelicot Require Import Coquelicot.
From Verif Require Import Num CField MCommon MConsts MVacuum MThermal MThermalZM MThermalZP MPolar MDress MQuark SpecInteg SpecInt SpecLim SpecDress SpecHtl SpecHot SpecScale PCplx PDistr PVac PDress PDress2 PInt PCfg PLim PLimC PCold PColdLim PHot PHot2 PHot3 PHotB6 PHotB7 PHotB8 PScale2 PScale3.
Import List ListNotations.
Open Scope R_scope.

Definition lam (nc : nat) (h : R) : R := 16 * (PI * PI) / (3 * INR nc) * h.
Lemma lam_neq nc h : (0 < nc)%nat -> 0 < h -> lam nc h <> 0.
Proof. intros H Hh. apply lt_INR in H. cbn in H. apply Rgt_not_eq. unfold lam. pose proof PI_RGT_0. apply Rmult_lt_0_compat; auto. apply Rdiv_lt_0_compat; nra. Qed.
Section D.
Variables (J : Integrator) (g : globals R) (m f0 : R) (nc : nat) (quarks : list (nat * R)).
Hypothesis HJ : exact_integrator J.
Hypothesis Hnc : (0 < g_nc g)%nat.
Let I0 : Integral R := G7K15 0 0.
Lemma lam_a nf h : - PREFACTOR * (- h + INR nf * qa g h) = lam (g_nc g) h * (INR (g_nc g) + INR nf / 2).
Proof. unfold lam, PREFACTOR, qa. pose proof PI_neq0. assert (INR (g_nc g) <> 0) by (apply not_0_INR; lia). field. auto. Qed.
Lemma lam_c nf h : - PREFACTOR * (0 + INR nf * qc g h) = lam (g_nc g) h * (3 * INR nf / (2 * (PI * PI))).
Proof. unfold lam, PREFACTOR, qc. pose proof PI_neq0. assert (INR (g_nc g) <> 0) by (apply not_0_INR; lia). field. auto. Qed.
Lemma qC_k f a c k k' : k = k' -> quadratic_C f a c k -> quadratic_C f a c k'. Proof. now intros ->. Qed.
Lemma qR_k f a c k k' : k = k' -> quadratic_R f a c k -> quadratic_R f a c k'. Proof. now intros ->. Qed.
Variables (F : (R -> Prop) -> Prop) (T mu : R -> R).
Context {FF : Filter F}.
Hypothesis HT : F (fun x => 0 < T x).
Ltac trip0 := numcbn; reflexivity.
Ltac trip := intros t u; dress_unfold; numcbn; reflexivity.

Lemma scale_gen_ok mq om p : m <> 0 -> om <> 0 -> 0 < p -> Forall (fun x => filterlim (fun y => gluon_scale (g_nc g) (snd (fst x)) (T y) (mu y)) F (Rbar_locally p_infty) -> scaled_C F T mu (g_nc g) (snd (fst x)) (om * om + p * p) (fst (fst x)) (lam (g_nc g) (snd x))) (scale_gen J g om p m mq f0 nc quarks).
Proof.
  intros Hm; intros Ho Hp. assert (K : (om * om + p * p) <> 0) by nra. assert (P9 : 0 < / 9) by lra.
  assert (Q := fun mq' => quark_quad_C J g mq' I0 HJ Hnc om p Ho Hp). assert (G := glue_quad_C J g m I0 HJ Hm om p Ho Hp).
  unfold scale_gen; cbv zeta. repeat (apply Forall_cons || apply Forall_nil); cbn [fst snd]; intros HD.
  - eapply (scaled_C_intro F T mu (g_nc g) (0%nat) Hnc HT HD _ _ _ _ _ (fun T mu => polarization_glue_l_thermal_part_landau J g om p m (/ T))); [exact K|apply lam_neq; [exact Hnc|exact (proj1 (htl_pos om p Ho Hp))]|trip|trip|exact (nth_Forall _ _ 5%nat _ G eq_refl)| |].
    rewrite <- (lam_a 0 (htl_L om p)). cbn [INR snd fst]. ring. rewrite <- (lam_c 0 (htl_L om p)). cbn [INR]. ring.
  - eapply (scaled_C_intro F T mu (g_nc g) (0%nat) Hnc HT HD _ _ _ _ _ (fun T mu => polarization_glue_t_thermal_part_landau J g om p m (/ T))); [exact K|apply lam_neq; [exact Hnc|exact (proj2 (htl_pos om p Ho Hp))]|trip|trip|exact (nth_Forall _ _ 7%nat _ G eq_refl)| |].
    rewrite <- (lam_a 0 (htl_T om p)). cbn [INR snd fst]. ring. rewrite <- (lam_c 0 (htl_T om p)). cbn [INR]. ring.
  - eapply (scaled_C_intro F T mu (g_nc g) (g_nf g) Hnc HT HD _ _ _ _ _ (fun T mu => (polarization_glue_l_thermal_part_landau J g om p m (/ T)%R + RtoC (INR (g_nf g)) * polarization_quark_l_thermal_part_landau J g om p mq (/ T)%R mu)%C)); [exact K|apply lam_neq; [exact Hnc|exact (proj1 (htl_pos om p Ho Hp))]|trip|trip|apply (qC_k _ _ _ (0 + INR (g_nf g))); [ring|]; apply qC_plus; [exact (nth_Forall _ _ 5%nat _ G eq_refl)|apply qC_nat; exact (nth_Forall _ _ 1%nat _ (Q mq) eq_refl)|lra|apply pos_INR]|apply lam_a|apply lam_c].
  - eapply (scaled_C_intro F T mu (g_nc g) (g_nf g) Hnc HT HD _ _ _ _ _ (fun T mu => (polarization_glue_t_thermal_part_landau J g om p m (/ T)%R + RtoC (INR (g_nf g)) * polarization_quark_t_thermal_part_landau J g om p mq (/ T)%R mu)%C)); [exact K|apply lam_neq; [exact Hnc|exact (proj2 (htl_pos om p Ho Hp))]|trip|trip|apply (qC_k _ _ _ (0 + INR (g_nf g))); [ring|]; apply qC_plus; [exact (nth_Forall _ _ 7%nat _ G eq_refl)|apply qC_nat; exact (nth_Forall _ _ 3%nat _ (Q mq) eq_refl)|lra|apply pos_INR]|apply lam_a|apply lam_c].
  - eapply (scaled_C_intro F T mu (g_nc g) (quark_total quarks) Hnc HT HD _ _ _ _ _ (fun T mu => (polarization_glue_l_thermal_part_landau J g om p m (/ T)%R + wsum_C (map (fun q => (INR (fst q), polarization_quark_l_thermal_part_landau J g om p (snd q) (/ T)%R mu)) quarks))%C)); [exact K|apply lam_neq; [exact Hnc|exact (proj1 (htl_pos om p Ho Hp))]|trip|
      intros t u; rewrite <- (sum_quarks_wsum_C (fun mq' => polarization_quark_l_thermal_part_landau J g om p mq' (/ t) u) nc m quarks); trip0|
      apply (qC_k _ _ _ (0 + INR (quark_total quarks))); [ring|]; apply qC_plus; [exact (nth_Forall _ _ 5%nat _ G eq_refl)|apply (qC_wsum quarks (fun T mu mq' => polarization_quark_l_thermal_part_landau J g om p mq' (/ T) mu) (qa g (htl_L om p)) (qc g (htl_L om p))); intros mq'; exact (nth_Forall _ _ 1%nat _ (Q mq') eq_refl)|lra|apply pos_INR]|apply lam_a|apply lam_c].
  - eapply (scaled_C_intro F T mu (g_nc g) (quark_total quarks) Hnc HT HD _ _ _ _ _ (fun T mu => (polarization_glue_t_thermal_part_landau J g om p m (/ T)%R + wsum_C (map (fun q => (INR (fst q), polarization_quark_t_thermal_part_landau J g om p (snd q) (/ T)%R mu)) quarks))%C)); [exact K|apply lam_neq; [exact Hnc|exact (proj2 (htl_pos om p Ho Hp))]|trip|
      intros t u; rewrite <- (sum_quarks_wsum_C (fun mq' => polarization_quark_t_thermal_part_landau J g om p mq' (/ t) u) nc m quarks); trip0|
      apply (qC_k _ _ _ (0 + INR (quark_total quarks))); [ring|]; apply qC_plus; [exact (nth_Forall _ _ 7%nat _ G eq_refl)|apply (qC_wsum quarks (fun T mu mq' => polarization_quark_t_thermal_part_landau J g om p mq' (/ T) mu) (qa g (htl_T om p)) (qc g (htl_T om p))); intros mq'; exact (nth_Forall _ _ 3%nat _ (Q mq') eq_refl)|lra|apply pos_INR]|apply lam_a|apply lam_c].
Qed.
Lemma scale_zp_ok mq om : m <> 0 -> om <> 0 -> Forall (fun x => filterlim (fun y => gluon_scale (g_nc g) (snd (fst x)) (T y) (mu y)) F (Rbar_locally p_infty) -> scaled_C F T mu (g_nc g) (snd (fst x)) (om * om) (fst (fst x)) (lam (g_nc g) (snd x))) (scale_zp J g om m mq f0 nc quarks).
Proof.
  intros Hm; intros Ho; pose proof Rlt_0_1 as Hp. assert (K : (om * om) <> 0) by nra. assert (P9 : 0 < / 9) by lra.
  assert (Q := fun mq' => quark_quad_C J g mq' I0 HJ Hnc om 1 Ho Hp). assert (G := glue_quad_C J g m I0 HJ Hm om 1 Ho Hp).
  unfold scale_zp; cbv zeta. repeat (apply Forall_cons || apply Forall_nil); cbn [fst snd]; intros HD.
  - eapply (scaled_C_intro F T mu (g_nc g) (0%nat) Hnc HT HD _ _ _ _ _ (fun T mu => zp_polarization_glue_l_thermal_part_landau J g om m (/ T))); [exact K|apply lam_neq; [exact Hnc|exact P9]|trip|trip|exact (nth_Forall _ _ 9%nat _ G eq_refl)| |].
    rewrite <- (lam_a 0 (/ 9)). cbn [INR snd fst]. ring. rewrite <- (lam_c 0 (/ 9)). cbn [INR]. ring.
  - eapply (scaled_C_intro F T mu (g_nc g) (0%nat) Hnc HT HD _ _ _ _ _ (fun T mu => zp_polarization_glue_t_thermal_part_landau J g om m (/ T))); [exact K|apply lam_neq; [exact Hnc|exact P9]|trip|trip|exact (nth_Forall _ _ 11%nat _ G eq_refl)| |].
    rewrite <- (lam_a 0 (/ 9)). cbn [INR snd fst]. ring. rewrite <- (lam_c 0 (/ 9)). cbn [INR]. ring.
  - eapply (scaled_C_intro F T mu (g_nc g) (g_nf g) Hnc HT HD _ _ _ _ _ (fun T mu => (zp_polarization_glue_l_thermal_part_landau J g om m (/ T)%R + RtoC (INR (g_nf g)) * zp_polarization_quark_l_thermal_part_landau J g om mq (/ T)%R mu)%C)); [exact K|apply lam_neq; [exact Hnc|exact P9]|trip|trip|apply (qC_k _ _ _ (0 + INR (g_nf g))); [ring|]; apply qC_plus; [exact (nth_Forall _ _ 9%nat _ G eq_refl)|apply qC_nat; exact (nth_Forall _ _ 5%nat _ (Q mq) eq_refl)|lra|apply pos_INR]|apply lam_a|apply lam_c].
  - eapply (scaled_C_intro F T mu (g_nc g) (g_nf g) Hnc HT HD _ _ _ _ _ (fun T mu => (zp_polarization_glue_t_thermal_part_landau J g om m (/ T)%R + RtoC (INR (g_nf g)) * zp_polarization_quark_t_thermal_part_landau J g om mq (/ T)%R mu)%C)); [exact K|apply lam_neq; [exact Hnc|exact P9]|trip|trip|apply (qC_k _ _ _ (0 + INR (g_nf g))); [ring|]; apply qC_plus; [exact (nth_Forall _ _ 11%nat _ G eq_refl)|apply qC_nat; exact (nth_Forall _ _ 7%nat _ (Q mq) eq_refl)|lra|apply pos_INR]|apply lam_a|apply lam_c].
  - eapply (scaled_C_intro F T mu (g_nc g) (quark_total quarks) Hnc HT HD _ _ _ _ _ (fun T mu => (zp_polarization_glue_l_thermal_part_landau J g om m (/ T)%R + wsum_C (map (fun q => (INR (fst q), zp_polarization_quark_l_thermal_part_landau J g om (snd q) (/ T)%R mu)) quarks))%C)); [exact K|apply lam_neq; [exact Hnc|exact P9]|trip|
      intros t u; rewrite <- (sum_quarks_wsum_C (fun mq' => zp_polarization_quark_l_thermal_part_landau J g om mq' (/ t) u) nc m quarks); trip0|
      apply (qC_k _ _ _ (0 + INR (quark_total quarks))); [ring|]; apply qC_plus; [exact (nth_Forall _ _ 9%nat _ G eq_refl)|apply (qC_wsum quarks (fun T mu mq' => zp_polarization_quark_l_thermal_part_landau J g om mq' (/ T) mu) (qa g (/ 9)) (qc g (/ 9))); intros mq'; exact (nth_Forall _ _ 5%nat _ (Q mq') eq_refl)|lra|apply pos_INR]|apply lam_a|apply lam_c].
  - eapply (scaled_C_intro F T mu (g_nc g) (quark_total quarks) Hnc HT HD _ _ _ _ _ (fun T mu => (zp_polarization_glue_t_thermal_part_landau J g om m (/ T)%R + wsum_C (map (fun q => (INR (fst q), zp_polarization_quark_t_thermal_part_landau J g om (snd q) (/ T)%R mu)) quarks))%C)); [exact K|apply lam_neq; [exact Hnc|exact P9]|trip|
      intros t u; rewrite <- (sum_quarks_wsum_C (fun mq' => zp_polarization_quark_t_thermal_part_landau J g om mq' (/ t) u) nc m quarks); trip0|
      apply (qC_k _ _ _ (0 + INR (quark_total quarks))); [ring|]; apply qC_plus; [exact (nth_Forall _ _ 11%nat _ G eq_refl)|apply (qC_wsum quarks (fun T mu mq' => zp_polarization_quark_t_thermal_part_landau J g om mq' (/ T) mu) (qa g (/ 9)) (qc g (/ 9))); intros mq'; exact (nth_Forall _ _ 7%nat _ (Q mq') eq_refl)|lra|apply pos_INR]|apply lam_a|apply lam_c].
Qed.
Lemma scale_zm_ok mq p : m <> 0 -> 0 < p -> g_matsubara_reg g <> 0 -> Forall (fun x => filterlim (fun y => gluon_scale (g_nc g) (snd (fst x)) (T y) (mu y)) F (Rbar_locally p_infty) -> scaled_R F T mu (g_nc g) (snd (fst x)) (p * p) (fst (fst x)) (lam (g_nc g) (snd x))) (scale_zm J g p m mq f0 nc quarks).
Proof.
  intros Hm; intros Hp Ho. assert (K : (p * p) <> 0) by nra. assert (P9 : 0 < / 9) by lra.
  assert (Q := fun mq' => quark_quad_R J g mq' I0 HJ Hnc p Hp Ho). assert (G := glue_quad_R J g m I0 HJ Hm p Hp Ho).
  unfold scale_zm; cbv zeta. repeat (apply Forall_cons || apply Forall_nil); cbn [fst snd]; intros HD.
  - eapply (scaled_R_intro F T mu (g_nc g) (0%nat) Hnc HT HD _ _ _ _ _ (fun T mu => zm_polarization_glue_l_thermal_part_landau J g p m (/ T))); [exact K|apply lam_neq; [exact Hnc|exact (proj1 (htl_pos (g_matsubara_reg g) p Ho Hp))]|trip|trip|exact (nth_Forall _ _ 1%nat _ G eq_refl)| |].
    rewrite <- (lam_a 0 (htl_L (g_matsubara_reg g) p)). cbn [INR snd fst]. ring. rewrite <- (lam_c 0 (htl_L (g_matsubara_reg g) p)). cbn [INR]. ring.
  - eapply (scaled_R_intro F T mu (g_nc g) (0%nat) Hnc HT HD _ _ _ _ _ (fun T mu => zm_polarization_glue_t_thermal_part_landau J g p m (/ T))); [exact K|apply lam_neq; [exact Hnc|exact (proj2 (htl_pos (g_matsubara_reg g) p Ho Hp))]|trip|trip|exact (nth_Forall _ _ 3%nat _ G eq_refl)| |].
    rewrite <- (lam_a 0 (htl_T (g_matsubara_reg g) p)). cbn [INR snd fst]. ring. rewrite <- (lam_c 0 (htl_T (g_matsubara_reg g) p)). cbn [INR]. ring.
  - eapply (scaled_R_intro F T mu (g_nc g) (g_nf g) Hnc HT HD _ _ _ _ _ (fun T mu => (INR (g_nf g) * zm_polarization_quark_l_thermal_part_landau J g p mq (/ T) mu + zm_polarization_glue_l_thermal_part_landau J g p m (/ T)))); [exact K|apply lam_neq; [exact Hnc|exact (proj1 (htl_pos (g_matsubara_reg g) p Ho Hp))]|trip|trip|apply (qR_eq _ (INR (g_nf g) * qa g (htl_L (g_matsubara_reg g) p) + - (htl_L (g_matsubara_reg g) p)) (INR (g_nf g) * qc g (htl_L (g_matsubara_reg g) p) + 0) (INR (g_nf g) + 0) (- (htl_L (g_matsubara_reg g) p) + INR (g_nf g) * qa g (htl_L (g_matsubara_reg g) p)) (0 + INR (g_nf g) * qc g (htl_L (g_matsubara_reg g) p)) (INR (g_nf g))); [ring|ring|ring|]; apply qR_plus; [apply qR_nat; exact (nth_Forall _ _ 1%nat _ (Q mq) eq_refl)|exact (nth_Forall _ _ 1%nat _ G eq_refl)|apply pos_INR|lra]|apply lam_a|apply lam_c].
  - eapply (scaled_R_intro F T mu (g_nc g) (g_nf g) Hnc HT HD _ _ _ _ _ (fun T mu => (INR (g_nf g) * zm_polarization_quark_t_thermal_part_landau J g p mq (/ T) mu + zm_polarization_glue_t_thermal_part_landau J g p m (/ T)))); [exact K|apply lam_neq; [exact Hnc|exact (proj2 (htl_pos (g_matsubara_reg g) p Ho Hp))]|trip|trip|apply (qR_eq _ (INR (g_nf g) * qa g (htl_T (g_matsubara_reg g) p) + - (htl_T (g_matsubara_reg g) p)) (INR (g_nf g) * qc g (htl_T (g_matsubara_reg g) p) + 0) (INR (g_nf g) + 0) (- (htl_T (g_matsubara_reg g) p) + INR (g_nf g) * qa g (htl_T (g_matsubara_reg g) p)) (0 + INR (g_nf g) * qc g (htl_T (g_matsubara_reg g) p)) (INR (g_nf g))); [ring|ring|ring|]; apply qR_plus; [apply qR_nat; exact (nth_Forall _ _ 3%nat _ (Q mq) eq_refl)|exact (nth_Forall _ _ 3%nat _ G eq_refl)|apply pos_INR|lra]|apply lam_a|apply lam_c].
  - eapply (scaled_R_intro F T mu (g_nc g) (quark_total quarks) Hnc HT HD _ _ _ _ _ (fun T mu => (zm_polarization_glue_l_thermal_part_landau J g p m (/ T) + wsum_R (map (fun q => (INR (fst q), zm_polarization_quark_l_thermal_part_landau J g p (snd q) (/ T) mu)) quarks)))); [exact K|apply lam_neq; [exact Hnc|exact (proj1 (htl_pos (g_matsubara_reg g) p Ho Hp))]|trip|
      intros t u; rewrite <- (sum_quarks_wsum_R (fun mq' => zm_polarization_quark_l_thermal_part_landau J g p mq' (/ t) u) nc m quarks); trip0|
      apply (qR_k _ _ _ (0 + INR (quark_total quarks))); [ring|]; apply qR_plus; [exact (nth_Forall _ _ 1%nat _ G eq_refl)|apply (qR_wsum quarks (fun T mu mq' => zm_polarization_quark_l_thermal_part_landau J g p mq' (/ T) mu) (qa g (htl_L (g_matsubara_reg g) p)) (qc g (htl_L (g_matsubara_reg g) p))); intros mq'; exact (nth_Forall _ _ 1%nat _ (Q mq') eq_refl)|lra|apply pos_INR]|apply lam_a|apply lam_c].
  - eapply (scaled_R_intro F T mu (g_nc g) (quark_total quarks) Hnc HT HD _ _ _ _ _ (fun T mu => (zm_polarization_glue_t_thermal_part_landau J g p m (/ T) + wsum_R (map (fun q => (INR (fst q), zm_polarization_quark_t_thermal_part_landau J g p (snd q) (/ T) mu)) quarks)))); [exact K|apply lam_neq; [exact Hnc|exact (proj2 (htl_pos (g_matsubara_reg g) p Ho Hp))]|trip|
      intros t u; rewrite <- (sum_quarks_wsum_R (fun mq' => zm_polarization_quark_t_thermal_part_landau J g p mq' (/ t) u) nc m quarks); trip0|
      apply (qR_k _ _ _ (0 + INR (quark_total quarks))); [ring|]; apply qR_plus; [exact (nth_Forall _ _ 3%nat _ G eq_refl)|apply (qR_wsum quarks (fun T mu mq' => zm_polarization_quark_t_thermal_part_landau J g p mq' (/ T) mu) (qa g (htl_T (g_matsubara_reg g) p)) (qc g (htl_T (g_matsubara_reg g) p))); intros mq'; exact (nth_Forall _ _ 3%nat _ (Q mq') eq_refl)|lra|apply pos_INR]|apply lam_a|apply lam_c].
Qed.
End D.
