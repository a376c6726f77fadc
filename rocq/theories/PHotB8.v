(** * The lists of SpecHot: gluon dressing functions and propagators *)
From Coq Require Import Reals Lra Lia List Psatz.
From Coquelicot Require Import Coquelicot.
From Verif Require Import Num CField MCommon MConsts MVacuum MThermal MThermalZM MThermalZP MPolar MDress MQuark SpecInteg SpecInt SpecLim SpecDress SpecHtl SpecHot PCplx PDistr PVac PDress PDress2 PInt PCfg PLim PLimC PCold PColdLim PHot PHot2 PHot3 PHotB6 PHotB7.
Import List ListNotations.
Open Scope R_scope.

Lemma PREF_pos : 0 < PREFACTOR. Proof. unfold PREFACTOR. pose proof PI_RGT_0. nra. Qed.
Lemma hot_mass_pos nc nf nu : (0 < nc)%nat -> 0 < hot_mass nc nf nu.
Proof.
  intros H. apply lt_INR in H. cbn in H. unfold hot_mass. pose proof PI_RGT_0. assert (0 < PI * PI) by nra. apply Rmult_lt_0_compat; [nra|].
  assert (0 <= INR nf * ((1 + 3 * (nu * nu) / (PI * PI)) / (2 * INR nc))); [|lra]. apply Rmult_le_pos; [apply pos_INR|].
  assert (0 <= 3 * (nu * nu) / (PI * PI)) by (apply Rmult_le_pos; [nra|apply Rlt_le, Rinv_0_lt_compat; auto]).
  apply Rmult_le_pos; [lra|]. apply Rlt_le, Rinv_0_lt_compat. lra.
Qed.
Lemma dense_mass_pos nc nf : (0 < nc)%nat -> (0 < nf)%nat -> 0 < dense_mass nc nf.
Proof.
  intros H H'. apply lt_INR in H, H'. cbn in H, H'. unfold dense_mass. pose proof PI_RGT_0. assert (0 < PI * PI) by nra. apply Rmult_lt_0_compat; [nra|].
  apply Rmult_lt_0_compat; [lra|]. unfold Rdiv. repeat apply Rmult_lt_0_compat; try apply Rinv_0_lt_compat; nra.
Qed.
Lemma hot_mass_val nc nf nu h : (0 < nc)%nat -> - PREFACTOR * (- h + INR nf * - ((1 + 3 * (nu * nu) / (PI * PI)) / (2 * INR nc) * h)) = hot_mass nc nf nu * h.
Proof. intros H. unfold hot_mass, PREFACTOR. pose proof PI_neq0. assert (INR nc <> 0) by (apply not_0_INR; lia). field. auto. Qed.
Lemma dense_mass_val nc nf h : (0 < nc)%nat -> - PREFACTOR * (INR nf * - (3 / (PI * PI) / (2 * INR nc) * h)) = dense_mass nc nf * h.
Proof. intros H. unfold dense_mass, PREFACTOR. pose proof PI_neq0. assert (INR nc <> 0) by (apply not_0_INR; lia). field. auto. Qed.

Section D.
Variables (J : Integrator) (g : globals R) (m f0 : R) (nc : nat) (quarks : list (nat * R)).
Hypothesis HJ : exact_integrator J.
Hypothesis Hnc : (0 < g_nc g)%nat.
Let I0 : Integral R := G7K15 0 0.
Ltac trip0 := numcbn; reflexivity.
Ltac trip := intros t; dress_unfold; numcbn; reflexivity.

Lemma hot_gen_ok mq mu nu om p : m <> 0 -> tends INF (fun T => mu T / T) nu -> om <> 0 -> 0 < p -> Forall (fun x => screened_C (om * om + p * p) (fst x) (snd x)) (hot_gen J g om p m mq f0 mu nu nc quarks).
Proof.
  intros Hm Hmu; intros Ho Hp. assert (K : (om * om + p * p) <> 0) by nra. assert (P9 : 0 < / 9) by lra.
  assert (Q := fun mq' => hot_C_ok J g mq' mu nu I0 HJ Hnc Hmu om p Ho Hp). assert (G := hot_glue_C_ok J g m I0 HJ Hm om p Ho Hp).
  unfold hot_gen; cbv zeta. repeat (apply Forall_cons || apply Forall_nil); cbn [fst snd].
  - eapply (screened_C_intro _ _ _ _ _ (fun T => polarization_glue_l_thermal_part_landau J g om p m (/ T))); [exact K|apply Rgt_not_eq, Rmult_lt_0_compat; [now apply hot_mass_pos|exact (proj1 (htl_pos om p Ho Hp))]|trip|trip|exact (nth_Forall _ _ 5%nat _ G eq_refl)|].
    rewrite <- (hot_mass_val _ _ nu (htl_L om p) Hnc). cbn [INR snd fst]. ring.
  - eapply (screened_C_intro _ _ _ _ _ (fun T => polarization_glue_t_thermal_part_landau J g om p m (/ T))); [exact K|apply Rgt_not_eq, Rmult_lt_0_compat; [now apply hot_mass_pos|exact (proj2 (htl_pos om p Ho Hp))]|trip|trip|exact (nth_Forall _ _ 7%nat _ G eq_refl)|].
    rewrite <- (hot_mass_val _ _ nu (htl_T om p) Hnc). cbn [INR snd fst]. ring.
  - eapply (screened_C_intro _ _ _ _ _ (fun T => (polarization_glue_l_thermal_part_landau J g om p m (/ T)%R + RtoC (INR (g_nf g)) * polarization_quark_l_thermal_part_landau J g om p mq (/ T)%R (mu T))%C)); [exact K|apply Rgt_not_eq, Rmult_lt_0_compat; [now apply hot_mass_pos|exact (proj1 (htl_pos om p Ho Hp))]|trip|trip|apply inC_plus; [exact (nth_Forall _ _ 5%nat _ G eq_refl)|apply inC_scal; exact (nth_Forall _ _ 1%nat _ (Q mq) eq_refl)]|].
    apply hot_mass_val; exact Hnc.
  - eapply (screened_C_intro _ _ _ _ _ (fun T => (polarization_glue_t_thermal_part_landau J g om p m (/ T)%R + RtoC (INR (g_nf g)) * polarization_quark_t_thermal_part_landau J g om p mq (/ T)%R (mu T))%C)); [exact K|apply Rgt_not_eq, Rmult_lt_0_compat; [now apply hot_mass_pos|exact (proj2 (htl_pos om p Ho Hp))]|trip|trip|apply inC_plus; [exact (nth_Forall _ _ 7%nat _ G eq_refl)|apply inC_scal; exact (nth_Forall _ _ 3%nat _ (Q mq) eq_refl)]|].
    apply hot_mass_val; exact Hnc.
  - eapply (screened_C_intro _ _ _ _ _ (fun T => (polarization_glue_l_thermal_part_landau J g om p m (/ T)%R + wsum_C (map (fun q => (INR (fst q), polarization_quark_l_thermal_part_landau J g om p (snd q) (/ T)%R (mu T))) quarks))%C)); [exact K|apply Rgt_not_eq, Rmult_lt_0_compat; [now apply hot_mass_pos|exact (proj1 (htl_pos om p Ho Hp))]|trip|
      intros t; rewrite <- (sum_quarks_wsum_C (fun mq' => polarization_quark_l_thermal_part_landau J g om p mq' (/ t) (mu t)) nc m quarks); trip0|
      apply inC_plus; [exact (nth_Forall _ _ 5%nat _ G eq_refl)|apply (wsum_inC quarks (fun T mq' => polarization_quark_l_thermal_part_landau J g om p mq' (/ T) (mu T))); intros mq'; exact (nth_Forall _ _ 1%nat _ (Q mq') eq_refl)]|].
    apply hot_mass_val; exact Hnc.
  - eapply (screened_C_intro _ _ _ _ _ (fun T => (polarization_glue_t_thermal_part_landau J g om p m (/ T)%R + wsum_C (map (fun q => (INR (fst q), polarization_quark_t_thermal_part_landau J g om p (snd q) (/ T)%R (mu T))) quarks))%C)); [exact K|apply Rgt_not_eq, Rmult_lt_0_compat; [now apply hot_mass_pos|exact (proj2 (htl_pos om p Ho Hp))]|trip|
      intros t; rewrite <- (sum_quarks_wsum_C (fun mq' => polarization_quark_t_thermal_part_landau J g om p mq' (/ t) (mu t)) nc m quarks); trip0|
      apply inC_plus; [exact (nth_Forall _ _ 7%nat _ G eq_refl)|apply (wsum_inC quarks (fun T mq' => polarization_quark_t_thermal_part_landau J g om p mq' (/ T) (mu T))); intros mq'; exact (nth_Forall _ _ 3%nat _ (Q mq') eq_refl)]|].
    apply hot_mass_val; exact Hnc.
Qed.
Lemma dense_gen_ok mq om p : (0 < g_nf g)%nat -> om <> 0 -> 0 < p -> Forall (fun x => screened_C (om * om + p * p) (fst x) (snd x)) (dense_gen J g om p m mq f0).
Proof.
  intros Hf; intros Ho Hp. assert (K : (om * om + p * p) <> 0) by nra. assert (P9 : 0 < / 9) by lra.
  assert (Q := fun mq' => dense_C_ok J g mq' I0 HJ Hnc om p Ho Hp).
  unfold dense_gen; cbv zeta. repeat (apply Forall_cons || apply Forall_nil); cbn [fst snd].
  - eapply (screened_C_intro _ _ _ _ _ (fun mu => (RtoC (INR (g_nf g)) * polarization_quark_l_thermal_part_zero_temp_landau J g om p mq mu)%C)); [exact K|apply Rgt_not_eq, Rmult_lt_0_compat; [now apply dense_mass_pos|exact (proj1 (htl_pos om p Ho Hp))]|trip|trip|apply inC_scal; exact (nth_Forall _ _ 1%nat _ (Q mq) eq_refl)|].
    apply dense_mass_val; exact Hnc.
  - eapply (screened_C_intro _ _ _ _ _ (fun mu => (RtoC (INR (g_nf g)) * polarization_quark_t_thermal_part_zero_temp_landau J g om p mq mu)%C)); [exact K|apply Rgt_not_eq, Rmult_lt_0_compat; [now apply dense_mass_pos|exact (proj2 (htl_pos om p Ho Hp))]|trip|trip|apply inC_scal; exact (nth_Forall _ _ 3%nat _ (Q mq) eq_refl)|].
    apply dense_mass_val; exact Hnc.
Qed.
Lemma dense_cfg_gen_ok om p : (0 < quark_total quarks)%nat -> om <> 0 -> 0 < p -> Forall (fun x => screened_C (om * om + p * p) (fst x) (snd x)) (dense_cfg_gen J g om p m f0 nc quarks).
Proof.
  intros Hf; intros Ho Hp. assert (K : (om * om + p * p) <> 0) by nra. assert (P9 : 0 < / 9) by lra.
  assert (Q := fun mq' => dense_C_ok J g mq' I0 HJ Hnc om p Ho Hp).
  unfold dense_cfg_gen; cbv zeta. repeat (apply Forall_cons || apply Forall_nil); cbn [fst snd].
  - eapply (screened_C_intro _ _ _ _ _ (fun mu => wsum_C (map (fun q => (INR (fst q), polarization_quark_l_thermal_part_zero_temp_landau J g om p (snd q) mu)) quarks))); [exact K|apply Rgt_not_eq, Rmult_lt_0_compat; [now apply dense_mass_pos|exact (proj1 (htl_pos om p Ho Hp))]|trip|
      intros t; rewrite <- (sum_quarks_wsum_C (fun mq' => polarization_quark_l_thermal_part_zero_temp_landau J g om p mq' t) nc m quarks); trip0|
      apply (wsum_inC quarks (fun mu mq' => polarization_quark_l_thermal_part_zero_temp_landau J g om p mq' mu)); intros mq'; exact (nth_Forall _ _ 1%nat _ (Q mq') eq_refl)|].
    apply dense_mass_val; exact Hnc.
  - eapply (screened_C_intro _ _ _ _ _ (fun mu => wsum_C (map (fun q => (INR (fst q), polarization_quark_t_thermal_part_zero_temp_landau J g om p (snd q) mu)) quarks))); [exact K|apply Rgt_not_eq, Rmult_lt_0_compat; [now apply dense_mass_pos|exact (proj2 (htl_pos om p Ho Hp))]|trip|
      intros t; rewrite <- (sum_quarks_wsum_C (fun mq' => polarization_quark_t_thermal_part_zero_temp_landau J g om p mq' t) nc m quarks); trip0|
      apply (wsum_inC quarks (fun mu mq' => polarization_quark_t_thermal_part_zero_temp_landau J g om p mq' mu)); intros mq'; exact (nth_Forall _ _ 3%nat _ (Q mq') eq_refl)|].
    apply dense_mass_val; exact Hnc.
Qed.
Lemma hot_zp_ok mq mu nu om : m <> 0 -> tends INF (fun T => mu T / T) nu -> om <> 0 -> Forall (fun x => screened_C (om * om) (fst x) (snd x)) (hot_zp J g om m mq f0 mu nu nc quarks).
Proof.
  intros Hm Hmu; intros Ho; pose proof Rlt_0_1 as Hp. assert (K : (om * om) <> 0) by nra. assert (P9 : 0 < / 9) by lra.
  assert (Q := fun mq' => hot_C_ok J g mq' mu nu I0 HJ Hnc Hmu om 1 Ho Hp). assert (G := hot_glue_C_ok J g m I0 HJ Hm om 1 Ho Hp).
  unfold hot_zp; cbv zeta. repeat (apply Forall_cons || apply Forall_nil); cbn [fst snd].
  - eapply (screened_C_intro _ _ _ _ _ (fun T => zp_polarization_glue_l_thermal_part_landau J g om m (/ T))); [exact K|apply Rgt_not_eq, Rmult_lt_0_compat; [now apply hot_mass_pos|exact P9]|trip|trip|exact (nth_Forall _ _ 9%nat _ G eq_refl)|].
    rewrite <- (hot_mass_val _ _ nu (/ 9) Hnc). cbn [INR snd fst]. ring.
  - eapply (screened_C_intro _ _ _ _ _ (fun T => zp_polarization_glue_t_thermal_part_landau J g om m (/ T))); [exact K|apply Rgt_not_eq, Rmult_lt_0_compat; [now apply hot_mass_pos|exact P9]|trip|trip|exact (nth_Forall _ _ 11%nat _ G eq_refl)|].
    rewrite <- (hot_mass_val _ _ nu (/ 9) Hnc). cbn [INR snd fst]. ring.
  - eapply (screened_C_intro _ _ _ _ _ (fun T => (zp_polarization_glue_l_thermal_part_landau J g om m (/ T)%R + RtoC (INR (g_nf g)) * zp_polarization_quark_l_thermal_part_landau J g om mq (/ T)%R (mu T))%C)); [exact K|apply Rgt_not_eq, Rmult_lt_0_compat; [now apply hot_mass_pos|exact P9]|trip|trip|apply inC_plus; [exact (nth_Forall _ _ 9%nat _ G eq_refl)|apply inC_scal; exact (nth_Forall _ _ 5%nat _ (Q mq) eq_refl)]|].
    apply hot_mass_val; exact Hnc.
  - eapply (screened_C_intro _ _ _ _ _ (fun T => (zp_polarization_glue_t_thermal_part_landau J g om m (/ T)%R + RtoC (INR (g_nf g)) * zp_polarization_quark_t_thermal_part_landau J g om mq (/ T)%R (mu T))%C)); [exact K|apply Rgt_not_eq, Rmult_lt_0_compat; [now apply hot_mass_pos|exact P9]|trip|trip|apply inC_plus; [exact (nth_Forall _ _ 11%nat _ G eq_refl)|apply inC_scal; exact (nth_Forall _ _ 7%nat _ (Q mq) eq_refl)]|].
    apply hot_mass_val; exact Hnc.
  - eapply (screened_C_intro _ _ _ _ _ (fun T => (zp_polarization_glue_l_thermal_part_landau J g om m (/ T)%R + wsum_C (map (fun q => (INR (fst q), zp_polarization_quark_l_thermal_part_landau J g om (snd q) (/ T)%R (mu T))) quarks))%C)); [exact K|apply Rgt_not_eq, Rmult_lt_0_compat; [now apply hot_mass_pos|exact P9]|trip|
      intros t; rewrite <- (sum_quarks_wsum_C (fun mq' => zp_polarization_quark_l_thermal_part_landau J g om mq' (/ t) (mu t)) nc m quarks); trip0|
      apply inC_plus; [exact (nth_Forall _ _ 9%nat _ G eq_refl)|apply (wsum_inC quarks (fun T mq' => zp_polarization_quark_l_thermal_part_landau J g om mq' (/ T) (mu T))); intros mq'; exact (nth_Forall _ _ 5%nat _ (Q mq') eq_refl)]|].
    apply hot_mass_val; exact Hnc.
  - eapply (screened_C_intro _ _ _ _ _ (fun T => (zp_polarization_glue_t_thermal_part_landau J g om m (/ T)%R + wsum_C (map (fun q => (INR (fst q), zp_polarization_quark_t_thermal_part_landau J g om (snd q) (/ T)%R (mu T))) quarks))%C)); [exact K|apply Rgt_not_eq, Rmult_lt_0_compat; [now apply hot_mass_pos|exact P9]|trip|
      intros t; rewrite <- (sum_quarks_wsum_C (fun mq' => zp_polarization_quark_t_thermal_part_landau J g om mq' (/ t) (mu t)) nc m quarks); trip0|
      apply inC_plus; [exact (nth_Forall _ _ 11%nat _ G eq_refl)|apply (wsum_inC quarks (fun T mq' => zp_polarization_quark_t_thermal_part_landau J g om mq' (/ T) (mu T))); intros mq'; exact (nth_Forall _ _ 7%nat _ (Q mq') eq_refl)]|].
    apply hot_mass_val; exact Hnc.
Qed.
Lemma dense_zp_ok mq om : (0 < g_nf g)%nat -> om <> 0 -> Forall (fun x => screened_C (om * om) (fst x) (snd x)) (dense_zp J g om m mq f0).
Proof.
  intros Hf; intros Ho; pose proof Rlt_0_1 as Hp. assert (K : (om * om) <> 0) by nra. assert (P9 : 0 < / 9) by lra.
  assert (Q := fun mq' => dense_C_ok J g mq' I0 HJ Hnc om 1 Ho Hp).
  unfold dense_zp; cbv zeta. repeat (apply Forall_cons || apply Forall_nil); cbn [fst snd].
  - eapply (screened_C_intro _ _ _ _ _ (fun mu => (RtoC (INR (g_nf g)) * zp_polarization_quark_l_thermal_part_zero_temp_landau J g om mq mu)%C)); [exact K|apply Rgt_not_eq, Rmult_lt_0_compat; [now apply dense_mass_pos|exact P9]|trip|trip|apply inC_scal; exact (nth_Forall _ _ 5%nat _ (Q mq) eq_refl)|].
    apply dense_mass_val; exact Hnc.
  - eapply (screened_C_intro _ _ _ _ _ (fun mu => (RtoC (INR (g_nf g)) * zp_polarization_quark_t_thermal_part_zero_temp_landau J g om mq mu)%C)); [exact K|apply Rgt_not_eq, Rmult_lt_0_compat; [now apply dense_mass_pos|exact P9]|trip|trip|apply inC_scal; exact (nth_Forall _ _ 7%nat _ (Q mq) eq_refl)|].
    apply dense_mass_val; exact Hnc.
Qed.
Lemma dense_cfg_zp_ok om : (0 < quark_total quarks)%nat -> om <> 0 -> Forall (fun x => screened_C (om * om) (fst x) (snd x)) (dense_cfg_zp J g om m f0 nc quarks).
Proof.
  intros Hf; intros Ho; pose proof Rlt_0_1 as Hp. assert (K : (om * om) <> 0) by nra. assert (P9 : 0 < / 9) by lra.
  assert (Q := fun mq' => dense_C_ok J g mq' I0 HJ Hnc om 1 Ho Hp).
  unfold dense_cfg_zp; cbv zeta. repeat (apply Forall_cons || apply Forall_nil); cbn [fst snd].
  - eapply (screened_C_intro _ _ _ _ _ (fun mu => wsum_C (map (fun q => (INR (fst q), zp_polarization_quark_l_thermal_part_zero_temp_landau J g om (snd q) mu)) quarks))); [exact K|apply Rgt_not_eq, Rmult_lt_0_compat; [now apply dense_mass_pos|exact P9]|trip|
      intros t; rewrite <- (sum_quarks_wsum_C (fun mq' => zp_polarization_quark_l_thermal_part_zero_temp_landau J g om mq' t) nc m quarks); trip0|
      apply (wsum_inC quarks (fun mu mq' => zp_polarization_quark_l_thermal_part_zero_temp_landau J g om mq' mu)); intros mq'; exact (nth_Forall _ _ 5%nat _ (Q mq') eq_refl)|].
    apply dense_mass_val; exact Hnc.
  - eapply (screened_C_intro _ _ _ _ _ (fun mu => wsum_C (map (fun q => (INR (fst q), zp_polarization_quark_t_thermal_part_zero_temp_landau J g om (snd q) mu)) quarks))); [exact K|apply Rgt_not_eq, Rmult_lt_0_compat; [now apply dense_mass_pos|exact P9]|trip|
      intros t; rewrite <- (sum_quarks_wsum_C (fun mq' => zp_polarization_quark_t_thermal_part_zero_temp_landau J g om mq' t) nc m quarks); trip0|
      apply (wsum_inC quarks (fun mu mq' => zp_polarization_quark_t_thermal_part_zero_temp_landau J g om mq' mu)); intros mq'; exact (nth_Forall _ _ 7%nat _ (Q mq') eq_refl)|].
    apply dense_mass_val; exact Hnc.
Qed.
Lemma hot_zm_ok mq mu nu p : m <> 0 -> tends INF (fun T => mu T / T) nu -> 0 < p -> g_matsubara_reg g <> 0 -> Forall (fun x => screened_R (p * p) (fst x) (snd x)) (hot_zm J g p m mq f0 mu nu nc quarks).
Proof.
  intros Hm Hmu; intros Hp Ho. assert (K : (p * p) <> 0) by nra. assert (P9 : 0 < / 9) by lra.
  assert (Q := fun mq' => hot_R_ok J g mq' mu nu I0 HJ Hnc Hmu p Hp Ho). assert (G := hot_glue_R_ok J g m I0 HJ Hm p Hp Ho).
  unfold hot_zm; cbv zeta. repeat (apply Forall_cons || apply Forall_nil); cbn [fst snd].
  - eapply (screened_R_intro _ _ _ _ _ (fun T => zm_polarization_glue_l_thermal_part_landau J g p m (/ T))); [exact K|apply Rgt_not_eq, Rmult_lt_0_compat; [now apply hot_mass_pos|exact (proj1 (htl_pos (g_matsubara_reg g) p Ho Hp))]|trip|trip|exact (nth_Forall _ _ 1%nat _ G eq_refl)|].
    rewrite <- (hot_mass_val _ _ nu (htl_L (g_matsubara_reg g) p) Hnc). cbn [INR snd fst]. ring.
  - eapply (screened_R_intro _ _ _ _ _ (fun T => zm_polarization_glue_t_thermal_part_landau J g p m (/ T))); [exact K|apply Rgt_not_eq, Rmult_lt_0_compat; [now apply hot_mass_pos|exact (proj2 (htl_pos (g_matsubara_reg g) p Ho Hp))]|trip|trip|exact (nth_Forall _ _ 3%nat _ G eq_refl)|].
    rewrite <- (hot_mass_val _ _ nu (htl_T (g_matsubara_reg g) p) Hnc). cbn [INR snd fst]. ring.
  - eapply (screened_R_intro _ _ _ _ _ (fun T => (INR (g_nf g) * zm_polarization_quark_l_thermal_part_landau J g p mq (/ T) (mu T) + zm_polarization_glue_l_thermal_part_landau J g p m (/ T)))); [exact K|apply Rgt_not_eq, Rmult_lt_0_compat; [now apply hot_mass_pos|exact (proj1 (htl_pos (g_matsubara_reg g) p Ho Hp))]|trip|trip|eapply inR_eq; [apply Rplus_comm|apply inR_plus; [apply inR_scal; exact (nth_Forall _ _ 1%nat _ (Q mq) eq_refl)|exact (nth_Forall _ _ 1%nat _ G eq_refl)]]|].
    apply hot_mass_val; exact Hnc.
  - eapply (screened_R_intro _ _ _ _ _ (fun T => (INR (g_nf g) * zm_polarization_quark_t_thermal_part_landau J g p mq (/ T) (mu T) + zm_polarization_glue_t_thermal_part_landau J g p m (/ T)))); [exact K|apply Rgt_not_eq, Rmult_lt_0_compat; [now apply hot_mass_pos|exact (proj2 (htl_pos (g_matsubara_reg g) p Ho Hp))]|trip|trip|eapply inR_eq; [apply Rplus_comm|apply inR_plus; [apply inR_scal; exact (nth_Forall _ _ 3%nat _ (Q mq) eq_refl)|exact (nth_Forall _ _ 3%nat _ G eq_refl)]]|].
    apply hot_mass_val; exact Hnc.
  - eapply (screened_R_intro _ _ _ _ _ (fun T => (zm_polarization_glue_l_thermal_part_landau J g p m (/ T) + wsum_R (map (fun q => (INR (fst q), zm_polarization_quark_l_thermal_part_landau J g p (snd q) (/ T) (mu T))) quarks)))); [exact K|apply Rgt_not_eq, Rmult_lt_0_compat; [now apply hot_mass_pos|exact (proj1 (htl_pos (g_matsubara_reg g) p Ho Hp))]|trip|
      intros t; rewrite <- (sum_quarks_wsum_R (fun mq' => zm_polarization_quark_l_thermal_part_landau J g p mq' (/ t) (mu t)) nc m quarks); trip0|
      apply inR_plus; [exact (nth_Forall _ _ 1%nat _ G eq_refl)|apply (wsum_inR quarks (fun T mq' => zm_polarization_quark_l_thermal_part_landau J g p mq' (/ T) (mu T))); intros mq'; exact (nth_Forall _ _ 1%nat _ (Q mq') eq_refl)]|].
    apply hot_mass_val; exact Hnc.
  - eapply (screened_R_intro _ _ _ _ _ (fun T => (zm_polarization_glue_t_thermal_part_landau J g p m (/ T) + wsum_R (map (fun q => (INR (fst q), zm_polarization_quark_t_thermal_part_landau J g p (snd q) (/ T) (mu T))) quarks)))); [exact K|apply Rgt_not_eq, Rmult_lt_0_compat; [now apply hot_mass_pos|exact (proj2 (htl_pos (g_matsubara_reg g) p Ho Hp))]|trip|
      intros t; rewrite <- (sum_quarks_wsum_R (fun mq' => zm_polarization_quark_t_thermal_part_landau J g p mq' (/ t) (mu t)) nc m quarks); trip0|
      apply inR_plus; [exact (nth_Forall _ _ 3%nat _ G eq_refl)|apply (wsum_inR quarks (fun T mq' => zm_polarization_quark_t_thermal_part_landau J g p mq' (/ T) (mu T))); intros mq'; exact (nth_Forall _ _ 3%nat _ (Q mq') eq_refl)]|].
    apply hot_mass_val; exact Hnc.
Qed.
Lemma dense_zm_ok mq p : (0 < g_nf g)%nat -> 0 < p -> g_matsubara_reg g <> 0 -> Forall (fun x => screened_R (p * p) (fst x) (snd x)) (dense_zm J g p m mq f0).
Proof.
  intros Hf; intros Hp Ho. assert (K : (p * p) <> 0) by nra. assert (P9 : 0 < / 9) by lra.
  assert (Q := fun mq' => dense_R_ok J g mq' I0 HJ Hnc p Hp Ho).
  unfold dense_zm; cbv zeta. repeat (apply Forall_cons || apply Forall_nil); cbn [fst snd].
  - eapply (screened_R_intro _ _ _ _ _ (fun mu => (INR (g_nf g) * zm_polarization_quark_l_thermal_part_zero_temp_landau J g p mq mu))); [exact K|apply Rgt_not_eq, Rmult_lt_0_compat; [now apply dense_mass_pos|exact (proj1 (htl_pos (g_matsubara_reg g) p Ho Hp))]|trip|trip|apply inR_scal; exact (nth_Forall _ _ 1%nat _ (Q mq) eq_refl)|].
    apply dense_mass_val; exact Hnc.
  - eapply (screened_R_intro _ _ _ _ _ (fun mu => (INR (g_nf g) * zm_polarization_quark_t_thermal_part_zero_temp_landau J g p mq mu))); [exact K|apply Rgt_not_eq, Rmult_lt_0_compat; [now apply dense_mass_pos|exact (proj2 (htl_pos (g_matsubara_reg g) p Ho Hp))]|trip|trip|apply inR_scal; exact (nth_Forall _ _ 3%nat _ (Q mq) eq_refl)|].
    apply dense_mass_val; exact Hnc.
Qed.
Lemma dense_cfg_zm_ok p : (0 < quark_total quarks)%nat -> 0 < p -> g_matsubara_reg g <> 0 -> Forall (fun x => screened_R (p * p) (fst x) (snd x)) (dense_cfg_zm J g p m f0 nc quarks).
Proof.
  intros Hf; intros Hp Ho. assert (K : (p * p) <> 0) by nra. assert (P9 : 0 < / 9) by lra.
  assert (Q := fun mq' => dense_R_ok J g mq' I0 HJ Hnc p Hp Ho).
  unfold dense_cfg_zm; cbv zeta. repeat (apply Forall_cons || apply Forall_nil); cbn [fst snd].
  - eapply (screened_R_intro _ _ _ _ _ (fun mu => wsum_R (map (fun q => (INR (fst q), zm_polarization_quark_l_thermal_part_zero_temp_landau J g p (snd q) mu)) quarks))); [exact K|apply Rgt_not_eq, Rmult_lt_0_compat; [now apply dense_mass_pos|exact (proj1 (htl_pos (g_matsubara_reg g) p Ho Hp))]|trip|
      intros t; rewrite <- (sum_quarks_wsum_R (fun mq' => zm_polarization_quark_l_thermal_part_zero_temp_landau J g p mq' t) nc m quarks); trip0|
      apply (wsum_inR quarks (fun mu mq' => zm_polarization_quark_l_thermal_part_zero_temp_landau J g p mq' mu)); intros mq'; exact (nth_Forall _ _ 1%nat _ (Q mq') eq_refl)|].
    apply dense_mass_val; exact Hnc.
  - eapply (screened_R_intro _ _ _ _ _ (fun mu => wsum_R (map (fun q => (INR (fst q), zm_polarization_quark_t_thermal_part_zero_temp_landau J g p (snd q) mu)) quarks))); [exact K|apply Rgt_not_eq, Rmult_lt_0_compat; [now apply dense_mass_pos|exact (proj2 (htl_pos (g_matsubara_reg g) p Ho Hp))]|trip|
      intros t; rewrite <- (sum_quarks_wsum_R (fun mq' => zm_polarization_quark_t_thermal_part_zero_temp_landau J g p mq' t) nc m quarks); trip0|
      apply (wsum_inR quarks (fun mu mq' => zm_polarization_quark_t_thermal_part_zero_temp_landau J g p mq' mu)); intros mq'; exact (nth_Forall _ _ 3%nat _ (Q mq') eq_refl)|].
    apply dense_mass_val; exact Hnc.
Qed.
End D.
