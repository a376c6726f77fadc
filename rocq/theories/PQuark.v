(** * Quark polarization: factorisation of colour factor and occupation number *)
From Coq Require Import Reals Lra Lia List.
From Coquelicot Require Import Coquelicot.
From Verif Require Import Num CField MCommon MThermal MThermalZM MThermalZP MPolar SpecLim SpecInteg PCplx PDistr PVac PDress2 PCoh PCoh2 PLogs PMass PMassZ PMass2 PLim PLimC.
Import List ListNotations.
Open Scope R_scope.

Notation CINF := (Rbar_locally p_infty).
Notation fd q mq beta mu := (RtoC (fermi_distribution_double (energy q mq) beta mu)).
Notation fd0 q mq mu := (RtoC (fermi_distribution_double_zero_temp (energy q mq) mu)).

Section Kernel.
Variables (q p mq : R) (om : C).
Let e : C := RtoC (energy q mq).
Let tl := tlog_same_mass q om p (energy q mq).
Let tl' := tlog_same_mass q (- om)%C p (energy q mq).
Let s : C := (om * om + RtoC p * RtoC p)%C.
Definition kl : C := (- / (RtoC p * RtoC p * e * RtoC 2 * RtoC PI2) * s * RtoC q * RtoC q *
  (RtoC 1 - / (RtoC p * RtoC q * RtoC 8) * ((s - e * e * RtoC 4 + om * RtoC 4 * Ci * e) * tl + (s - e * e * RtoC 4 - om * RtoC 4 * Ci * e) * tl')))%C.
Definition kt : C := (- / (RtoC p * RtoC p * e * RtoC 4 * RtoC PI2) * RtoC q * RtoC q *
  (- (om * om) + RtoC p * RtoC p - / (RtoC 8 * RtoC q * RtoC p) *
    (((- (om * om) + RtoC p * RtoC p) * s + RtoC 4 * RtoC q * RtoC q * RtoC p * RtoC p + om * om * RtoC 4 * e * e - om * s * RtoC 4 * Ci * e) * tl +
     ((- (om * om) + RtoC p * RtoC p) * s + RtoC 4 * RtoC q * RtoC q * RtoC p * RtoC p + om * om * RtoC 4 * e * e + om * s * RtoC 4 * Ci * e) * tl')))%C.
Definition kp : C := (/ ((om * om + RtoC 4 * (e * e)) * e * RtoC 3 * RtoC PI2) * RtoC 2 * RtoC q * RtoC q * (RtoC 3 * - (e * e) + RtoC q * RtoC q))%C.
Definition kzl : C := RtoC (- q * q / (energy q mq * 2 * PI2) * (1 - (energy q mq * energy q mq * -4 + p * p) / (4 * q * p) * zm_tlog_same_mass q p)).
Definition kzt : C := RtoC (- (q * q) / (energy q mq * 4 * PI2) * (1 - (4 * (q * q) + p * p) * zm_tlog_same_mass q p / (4 * q * p))).

Ltac go := unfold e, tl, tl', s; cbv zeta; numcbn; generalize PI2; intros pi2; unfold Rdiv, Cdiv; pushRtoC; rewrite ?RtoC_inv'; pushRtoC; rewrite ?Cinv_mult; ring.
Lemma quark_factor nc beta mu : quark_parts nc q om p mq beta mu = map (fun k => fd q mq beta mu / RtoC (INR nc) * k)%C [kl; kt].
Proof.
  unfold quark_parts, polarization_quark_l_thermal_part_landau_i, polarization_quark_t_thermal_part_landau_i, kl, kt. cbn [map].
  apply (f_equal2 cons); [|apply (f_equal2 cons); [|reflexivity]]; go.
Qed.
Lemma quark0_factor nc mu : quark_parts_zero_temp nc q om p mq mu = map (fun k => fd0 q mq mu / RtoC (INR nc) * k)%C [kl; kt].
Proof.
  unfold quark_parts_zero_temp, polarization_quark_l_thermal_part_zero_temp_landau_i, polarization_quark_t_thermal_part_zero_temp_landau_i, kl, kt. cbn [map].
  apply (f_equal2 cons); [|apply (f_equal2 cons); [|reflexivity]]; go.
Qed.
Lemma zp_quark_factor nc beta mu : zp_quark_parts nc q om mq beta mu = map (fun k => fd q mq beta mu / RtoC (INR nc) * k)%C [kp; kp].
Proof.
  unfold zp_quark_parts, zp_polarization_quark_t_thermal_part_landau_i, zp_polarization_quark_l_thermal_part_landau_i, kp. cbn [map].
  apply (f_equal2 cons); [|apply (f_equal2 cons); [|reflexivity]]; go.
Qed.
Lemma zp_quark0_factor nc mu : zp_quark_parts_zero_temp nc q om mq mu = map (fun k => fd0 q mq mu / RtoC (INR nc) * k)%C [kp; kp].
Proof.
  unfold zp_quark_parts_zero_temp, zp_polarization_quark_t_thermal_part_zero_temp_landau_i, zp_polarization_quark_l_thermal_part_zero_temp_landau_i, kp. cbn [map].
  apply (f_equal2 cons); [|apply (f_equal2 cons); [|reflexivity]]; go.
Qed.
Lemma zm_quark_factor nc beta mu : zm_quark_parts nc q p mq beta mu = map (fun k => fd q mq beta mu / RtoC (INR nc) * k)%C [kzl; kzt].
Proof.
  unfold zm_quark_parts, zm_polarization_quark_t_thermal_part_landau_i, zm_polarization_quark_l_thermal_part_landau_i, kzl, kzt. cbn [map].
  apply (f_equal2 cons); [|apply (f_equal2 cons); [|reflexivity]]; go.
Qed.
Lemma zm_quark0_factor nc mu : zm_quark_parts_zero_temp nc q p mq mu = map (fun k => fd0 q mq mu / RtoC (INR nc) * k)%C [kzl; kzt].
Proof.
  unfold zm_quark_parts_zero_temp, zm_polarization_quark_t_thermal_part_zero_temp_landau_i, zm_polarization_quark_l_thermal_part_zero_temp_landau_i, kzl, kzt. cbn [map].
  apply (f_equal2 cons); [|apply (f_equal2 cons); [|reflexivity]]; go.
Qed.
End Kernel.

(** ** Consequences *)
Definition kernels q (om : C) p mq : list C := [kl q p mq om; kt q p mq om; kp q mq om; kp q mq om; kzl q p mq; kzt q p mq].
Lemma all_factor nc q (om : C) p mq beta mu : all_quark nc q om p mq beta mu = map (fun k => fd q mq beta mu / RtoC (INR nc) * k)%C (kernels q om p mq).
Proof. unfold all_quark. rewrite quark_factor, zp_quark_factor, zm_quark_factor. reflexivity. Qed.
Lemma all_factor0 nc q (om : C) p mq mu : all_quark0 nc q om p mq mu = map (fun k => fd0 q mq mu / RtoC (INR nc) * k)%C (kernels q om p mq).
Proof. unfold all_quark0. rewrite quark0_factor, zp_quark0_factor, zm_quark0_factor. reflexivity. Qed.
Lemma all_R nc q (om p mq beta mu : R) : all_quark nc q om p mq beta mu = all_quark nc q (RtoC om) p mq beta mu.
Proof. unfold all_quark. now rewrite quark_R, zp_quark_R. Qed.
Lemma all0_R nc q (om p mq mu : R) : all_quark0 nc q om p mq mu = all_quark0 nc q (RtoC om) p mq mu.
Proof. unfold all_quark0. now rewrite quark0_R, zp_quark0_R. Qed.

Lemma map_nth0 (f : C -> C) l n : f (RtoC 0) = RtoC 0 -> nth n (map f l) (RtoC 0) = f (nth n l (RtoC 0)).
Proof. intros H. rewrite <- H at 1. apply map_nth. Qed.
Lemma fermi2_zt_even en mu : fermi_distribution_double_zero_temp (T := R) en (- mu) = fermi_distribution_double_zero_temp en mu.
Proof. rewrite !fermi2_zt_R, Ropp_involutive. ring. Qed.

Lemma even_C nc q (om : C) p mq beta mu : all_quark nc q om p mq beta (- mu) = all_quark nc q om p mq beta mu /\ all_quark0 nc q om p mq (- mu) = all_quark0 nc q om p mq mu.
Proof. rewrite !all_factor, !all_factor0, fermi2_even, fermi2_zt_even. auto. Qed.
Lemma even_R nc q (om : R) p mq beta mu : all_quark nc q om p mq beta (- mu) = all_quark nc q om p mq beta mu /\ all_quark0 nc q om p mq (- mu) = all_quark0 nc q om p mq mu.
Proof. rewrite !all_R, !all0_R. apply even_C. Qed.

Lemma scale_nc nc f l : (0 < nc)%nat -> map (fun z => RtoC (INR nc) * z)%C (map (fun k => f / RtoC (INR nc) * k)%C l) = map (fun k => f * k)%C l.
Proof.
  intros H. rewrite map_map. apply map_ext. intros k. field. apply RtoC_neq0, not_0_INR. lia.
Qed.
Lemma colors_C nc nc' q (om : C) p mq beta mu : (0 < nc)%nat -> (0 < nc')%nat ->
  map (fun z => RtoC (INR nc) * z)%C (all_quark nc q om p mq beta mu) = map (fun z => RtoC (INR nc') * z)%C (all_quark nc' q om p mq beta mu) /\
  map (fun z => RtoC (INR nc) * z)%C (all_quark0 nc q om p mq mu) = map (fun z => RtoC (INR nc') * z)%C (all_quark0 nc' q om p mq mu).
Proof. intros H H'. rewrite !all_factor, !all_factor0, !scale_nc by auto. auto. Qed.
Lemma colors_R nc nc' q (om : R) p mq beta mu : (0 < nc)%nat -> (0 < nc')%nat ->
  map (fun z => RtoC (INR nc) * z)%C (all_quark nc q om p mq beta mu) = map (fun z => RtoC (INR nc') * z)%C (all_quark nc' q om p mq beta mu) /\
  map (fun z => RtoC (INR nc) * z)%C (all_quark0 nc q om p mq mu) = map (fun z => RtoC (INR nc') * z)%C (all_quark0 nc' q om p mq mu).
Proof. rewrite !all_R, !all0_R. apply colors_C. Qed.

Lemma occ_cold q mq mu : sqrt (mq * mq + q * q) <> Rabs mu -> tends CINF (fun beta => fermi_distribution_double (energy q mq) beta mu) (fermi_distribution_double_zero_temp (energy q mq) mu).
Proof.
  intros H. pose proof (sqrt_pos (mq * mq + q * q)). apply fermi2_lim; rewrite energy_R; intros E; apply H; rewrite E in *.
  - symmetry. apply Rabs_pos_eq. lra.
  - symmetry. apply Rabs_left1. lra.
Qed.
Lemma quark_cold_C nc q (om : C) p mq mu n : sqrt (mq * mq + q * q) <> Rabs mu ->
  tendsC CINF (fun beta => nth n (all_quark nc q om p mq beta mu) (RtoC 0)) (nth n (all_quark0 nc q om p mq mu) (RtoC 0)).
Proof.
  intros H. pose proof (occ_cold q mq mu H) as L. rewrite all_factor0, map_nth0 by apply Cmult_0_r.
  apply (tendsC_ext (fun b => fd q mq b mu / RtoC (INR nc) * nth n (kernels q om p mq) (RtoC 0))%C).
  { apply filter_forall. intros b. now rewrite all_factor, (map_nth0 (fun k => fd q mq b mu / RtoC (INR nc) * k)%C) by apply Cmult_0_r. }
  unfold Cdiv. tendCf.
Qed.
Lemma quark_cold_R nc q (om : R) p mq mu n : sqrt (mq * mq + q * q) <> Rabs mu ->
  tendsC CINF (fun beta => nth n (all_quark nc q om p mq beta mu) (RtoC 0)) (nth n (all_quark0 nc q om p mq mu) (RtoC 0)).
Proof.
  intros H. rewrite all0_R. eapply tendsC_ext; [apply filter_forall; intros b; rewrite all_R; reflexivity|]. now apply quark_cold_C.
Qed.
