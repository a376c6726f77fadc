(** * Propagation of quadrature errors: field configurations and the phase-diagram program *)
From Coq Require Import Reals Lra Lia List Psatz.
From Coquelicot Require Import Coquelicot.
From Verif Require Import Num CField MConsts MVacuum MThermal MPolar MDress MUtils MTc MPhase SpecInt SpecDress SpecErr PCplx PVac PDress PInt PTherm PColdFin PColdLim PTc PPhase PErr.
From Verif Require Import SpecTc.
Import List ListNotations.
Open Scope R_scope.

Lemma nth_Forall2 {A B} (Q : A -> B -> Prop) X Y n x y : Forall2 Q X Y -> nth_error X n = Some x -> nth_error Y n = Some y -> Q x y.
Proof.
  intros H. revert n. induction H as [|a b X Y H1 H2 IH]; intros [|n] E E'; try discriminate; cbn [nth_error] in *; [|eauto].
  injection E as <-. injection E' as <-. exact H1.
Qed.
Lemma weight_quarks (F : R -> C) quarks : weight (map (fun q : nat * R => (INR (fst q), F (snd q))) quarks) = flavours quarks.
Proof.
  induction quarks as [|q l IH]; [reflexivity|]. cbn [map weight flavours fold_right fst snd].
  fold (weight (map (fun q : nat * R => (INR (fst q), F (snd q))) l)). fold (flavours l). rewrite IH, (Rabs_pos_eq (INR (fst q))) by apply pos_INR. reflexivity.
Qed.
Lemma weight_quarks1 (a : C) (F : R -> C) quarks : weight ((1, a) :: map (fun q : nat * R => (INR (fst q), F (snd q))) quarks) = 1 + flavours quarks.
Proof. rewrite <- (weight_quarks F quarks). cbn [weight fold_right fst snd]. rewrite Rabs_R1. reflexivity. Qed.
Lemma flavours_nonneg quarks : 0 <= flavours quarks.
Proof. induction quarks as [|q l IH]; cbn [flavours fold_right]; [lra|]. fold (flavours l). pose proof (pos_INR (fst q)). lra. Qed.

Section Point.
Variables (K : Integrator) (g : globals R) (om p m : R) (nc : nat) (quarks : list (nat * R)) (f0 mu : R).
Hypothesis HK : exact_integrator K.
Hypothesis Hnc : (0 < g_nc g)%nat.
Hypothesis Hom : om <> 0.
Hypothesis Hp : 0 < p.
Hypothesis Hm : m <> 0.
Let cfg := FieldConfig_new nc m quarks.
Let s := om * om + p * p.
Let Hs : 0 < s. Proof. unfold s. nra. Qed.
Let I0 : Integral R := G7K15 0 0.
Lemma val_err J eps f a b I v : accurate eps J f a b -> is_RInt (V := C_R_NormedModule) f a b v -> Cmod (integrateC J f a b I - integrateC K f a b I) <= eps.
Proof. intros A H. rewrite (proj2 HK _ _ _ _ _ H). now apply A. Qed.
Lemma Cmod_same (a : C) eps : 0 <= eps -> Cmod (a - a) <= eps.
Proof. intros H. replace (a - a)%C with (RtoC 0) by ring. now rewrite Cmod_0. Qed.

Section Thermal.
Variables (J : Integrator) (beta eps : R).
Hypothesis Hb : 0 < beta.
Hypothesis HA : accurate_thermal eps J g om p m quarks beta mu.
Let CV mq := conv_C J g p m mq beta mu I0 Hnc Hp Hm Hb om Hom.
Let WJ mq := half_line_C J g om p m mq beta mu I0.
Let WK mq := half_line_C K g om p m mq beta mu I0.
Ltac val mq n H := let V := fresh in let HV := fresh in
  destruct (nth_Forall _ _ n _ (CV mq) eq_refl) as [V HV];
  rewrite (nth_Forall _ _ n _ (WJ mq) eq_refl : _ = _), (nth_Forall _ _ n _ (WK mq) eq_refl : _ = _); exact (val_err J eps _ 0 1 _ V H HV).
Lemma glue_l_err : Cmod (polarization_glue_l_thermal_part_landau J g om p m beta - polarization_glue_l_thermal_part_landau K g om p m beta) <= eps.
Proof. destruct HA as (A & _). val 0 5%nat A. Qed.
Lemma glue_t_err : Cmod (polarization_glue_t_thermal_part_landau J g om p m beta - polarization_glue_t_thermal_part_landau K g om p m beta) <= eps.
Proof. destruct HA as (_ & A & _). val 0 7%nat A. Qed.
Lemma quark_l_err n mq : In (n, mq) quarks -> Cmod (polarization_quark_l_thermal_part_landau J g om p mq beta mu - polarization_quark_l_thermal_part_landau K g om p mq beta mu) <= eps.
Proof. intros Hq. destruct HA as (_ & _ & A). destruct (A n mq Hq) as [A' _]. val mq 9%nat A'. Qed.
Lemma quark_t_err n mq : In (n, mq) quarks -> Cmod (polarization_quark_t_thermal_part_landau J g om p mq beta mu - polarization_quark_t_thermal_part_landau K g om p mq beta mu) <= eps.
Proof. intros Hq. destruct HA as (_ & _ & A). destruct (A n mq Hq) as [_ A']. val mq 11%nat A'. Qed.
Lemma quarks_err (F G : R -> C) : (forall n mq, In (n, mq) quarks -> Cmod (F mq - G mq) <= eps) ->
  Forall2 (fun a b : R * C => Cmod (snd a - snd b) <= eps) (map (fun q : nat * R => (INR (fst q), F (snd q))) quarks) (map (fun q : nat * R => (INR (fst q), G (snd q))) quarks).
Proof.
  intros H. clear HA CV. clear cfg. induction quarks as [|[n mq] l IH]; cbn [map]; constructor; cbn [fst snd].
  - apply (H n mq). now left.
  - apply IH. intros n' mq' H'. apply (H n' mq'). now right.
Qed.
Lemma Hs0 : om * om + p * p <> 0.
Proof. fold s. pose proof Hs. lra. Qed.
Lemma cfg_l_err : Cmod (qcd_gluon_dressing_l_inv_w_field_config J g om p beta mu f0 cfg - qcd_gluon_dressing_l_inv_w_field_config K g om p beta mu f0 cfg) <= c0 / s * (1 + flavours quarks) * eps.
Proof.
  pose proof (nth_Forall2 _ _ _ 7%nat _ _ (proj1 (inv_err J K g nc m 0 beta mu 0 f0 quarks) om p Hs0) eq_refl eq_refl) as E. cbn [err_C] in E.
  rewrite (weight_quarks1 _ (fun mq => polarization_quark_l_thermal_part_landau J g om p mq beta mu)) in E. rewrite Cmod_R, Rabs_pos_eq in E by (fold s; pose proof Hs; lra).
  apply E. constructor; [exact glue_l_err|]. apply (quarks_err (fun mq => polarization_quark_l_thermal_part_landau J g om p mq beta mu) (fun mq => polarization_quark_l_thermal_part_landau K g om p mq beta mu)). exact quark_l_err.
Qed.
Lemma cfg_t_err : Cmod (qcd_gluon_dressing_t_inv_w_field_config J g om p beta mu f0 cfg - qcd_gluon_dressing_t_inv_w_field_config K g om p beta mu f0 cfg) <= c0 / s * (1 + flavours quarks) * eps.
Proof.
  pose proof (nth_Forall2 _ _ _ 8%nat _ _ (proj1 (inv_err J K g nc m 0 beta mu 0 f0 quarks) om p Hs0) eq_refl eq_refl) as E. cbn [err_C] in E.
  rewrite (weight_quarks1 _ (fun mq => polarization_quark_t_thermal_part_landau J g om p mq beta mu)) in E. rewrite Cmod_R, Rabs_pos_eq in E by (fold s; pose proof Hs; lra).
  apply E. constructor; [exact glue_t_err|]. apply (quarks_err (fun mq => polarization_quark_t_thermal_part_landau J g om p mq beta mu) (fun mq => polarization_quark_t_thermal_part_landau K g om p mq beta mu)). exact quark_t_err.
Qed.
End Thermal.

Section Zero.
Variables (J : Integrator) (eps : R).
Hypothesis He : 0 <= eps.
Hypothesis HA : accurate_zero_temp eps J g om p quarks mu.
Ltac valz mq n A := let V := fresh in let HV := fresh in
  destruct (Rle_or_lt (Rabs mq) (Rabs mu)) as [Hl|Hl];
  [ destruct (nth_Forall _ _ n _ (conv_sea_C J g p mq mu I0 Hnc Hp om Hom Hl) eq_refl) as [V HV];
    pose proof (proj1 (nth_Forall _ _ n _ (proj2 (sea_C J g om p mq mu I0 (integrands_outside_R J g om p mq mu I0)) Hl) eq_refl)) as WJ;
    pose proof (proj1 (nth_Forall _ _ n _ (proj2 (sea_C K g om p mq mu I0 (integrands_outside_R K g om p mq mu I0)) Hl) eq_refl)) as WK;
    cbv beta iota in WJ, WK; rewrite WJ, WK; exact (val_err J eps _ _ _ _ V (A Hl) HV)
  | pose proof (proj1 (nth_Forall _ _ n _ (proj1 (sea_C J g om p mq mu I0 (integrands_outside_R J g om p mq mu I0)) Hl) eq_refl)) as WJ;
    pose proof (proj1 (nth_Forall _ _ n _ (proj1 (sea_C K g om p mq mu I0 (integrands_outside_R K g om p mq mu I0)) Hl) eq_refl)) as WK;
    cbv beta iota in WJ, WK; rewrite WJ, WK; now apply Cmod_same ].
Lemma quark_l0_err n mq : In (n, mq) quarks -> Cmod (polarization_quark_l_thermal_part_zero_temp_landau J g om p mq mu - polarization_quark_l_thermal_part_zero_temp_landau K g om p mq mu) <= eps.
Proof. intros Hq. assert (A := fun H => proj1 (HA n mq Hq H)). valz mq 1%nat A. Qed.
Lemma quark_t0_err n mq : In (n, mq) quarks -> Cmod (polarization_quark_t_thermal_part_zero_temp_landau J g om p mq mu - polarization_quark_t_thermal_part_zero_temp_landau K g om p mq mu) <= eps.
Proof. intros Hq. assert (A := fun H => proj2 (HA n mq Hq H)). valz mq 3%nat A. Qed.
Lemma cfg_l0_err : Cmod (qcd_gluon_dressing_l_inv_zero_temp_w_field_config J g om p mu f0 cfg - qcd_gluon_dressing_l_inv_zero_temp_w_field_config K g om p mu f0 cfg) <= c0 / s * flavours quarks * eps.
Proof.
  pose proof (nth_Forall2 _ _ _ 9%nat _ _ (proj1 (inv_err J K g nc m 0 1 mu 0 f0 quarks) om p Hs0) eq_refl eq_refl) as E. cbn [err_C] in E.
  rewrite (weight_quarks (fun mq => polarization_quark_l_thermal_part_zero_temp_landau J g om p mq mu)) in E. rewrite Cmod_R, Rabs_pos_eq in E by (fold s; pose proof Hs; lra).
  apply E. apply (quarks_err eps (fun mq => polarization_quark_l_thermal_part_zero_temp_landau J g om p mq mu) (fun mq => polarization_quark_l_thermal_part_zero_temp_landau K g om p mq mu)). exact quark_l0_err.
Qed.
Lemma cfg_t0_err : Cmod (qcd_gluon_dressing_t_inv_zero_temp_w_field_config J g om p mu f0 cfg - qcd_gluon_dressing_t_inv_zero_temp_w_field_config K g om p mu f0 cfg) <= c0 / s * flavours quarks * eps.
Proof.
  pose proof (nth_Forall2 _ _ _ 10%nat _ _ (proj1 (inv_err J K g nc m 0 1 mu 0 f0 quarks) om p Hs0) eq_refl eq_refl) as E. cbn [err_C] in E.
  rewrite (weight_quarks (fun mq => polarization_quark_t_thermal_part_zero_temp_landau J g om p mq mu)) in E. rewrite Cmod_R, Rabs_pos_eq in E by (fold s; pose proof Hs; lra).
  apply E. apply (quarks_err eps (fun mq => polarization_quark_t_thermal_part_zero_temp_landau J g om p mq mu) (fun mq => polarization_quark_t_thermal_part_zero_temp_landau K g om p mq mu)). exact quark_t0_err.
Qed.
End Zero.
End Point.
