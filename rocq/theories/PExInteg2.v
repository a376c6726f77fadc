(** * Concrete cases for the quark parts and the cold limit *)
From Coq Require Import Reals Lra Lia List.
From Coquelicot Require Import Coquelicot.
From Verif Require Import Num CField MCommon MThermal MThermalZM MThermalZP MPolar SpecLim SpecInteg PCplx PDistr PVac PReal PForms PExInteg PQuark PCold PCold2.
Import List ListNotations.
Open Scope R_scope.

Lemma ex_cold_values : j_0_i 1 (ln 2) = / (2 * (PI * PI)) /\ j_0_i 1 (ln 3) = / (4 * (PI * PI)) /\ tends (Rbar_locally p_infty) (fun beta => j_0_i 1 beta) 0.
Proof.
  assert (E : forall b, j_0_i 1 b = / (exp b - 1) / (2 * (PI * PI))).
  { intros b. unfold j_0_i. rewrite bose_val, Rmult_1_l. change PI2 with (PI * PI). pose proof PI_neq0. unfold Rdiv. rewrite !Rinv_mult. ring. }
  pose proof PI_neq0. repeat split.
  - rewrite E, exp_ln by lra. field. auto.
  - rewrite E, exp_ln by lra. field. auto.
  - destruct (tadpole0_cold 1 0 Rlt_0_1) as [T _]. exact T.
Qed.

Definition exq nc : R := - 99 / (125 * INR nc * (PI * PI)).
Lemma zt_val : fermi_distribution_double_zero_temp (5 : R) 6 = 1 /\ fermi_distribution_double_zero_temp (5 : R) (-6) = 1 /\ fermi_distribution_double_zero_temp (5 : R) 4 = 0.
Proof.
  unfold fermi_distribution_double_zero_temp, fermi_distribution_zero_temp. cbn.
  repeat split; repeat match goal with |- context [Rlt_dec ?a ?b] => destruct (Rlt_dec a b); try lra | |- context [Rgt_dec ?a ?b] => destruct (Rgt_dec a b); try lra end.
Qed.
Lemma exq_val nc mu : (0 < nc)%nat -> zp_polarization_quark_l_thermal_part_zero_temp_landau_i nc 3 (0 : R) 4 mu = fermi_distribution_double_zero_temp (5 : R) mu * exq nc.
Proof.
  intros H. unfold zp_polarization_quark_l_thermal_part_zero_temp_landau_i. cbv zeta. rewrite energy_34. cbn -[fermi_distribution_double_zero_temp PI2 INR]. change PI2 with (PI * PI).
  unfold exq. assert (INR nc <> 0) by (apply not_0_INR; lia). pose proof PI_neq0. field. auto.
Qed.
Lemma exq_warm nc : (0 < nc)%nat -> zp_polarization_quark_l_thermal_part_landau_i nc 3 (0 : R) 4 (ln 2) 0 = - 6 / (125 * INR nc * (PI * PI)).
Proof.
  intros H. unfold zp_polarization_quark_l_thermal_part_landau_i. cbv zeta. rewrite energy_34. unfold fermi_distribution_double, statistic_distribution_exponential. cbn -[PI2 INR exp]. change PI2 with (PI * PI).
  replace (ln 2 * (5 - 0)) with (ln 2 + ln 2 + ln 2 + ln 2 + ln 2) by ring. replace (ln 2 * (5 - - 0)) with (ln 2 + ln 2 + ln 2 + ln 2 + ln 2) by ring.
  try replace ((5 - 0) * ln 2) with (ln 2 + ln 2 + ln 2 + ln 2 + ln 2) by ring. try replace ((5 - - 0) * ln 2) with (ln 2 + ln 2 + ln 2 + ln 2 + ln 2) by ring.
  rewrite !exp_plus, !exp_ln by lra. assert (INR nc <> 0) by (apply not_0_INR; lia). pose proof PI_neq0. field. auto.
Qed.
Lemma ex_quark : let f nc mu := zp_polarization_quark_l_thermal_part_zero_temp_landau_i nc 3 (0 : R) 4 mu in
  zp_polarization_quark_l_thermal_part_landau_i 3 3 (0 : R) 4 (ln 2) 0 = - 6 / (125 * 3 * (PI * PI)) /\
  zp_polarization_quark_l_thermal_part_landau_i 6 3 (0 : R) 4 (ln 2) 0 = - 6 / (125 * 6 * (PI * PI)) /\
  f 3%nat 6 = - 99 / (125 * 3 * (PI * PI)) /\ f 3%nat (-6) = - 99 / (125 * 3 * (PI * PI)) /\ f 3%nat 4 = 0.
Proof.
  cbv zeta. rewrite !exq_warm, !exq_val by lia. destruct zt_val as (E1 & E2 & E3). rewrite E1, E2, E3. unfold exq.
  replace (INR 3) with 3 by (simpl; ring). replace (INR 6) with 6 by (simpl; ring). repeat split; ring.
Qed.
