(** * Real forms of the special-mass bubbles and of the quark polarization *)
From Coq Require Import Reals Lra Lia List.
From Coquelicot Require Import Coquelicot.
From Verif Require Import Num CField MCommon MThermal MThermalZM MThermalZP MPolar SpecInteg PCplx PDistr PVac PDress2 PCoh PCoh2 PLogs PMass PMassZ PMass2 PReal PForms.
Import List ListNotations.
Open Scope R_scope.

Definition FL (pi2 q om p n1 e1 n2 e2 d : R) : list R :=
  [F0 pi2 q om p n1 e1 n2 e2 d; Fl pi2 q om p n1 e1 n2 e2 d; Ft pi2 q om p n1 e1 n2 e2 d;
   D0 pi2 q om p n1 e1 n2 e2 d; Dl pi2 q om p n1 e1 n2 e2 d; Dt pi2 q om p n1 e1 n2 e2 d].
Definition n0 (q beta : R) : R := bose_distribution_zero_chempot q beta / q.

Lemma nE_0 q beta : 0 < q -> nE q 0 beta = n0 q beta.
Proof. intros H. unfold nE, n0. now rewrite energy_0R. Qed.
Lemma dM_same m : dM m m = 0. Proof. unfold dM. ring. Qed.
Lemma dM_m0 m : dM m 0 = - (m * m). Proof. unfold dM. ring. Qed.

Section Forms.
Variables (q om p beta : R).
Hypothesis Hq : 0 < q.
Hypothesis Hom : om <> 0.
Hypothesis Hp : 0 < p.
Lemma mm_form m1 m2 : bubbles_mm q om p m1 m2 beta =
  map RtoC (FL PI2 q om p (nE q m1 beta) (energy q m1) (nE q m2 beta) (energy q m2) (dM m1 m2)).
Proof.
  unfold bubbles_mm, FL. cbn [map].
  now rewrite form_0, form_l, form_t, form_d0, form_dl, form_dt.
Qed.
Lemma same_form m : bubbles_same q om p m beta = map RtoC (FL PI2 q om p (nE q m beta) (energy q m) (nE q m beta) (energy q m) 0).
Proof.
  destruct (special_R q om m p beta Hq (Rgt_not_eq _ _ Hp)) as (H & _). rewrite <- H, mm_form. now rewrite dM_same.
Qed.
Lemma m0_form m : bubbles_m0 q om p m beta = map RtoC (FL PI2 q om p (nE q m beta) (energy q m) (n0 q beta) q (- (m * m))).
Proof.
  destruct (special_R q om m p beta Hq (Rgt_not_eq _ _ Hp)) as (_ & H & _). rewrite <- H, mm_form. now rewrite dM_m0, nE_0, energy_0R.
Qed.
Lemma zero_form : bubbles_0 q om p beta = map RtoC (FL PI2 q om p (n0 q beta) q (n0 q beta) q 0).
Proof.
  destruct (special_R q om 0 p beta Hq (Rgt_not_eq _ _ Hp)) as (_ & _ & H). rewrite <- H, m0_form. rewrite nE_0, energy_0R by auto.
  replace (- (0 * 0)) with 0 by ring. reflexivity.
Qed.
End Forms.

(** Quark polarization; [f] is the occupation number. *)
Definition FQl (pi2 ncr q om p e f : R) : R :=
  - ((om * om + p * p) * (q * q) * f / (2 * pi2 * ncr * (p * p) * e))
  * (1 - ((om * om + p * p - 4 * (e * e)) * LA q om p e 0 - 4 * om * e * PH q om p e 0) / (4 * q * p)).
Definition FQt (pi2 ncr q om p e f : R) : R :=
  - (f * (q * q) / (4 * pi2 * ncr * (p * p) * e))
  * (p * p - om * om - (((p * p - om * om) * (om * om + p * p) + 4 * (q * q) * (p * p) + 4 * (om * om) * (e * e)) * LA q om p e 0
      + 4 * om * (om * om + p * p) * e * PH q om p e 0) / (4 * q * p)).

Section Quark.
Variables (nc : nat) (q om p mq : R).
Hypothesis Hnc : (0 < nc)%nat.
Hypothesis Hq : 0 < q.
Hypothesis Hom : om <> 0.
Hypothesis Hp : 0 < p.
Ltac qprep :=
  rewrite ?tlog_same_Cq; assert (He : 0 < energy q mq) by (apply energy_pos'; auto); assert (Homn : - om <> 0) by lra;
  assert (Hn : INR nc <> 0) by (apply not_0_INR; lia);
  numcbn; rewrite <- ?(RtoC_opp om);
  revert He; generalize (energy q mq); intros e He;
  pose proof PI2_neq as Hpi; revert Hpi; generalize PI2; intros pi2 Hpi; revert Hn; generalize (INR nc); intros ncr Hn;
  rewrite ?(CL_R q om p) by auto; rewrite ?(CL_R q (- om) p) by auto; rewrite ?LA_opp, ?(PH_opp q om p) by auto;
  rewrite ?Cpair; 
  repeat match goal with
  | |- context [LA q om p ?e ?d] => generalize (LA q om p e d); intros
  | |- context [PH q om p ?e ?d] => generalize (PH q om p e d); intros
  end;
  match goal with |- context [fermi_distribution_double ?a ?b ?c] => generalize (fermi_distribution_double a b c); intros
   | |- context [fermi_distribution_double_zero_temp ?a ?b] => generalize (fermi_distribution_double_zero_temp a b); intros end;
  rewrite ?RtoC_inv_all, ?RtoC_div'; pushRtoC.
Ltac side := 
  repeat match goal with
  | H : ?x <> 0 |- _ => apply RtoC_neq0 in H
  | H : 0 < ?x |- _ => apply Rgt_not_eq, RtoC_neq0 in H
  end;
  repeat split; auto; try (apply RtoC_neq0; lra).
Lemma quark_l_form beta mu : polarization_quark_l_thermal_part_landau_i nc q om p mq beta mu =
  RtoC (FQl PI2 (INR nc) q om p (energy q mq) (fermi_distribution_double (energy q mq) beta mu)).
Proof. rewrite quark_l_R. unfold polarization_quark_l_thermal_part_landau_i, FQl. qprep. field [Ci2]. side. Qed.
Lemma quark_t_form beta mu : polarization_quark_t_thermal_part_landau_i nc q om p mq beta mu =
  RtoC (FQt PI2 (INR nc) q om p (energy q mq) (fermi_distribution_double (energy q mq) beta mu)).
Proof. rewrite quark_t_R. unfold polarization_quark_t_thermal_part_landau_i, FQt. qprep. field [Ci2]. side. Qed.
Lemma quark0_l_form mu : polarization_quark_l_thermal_part_zero_temp_landau_i nc q om p mq mu =
  RtoC (FQl PI2 (INR nc) q om p (energy q mq) (fermi_distribution_double_zero_temp (energy q mq) mu)).
Proof. rewrite quark0_l_R. unfold polarization_quark_l_thermal_part_zero_temp_landau_i, FQl. qprep. field [Ci2]. side. Qed.
Lemma quark0_t_form mu : polarization_quark_t_thermal_part_zero_temp_landau_i nc q om p mq mu =
  RtoC (FQt PI2 (INR nc) q om p (energy q mq) (fermi_distribution_double_zero_temp (energy q mq) mu)).
Proof. rewrite quark0_t_R. unfold polarization_quark_t_thermal_part_zero_temp_landau_i, FQt. qprep. field [Ci2]. side. Qed.
End Quark.
