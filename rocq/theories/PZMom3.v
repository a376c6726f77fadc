(** * The zero-momentum quark and gluon parts are the limits for p -> 0+ *)
From Coq Require Import Reals Lra Lia List.
From Coquelicot Require Import Coquelicot.
From Verif Require Import Num CField MCommon MThermal MThermalZM MThermalZP MPolar SpecInteg PCplx PDistr PVac PDress2 PCoh PCoh2 PLogs PMass PMassZ PMass2 PReal PForms2 PCombo PComboR SpecLim PLim PLimC PZMom PZMom2.
Import List ListNotations.
Open Scope R_scope.

Section Quark.
Variables (nc : nat) (q : R) (om : C) (mq : R).
Hypothesis Hnc : (0 < nc)%nat.
Hypothesis Hq : 0 < q.
Hypothesis Hom : om <> RtoC 0.
Let e := energy q mq.
Hypothesis Rg : regular0 om (RtoC e) (RtoC 0).
Notation rc := RtoC.
Notation S1 B p := (B q om (RtoC e) (RtoC 0) p + B q (- om)%C (RtoC e) (RtoC 0) p)%C.
Lemma e_pos3 : 0 < e. Proof. unfold e. rewrite energy_R. apply sqrt_lt_R0. nra. Qed.
Definition QL (om : C) (p : R) : C := ((RtoC 1 + RtoC 2 * Ci * RtoC e / om) * BR q om (RtoC e) (RtoC 0) p - RtoC 2 * Ci * RtoC e / om * B0 q om (RtoC e) (RtoC 0) p)%C.
Definition QT (om : C) (p : R) : C := (CR om p e (RtoC 0) * BR q om (RtoC e) (RtoC 0) p / (rc 8 * rc q) - (rc 2 * (om * om + rc p * rc p) + rc 4 * (rc q * rc q)) * B0 q om (RtoC e) (RtoC 0) p / (rc 8 * rc q))%C.
Definition ql (f p : R) : C := (rc (f * (q * q)) / (rc 2 * rc PI2 * rc (INR nc) * rc e) * (om * om + rc p * rc p) * (QL om p + QL (- om)%C p) / (rc 8 * rc q))%C.
Definition qt (f p : R) : C := (- (rc (f * (q * q)) / (rc 4 * rc PI2 * rc (INR nc) * rc e)) * (rc 2 + (QT om p + QT (- om)%C p)))%C.
Lemma nc_neq : rc (INR nc) <> rc 0. Proof. apply RtoC_neq0, not_0_INR. lia. Qed.
Ltac gen := repeat match goal with
  | |- context [CL ?a ?b ?c ?x ?y] => generalize (CL a b c x y); intros
  end.
Ltac prep p Hp := cbv zeta; rewrite ?tlog_same_Cq; numcbn; fold e; assert (Hp' : rc p <> rc 0) by (apply RtoC_neq0; lra);
  pose proof (RtoC_neq0 _ PI2_neq) as Hpi; pose proof nc_neq as Hnc'; pose proof (RtoC_neq0 _ (Rgt_not_eq _ _ e_pos3)) as He; pose proof (RtoC_neq0 _ (Rgt_not_eq _ _ Hq)) as Hq';
  unfold ql, qt, QL, QT, B0, BR; gen; unfold CR; revert Hpi; generalize PI2; intros pi2 Hpi; pushRtoC;
  repeat match goal with |- context [RtoC (fermi_distribution_double ?a ?b ?c)] => generalize (fermi_distribution_double a b c); intros | |- context [RtoC (fermi_distribution_double_zero_temp ?a ?b)] => generalize (fermi_distribution_double_zero_temp a b); intros end.
Ltac sd := repeat split; auto; try (intros X; apply (f_equal fst) in X; simpl in X; lra).
Lemma fq_l p beta mu : 0 < p -> polarization_quark_l_thermal_part_landau_i nc q om p mq beta mu = ql (fermi_distribution_double e beta mu) p.
Proof. intros Hp. unfold polarization_quark_l_thermal_part_landau_i. prep p Hp. field [Ci2]. sd. Qed.
Lemma fq_t p beta mu : 0 < p -> polarization_quark_t_thermal_part_landau_i nc q om p mq beta mu = qt (fermi_distribution_double e beta mu) p.
Proof. intros Hp. unfold polarization_quark_t_thermal_part_landau_i. prep p Hp. field [Ci2]. sd. Qed.
Lemma fq0_l p mu : 0 < p -> polarization_quark_l_thermal_part_zero_temp_landau_i nc q om p mq mu = ql (fermi_distribution_double_zero_temp e mu) p.
Proof. intros Hp. unfold polarization_quark_l_thermal_part_zero_temp_landau_i. prep p Hp. field [Ci2]. sd. Qed.
Lemma fq0_t p mu : 0 < p -> polarization_quark_t_thermal_part_zero_temp_landau_i nc q om p mq mu = qt (fermi_distribution_double_zero_temp e mu) p.
Proof. intros Hp. unfold polarization_quark_t_thermal_part_zero_temp_landau_i. prep p Hp. field [Ci2]. sd. Qed.

Definition qlim (f : R) : C := (rc 2 * rc f * (rc q * rc q) * (rc q * rc q - rc 3 * (rc e * rc e)) / ((om * om + rc 4 * (rc e * rc e)) * rc e * rc 3 * rc PI2 * rc (INR nc)))%C.
Lemma om_e : (om + rc 2 * Ci * rc e)%C <> rc 0 /\ (om - rc 2 * Ci * rc e)%C <> rc 0.
Proof.
  destruct Rg as [A1 A2]. split; intros X.
  - apply A1. unfold CR. transitivity (om * (om + rc 2 * Ci * rc e))%C; [ring|]. rewrite X. ring.
  - apply A2. unfold CR. transitivity (om * (om - rc 2 * Ci * rc e))%C; [ring|]. rewrite X. ring.
Qed.
Lemma om_e2 : (om * om + rc 4 * (rc e * rc e))%C <> rc 0.
Proof.
  destruct om_e as [A1 A2]. replace (om * om + rc 4 * (rc e * rc e))%C with ((om + rc 2 * Ci * rc e) * (om - rc 2 * Ci * rc e))%C by ring [Ci2]. now apply Cmult_neq_0.
Qed.
Lemma CRp0 : CR om (rc 0) (rc e) (rc 0) = (om * (om + rc 2 * Ci * rc e))%C. Proof. unfold CR. ring. Qed.
Lemma CRm0 : CR (- om) (rc 0) (rc e) (rc 0) = (om * (om - rc 2 * Ci * rc e))%C. Proof. unfold CR. ring. Qed.
Lemma opp_om : (- om)%C <> rc 0.
Proof. intros X. apply Hom. replace om with (- - om)%C by ring. rewrite X. ring. Qed.
Lemma q8 : (rc 8 * rc q)%C <> rc 0. Proof. apply Cmult_neq_0; apply RtoC_neq0; lra. Qed.
Ltac fin := unfold qlim; pose proof (RtoC_neq0 _ PI2_neq) as Hpi; pose proof nc_neq as Hnc'; pose proof (RtoC_neq0 _ (Rgt_not_eq _ _ e_pos3)) as He; pose proof (RtoC_neq0 _ (Rgt_not_eq _ _ Hq)) as Hq';
  destruct om_e as [X1 X2]; pose proof om_e2 as X3; 
  replace (om * om + rc 4 * (rc e * rc e))%C with ((om + rc 2 * Ci * rc e) * (om - rc 2 * Ci * rc e))%C by ring [Ci2];
  revert Hpi; generalize PI2; intros pi2 Hpi; rewrite ?CRp0, ?CRm0; pushRtoC.
Lemma q_tl f : tendsC Z0 (ql f) (qlim f).
Proof.
  unfold ql, QL. pose proof (tends_id_right 0) as Ti. pose proof (BR_t q om (rc e) (rc 0) (proj1 Rg)). pose proof (BR_t q (- om)%C (rc e) (rc 0) (proj2 Rg)).
  pose proof (B0_t q om (rc e) (rc 0) (proj1 Rg)). pose proof (B0_t q (- om)%C (rc e) (rc 0) (proj2 Rg)).
  eapply tendsC_eq; [|tendCf; try exact q8; try exact opp_om; try exact Hom]. fin. field [Ci2]. sd.
Qed.
Lemma q_tt f : tendsC Z0 (qt f) (qlim f).
Proof.
  unfold qt, QT. pose proof (tends_id_right 0) as Ti. pose proof (BR_t q om (rc e) (rc 0) (proj1 Rg)). pose proof (BR_t q (- om)%C (rc e) (rc 0) (proj2 Rg)).
  pose proof (B0_t q om (rc e) (rc 0) (proj1 Rg)). pose proof (B0_t q (- om)%C (rc e) (rc 0) (proj2 Rg)). pose proof (Tr om (rc e) (rc 0)). pose proof (Tr (- om)%C (rc e) (rc 0)).
  eapply tendsC_eq; [|tendCf; try exact q8]. fin. field [Ci2]. sd.
Qed.
Ltac zq := cbv zeta; numcbn; fold e; fin; pushRtoC; match goal with |- context [RtoC (fermi_distribution_double e ?b ?m)] => generalize (fermi_distribution_double e b m) | |- context [RtoC (fermi_distribution_double_zero_temp e ?m)] => generalize (fermi_distribution_double_zero_temp e m) end; intros; field [Ci2]; sd.
Lemma zq_l beta mu : toC (zp_polarization_quark_l_thermal_part_landau_i nc q om mq beta mu) = qlim (fermi_distribution_double e beta mu).
Proof. unfold zp_polarization_quark_l_thermal_part_landau_i. zq. Qed.
Lemma zq0_l mu : toC (zp_polarization_quark_l_thermal_part_zero_temp_landau_i nc q om mq mu) = qlim (fermi_distribution_double_zero_temp e mu).
Proof. unfold zp_polarization_quark_l_thermal_part_zero_temp_landau_i. zq. Qed.
End Quark.
