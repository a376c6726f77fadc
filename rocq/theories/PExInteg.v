(** * Concrete cases for the properties of the integrands *)
From Coq Require Import Reals Lra Lia List.
From Coquelicot Require Import Coquelicot.
From Verif Require Import Num CField MCommon MThermal MThermalZM MThermalZP MPolar SpecLim SpecInteg PCplx PDistr PVac PLogs PLim PLimC PReal PForms PForms2 PMass2 PReg PZero PZero2 PRegulator.
Import List ListNotations.
Open Scope R_scope.

(** The logarithm at q = om = p = en = 1: its argument is 1 - 2i. *)
Lemma ex_tlog : tlog 1 (1 : R) 1 (1 : R) (0 : R) = Cln (1, -2).
Proof.
  unfold tlog, r_0. numcbn. f_equal. apply Ceq; simpl; field; lra.
Qed.
Lemma ln5 : LA 1 1 1 1 0 = ln 5 / 2.
Proof. unfold LA, NP, NM, Sr. rewrite <- ln_div by lra. do 2 f_equal. field. Qed.
Lemma bose_val (x b : R) : bose_distribution_zero_chempot x b = / (exp (x * b) - 1).
Proof. reflexivity. Qed.
Lemma exp_m1 x : 0 < x -> exp x - 1 <> 0.
Proof. intros H. pose proof (exp_ineq1 x). lra. Qed.
Lemma ex_massless : i_0_0_i 1 (1 : R) 1 1 = RtoC (ln 5 / (8 * (PI * PI) * (exp 1 - 1))).
Proof.
  pose proof (zero_form 1 1 1 1 ltac:(lra) ltac:(lra) ltac:(lra)) as H. unfold bubbles_0, FL in H. cbn [map] in H.
  apply (f_equal (fun l => nth 0 l (RtoC 0))) in H. cbn [nth] in H. rewrite H. f_equal. unfold F0, G0, n0. replace (- 0) with 0 by ring. rewrite ln5, bose_val, !Rmult_1_r.
  change PI2 with (PI * PI). pose proof PI_neq0. pose proof (exp_m1 1 ltac:(lra)). field. repeat split; auto.
Qed.
Lemma energy_34 : energy 3 (4 : R) = 5.
Proof. rewrite energy_R. replace (4 * 4 + 3 * 3) with (5 * 5) by ring. apply sqrt_square. lra. Qed.
Lemma energy_30 : energy 3 (0 : R) = 3.
Proof. apply energy_0R. lra. Qed.
Lemma LA1 : LA 3 1 1 5 (- (4 * 4)) = ln (41 / 125) / 2.
Proof. unfold LA, NP, NM, Sr. rewrite <- ln_div by lra. do 2 f_equal. field. Qed.
Lemma LA2 : LA 3 1 1 3 (4 * 4) = ln (17 / 5) / 2.
Proof. unfold LA, NP, NM, Sr. rewrite <- ln_div by lra. do 2 f_equal. field. Qed.
Definition exval : R := 3 / (16 * (PI * PI)) * (ln (41 / 125) / (5 * (exp 5 - 1)) + ln (17 / 5) / (3 * (exp 3 - 1))).
Lemma ex_m0 : i_m_0_i 3 (1 : R) 1 (4 : R) 1 = RtoC exval.
Proof.
  pose proof (m0_form 3 1 1 1 ltac:(lra) ltac:(lra) ltac:(lra) 4) as H. unfold bubbles_m0, FL in H. cbn [map] in H.
  apply (f_equal (fun l => nth 0 l (RtoC 0))) in H. cbn [nth] in H. rewrite H. f_equal. unfold F0, G0, n0, nE, exval. rewrite energy_34, !bose_val, !Rmult_1_r.
  rewrite Ropp_involutive, LA1, LA2. change PI2 with (PI * PI). pose proof PI_neq0. pose proof (exp_m1 5 ltac:(lra)). pose proof (exp_m1 3 ltac:(lra)). field. repeat split; auto.
Qed.
Lemma ex_m0_mm : i_m_m_i 3 (1 : R) 1 (4 : R) (0 : R) 1 = RtoC exval.
Proof.
  destruct (special_R 3 1 4 1 1 ltac:(lra) ltac:(lra)) as (_ & H & _). apply (f_equal (fun l => nth 0 l (RtoC 0))) in H. unfold bubbles_mm, bubbles_m0 in H. cbn [nth] in H.
  rewrite H. apply ex_m0.
Qed.
Lemma ex_0m_mm : i_m_m_i 3 (1 : R) 1 (0 : R) (4 : R) 1 = RtoC exval.
Proof. rewrite (proj1 (symm_RRR 3 1 0 4 1 1)). apply ex_m0_mm. Qed.

(** Zero frequency. *)
Lemma ln_sq x : 0 < x -> ln (x * x) = 2 * ln x.
Proof. intros H. rewrite ln_mult by auto. ring. Qed.
Lemma LA1z : LA 3 0 1 5 (- (4 * 4)) = ln (3 / 7).
Proof.
  unfold LA, NP, NM, Sr. rewrite <- ln_div by lra. replace ((_ + _) / (_ + _)) with (3 / 7 * (3 / 7)) by field. rewrite ln_sq by lra. field.
Qed.
Lemma LA2z : LA 3 0 1 3 (4 * 4) = ln (23 / 11).
Proof.
  unfold LA, NP, NM, Sr. rewrite <- ln_div by lra. replace ((_ + _) / (_ + _)) with (23 / 11 * (23 / 11)) by field. rewrite ln_sq by lra. field.
Qed.
Definition exvalz : R := 3 / (8 * (PI * PI)) * (ln (3 / 7) / (5 * (exp 5 - 1)) + ln (23 / 11) / (3 * (exp 3 - 1))).
Lemma ns : nonsing 3 1 (4 * 4) /\ nonsing 3 1 (- (4 * 4)).
Proof. unfold nonsing. repeat split; lra. Qed.
Lemma ex_zero : zm_i_m_0_i 3 1 (4 : R) 1 = RtoC exvalz /\ tendsC (locally' 0) (fun om => i_m_0_i 3 om 1 (4 : R) 1) (RtoC exvalz).
Proof.
  destruct ns as [N1 N2].
  pose proof (zm_m0_form 3 1 1 ltac:(lra) ltac:(lra) 4 N1 N2) as H. unfold zm_bubbles_m0, FL in H. cbn [map] in H.
  apply (f_equal (fun l => nth 0 l (RtoC 0))) in H. cbn [nth] in H.
  assert (E : zm_i_m_0_i 3 1 (4 : R) 1 = RtoC exvalz).
  { rewrite H. f_equal. unfold F0, G0, n0, nE, exvalz. rewrite energy_34, !bose_val, !Rmult_1_r.
    rewrite Ropp_involutive, LA1z, LA2z. change PI2 with (PI * PI). pose proof PI_neq0. pose proof (exp_m1 5 ltac:(lra)). pose proof (exp_m1 3 ltac:(lra)). field. repeat split; auto. }
  split; [exact E|]. rewrite <- E. exact (m0_tends0 (fun r => r) 3 1 1 punct_0 punct_neq ltac:(lra) ltac:(lra) 4 0 N1 N2).
Qed.

(** Quark polarization at zero temperature: momentum 3, mass 4, energy 5, chemical potential 6. *)
Lemma LAq : LA 3 0 1 5 0 = ln (7 / 5).
Proof.
  unfold LA, NP, NM, Sr. rewrite <- ln_div by lra. replace ((_ + _) / (_ + _)) with (7 / 5 * (7 / 5)) by field. rewrite ln_sq by lra. field.
Qed.
Lemma ex_reg : let v := - (3 / (10 * (PI * PI))) * (1 + 33 / 4 * ln (7 / 5)) in
  zm_polarization_quark_l_thermal_part_zero_temp_landau_i 3 3 1 4 6 = v /\
  tends (at_right 0) (fun r => fst (polarization_quark_l_thermal_part_zero_temp_landau_i 3 3 r 1 4 6)) v.
Proof.
  assert (N : nonsing 3 1 0) by (unfold nonsing; lra).
  assert (E : zm_polarization_quark_l_thermal_part_zero_temp_landau_i 3 3 1 4 6 = - (3 / (10 * (PI * PI))) * (1 + 33 / 4 * ln (7 / 5))).
  { rewrite zm_quark0_l_form by (auto; try lra; lia). rewrite energy_34, occ_inside by (try rewrite Rabs_right; lra). unfold FQl. rewrite LAq.
    change PI2 with (PI * PI). pose proof PI_neq0. replace (INR 3) with 3 by (cbn; lra). field. auto. }
  split; [exact E|]. rewrite <- E.
  exact (proj1 (proj2 (quark_tends0 (fun r => r) 3 1 0 right_0 right_neq ltac:(lra) ltac:(lra) 3 4 6 0 ltac:(lia) N))).
Qed.
Lemma ex_mixed : i_m_m_i 3 (RtoC 1) 1 (4 : R) (RtoC 0) 1 = RtoC exval.
Proof.
  pose proof (mm_CRC 3 (RtoC 1) 1 4 (RtoC 0) 1) as H1. pose proof (mm_RRR 3 1 1 4 0 1) as H2. rewrite <- H2 in H1.
  apply (f_equal (fun l => nth 0 l (RtoC 0))) in H1. unfold bubbles_mm in H1. cbn [nth] in H1. rewrite H1. apply ex_m0_mm.
Qed.
