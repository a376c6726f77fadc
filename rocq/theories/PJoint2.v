(** * Joint continuity of the integrands: list form *)
From Coq Require Import Reals Lra Lia List.
From Coquelicot Require Import Coquelicot.
From Verif Require Import Num CField MCommon MThermal MThermalZM MThermalZP MPolar SpecInteg PCplx PDistr PVac PDress2 PCoh PCoh2 PLogs PMass PMassZ PMass2 PReal PForms PForms2 PCombo PComboR PReg PLim PLimC PJoint.
Import List ListNotations.
Open Scope R_scope.

Lemma nth_RtoC n l : nth n (map RtoC l) (RtoC 0) = RtoC (nth n l 0).
Proof. exact (map_nth RtoC l 0 n). Qed.

Section Nth.
Variables (q om p beta : R).
Hypothesis Hq : 0 < q.
Hypothesis Hom : om <> 0.
Hypothesis Hp : 0 < p.
Lemma mm_nth (m1 m2 : R) n : nth n (bubbles_mm q om p m1 m2 beta) (RtoC 0) = RtoC (nth n (FL PI2 q om p (nE q m1 beta) (energy q m1) (nE q m2 beta) (energy q m2) (dM m1 m2)) 0).
Proof. rewrite mm_form by auto. apply nth_RtoC. Qed.
Lemma same_nth (m : R) n : nth n (bubbles_same q om p m beta) (RtoC 0) = RtoC (nth n (FL PI2 q om p (nE q m beta) (energy q m) (nE q m beta) (energy q m) 0) 0).
Proof. rewrite same_form by auto. apply nth_RtoC. Qed.
Lemma m0_nth (m : R) n : nth n (bubbles_m0 q om p m beta) (RtoC 0) = RtoC (nth n (FL PI2 q om p (nE q m beta) (energy q m) (n0 q beta) q (- (m * m))) 0).
Proof. rewrite m0_form by auto. apply nth_RtoC. Qed.
Lemma zero_nth n : nth n (bubbles_0 q om p beta) (RtoC 0) = RtoC (nth n (FL PI2 q om p (n0 q beta) q (n0 q beta) q 0) 0).
Proof. rewrite zero_form by auto. apply nth_RtoC. Qed.
End Nth.

Section Joint.
Context {F : (R -> Prop) -> Prop} {FF : Filter F}.
Variables (fq fom fp : R -> R) (q om p beta : R).
Hypothesis Tq : tends F fq q.
Hypothesis Tom : tends F fom om.
Hypothesis Tp : tends F fp p.
Hypothesis Hq : 0 < q.
Hypothesis Hom : om <> 0.
Hypothesis Hp : 0 < p.
Hypothesis Hbeta : beta <> 0.

Lemma ev : F (fun x => 0 < fq x /\ fom x <> 0 /\ 0 < fp x).
Proof.
  apply filter_and; [now apply (tends_pos F fq q)|]. apply filter_and; [now apply (tends_neq F fom om)|now apply (tends_pos F fp p)].
Qed.
Ltac go Hform := eapply tendsC_ext; [generalize ev; apply filter_imp; intros x (H1 & H2 & H3); symmetry; apply Hform; auto|];
  rewrite Hform by auto; apply tendsC_RtoC; apply FL_tends; auto using PI2_neq, nE_tends, energy_tends, n0_tends, energy_pos'.
Lemma mm_joint (m1 m2 : R) n : tendsC F (fun x => nth n (bubbles_mm (fq x) (fom x) (fp x) m1 m2 beta) (RtoC 0)) (nth n (bubbles_mm q om p m1 m2 beta) (RtoC 0)).
Proof. go mm_nth. Qed.
Lemma same_joint (m : R) n : tendsC F (fun x => nth n (bubbles_same (fq x) (fom x) (fp x) m beta) (RtoC 0)) (nth n (bubbles_same q om p m beta) (RtoC 0)).
Proof. go same_nth. Qed.
Lemma m0_joint (m : R) n : tendsC F (fun x => nth n (bubbles_m0 (fq x) (fom x) (fp x) m beta) (RtoC 0)) (nth n (bubbles_m0 q om p m beta) (RtoC 0)).
Proof. go m0_nth. Qed.
Lemma zero_joint n : tendsC F (fun x => nth n (bubbles_0 (fq x) (fom x) (fp x) beta) (RtoC 0)) (nth n (bubbles_0 q om p beta) (RtoC 0)).
Proof. go zero_nth. Qed.

Lemma tadpole_joint (m : R) n : tends F (fun x => nth n (tadpoles (fq x) m beta) 0) (nth n (tadpoles q m beta) 0).
Proof.
  pose proof (energy_tends fq q Tq m) as Te. pose proof (energy_pos' q Hq m) as He.
  assert (B : tends F (fun x => bose_distribution_zero_chempot (energy (fq x) m) beta) (bose_distribution_zero_chempot (energy q m) beta)) by (apply bose_tends; auto; lra).
  assert (B' : tends F (fun x => bose_distribution_zero_chempot (- energy (fq x) m) beta) (bose_distribution_zero_chempot (- energy q m) beta)).
  { apply bose_tends; auto; [lra|]. now apply tends_opp. }
  assert (Hpi := PI2_neq).
  assert (Hee : energy q m * energy q m * energy q m <> 0) by (repeat apply Rmult_integral_contrapositive_currified; lra).
  unfold tadpoles. destruct n as [|[|[|[|[|[|[|[|[|[|n]]]]]]]]]]; cbn [nth]; [| | | | | | | | |apply tends_const|apply tends_const].
  all: unfold j_m_i, j_m_l_i, j_m_t_i, d_j_m_i, d_j_m_l_i, d_j_m_t_i, d2_j_m_i, d2_j_m_l_i, d2_j_m_t_i; numcbn; tendf.
  all: revert Hpi; generalize PI2; intros pi2 Hpi; repeat apply Rmult_integral_contrapositive_currified; lra.
Qed.
Lemma tadpole_jointC (m : R) n : tendsC F (fun x => nth n (map RtoC (tadpoles (fq x) m beta)) (RtoC 0)) (nth n (map RtoC (tadpoles q m beta)) (RtoC 0)).
Proof.
  rewrite nth_RtoC. apply (tendsC_ext (fun x => RtoC (nth n (tadpoles (fq x) m beta) 0))); [apply filter_forall; intros x; now rewrite nth_RtoC|].
  apply tendsC_RtoC, tadpole_joint.
Qed.
Lemma tadpole0_jointC n : tendsC F (fun x => nth n (map RtoC (tadpoles_0 (fq x) beta)) (RtoC 0)) (nth n (map RtoC (tadpoles_0 q beta)) (RtoC 0)).
Proof.
  rewrite <- tadpoles_0_R by auto. apply (tendsC_ext (fun x => nth n (map RtoC (tadpoles (fq x) 0 beta)) (RtoC 0))); [|apply tadpole_jointC].
  generalize ev. apply filter_imp. intros x (H & _). now rewrite tadpoles_0_R.
Qed.
Lemma glue_joint (m : R) n : tendsC F (fun x => nth n (glue_parts (fq x) (fom x) (fp x) m beta) (RtoC 0)) (nth n (glue_parts q om p m beta) (RtoC 0)).
Proof.
  rewrite glue_GLUE_R. eapply tendsC_ext; [apply filter_forall; intros x; rewrite glue_GLUE_R; reflexivity|].
  assert (Hs : sC (RtoC om) p <> RtoC 0) by (unfold sC; rewrite <- (RtoC_mult p p); apply sum_pos; lra).
  assert (Ts : tendsC F (fun x => sC (RtoC (fom x)) (fp x)) (sC (RtoC om) p)) by (unfold sC; tendCf).
  apply GLUE_tends; auto using same_joint, m0_joint, zero_joint, tadpole_jointC, tadpole0_jointC; tendCf; auto.
Qed.

Lemma FQl_tends pi2 ncr fe e ff f : pi2 <> 0 -> ncr <> 0 -> 0 < e -> tends F fe e -> tends F ff f ->
  tends F (fun x => FQl pi2 ncr (fq x) (fom x) (fp x) (fe x) (ff x)) (FQl pi2 ncr q om p e f).
Proof.
  intros H1 H2 He Te Tf.
  assert (P1 : 0 < NP q om p e 0) by (apply NP_pos; auto). assert (P2 : 0 < NM q om p e 0) by (apply NM_pos; auto).
  pose proof (LA_tends fq fom fp q om p Tq Tom Tp fe e 0 Te P1 P2) as L1.
  assert (L2 : tends F (fun x => PH (fq x) (fom x) (fp x) (fe x) 0) (PH q om p e 0)) by (apply PH_tends; auto).
  unfold FQl. tendf; repeat apply Rmult_integral_contrapositive_currified; lra.
Qed.
Lemma FQt_tends pi2 ncr fe e ff f : pi2 <> 0 -> ncr <> 0 -> 0 < e -> tends F fe e -> tends F ff f ->
  tends F (fun x => FQt pi2 ncr (fq x) (fom x) (fp x) (fe x) (ff x)) (FQt pi2 ncr q om p e f).
Proof.
  intros H1 H2 He Te Tf.
  assert (P1 : 0 < NP q om p e 0) by (apply NP_pos; auto). assert (P2 : 0 < NM q om p e 0) by (apply NM_pos; auto).
  pose proof (LA_tends fq fom fp q om p Tq Tom Tp fe e 0 Te P1 P2) as L1.
  assert (L2 : tends F (fun x => PH (fq x) (fom x) (fp x) (fe x) 0) (PH q om p e 0)) by (apply PH_tends; auto).
  unfold FQt. tendf; repeat apply Rmult_integral_contrapositive_currified; lra.
Qed.
Lemma quark_joint nc (mq mu : R) n : (0 < nc)%nat -> tendsC F (fun x => nth n (quark_parts nc (fq x) (fom x) (fp x) mq beta mu) (RtoC 0)) (nth n (quark_parts nc q om p mq beta mu) (RtoC 0)).
Proof.
  intros Hnc. assert (Hn : INR nc <> 0) by (apply not_0_INR; lia). pose proof (energy_tends fq q Tq mq) as Te. pose proof (energy_pos' q Hq mq) as He.
  pose proof (fermi2_tends _ _ beta mu Te) as Tf.
  unfold quark_parts. destruct n as [|[|[|n]]]; cbn [nth]; [| |apply tendsC_const|apply tendsC_const].
  - rewrite quark_l_form by auto. eapply tendsC_ext; [generalize ev; apply filter_imp; intros x (H1 & H2 & H3); symmetry; now apply quark_l_form|].
    apply tendsC_RtoC, FQl_tends; auto using PI2_neq.
  - rewrite quark_t_form by auto. eapply tendsC_ext; [generalize ev; apply filter_imp; intros x (H1 & H2 & H3); symmetry; now apply quark_t_form|].
    apply tendsC_RtoC, FQt_tends; auto using PI2_neq.
Qed.
End Joint.
