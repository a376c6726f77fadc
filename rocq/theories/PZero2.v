(** * The limit of vanishing frequency: list form *)
From Coq Require Import Reals Lra Lia List.
From Coquelicot Require Import Coquelicot.
From Verif Require Import Num CField MCommon MThermal MThermalZM MThermalZP MPolar SpecInteg PCplx PDistr PVac PDress2 PCoh PCoh2 PLogs PMass PMassZ PMass2 PReal PForms PForms2 PCombo PComboR PReg PLim PLimC PJoint PJoint2 PZero.
Import List ListNotations.
Open Scope R_scope.

Section Limit.
Context {F : (R -> Prop) -> Prop} {FF : Filter F}.
Variables (fom : R -> R) (q p beta : R).
Hypothesis Tom : tends F fom 0.
Hypothesis Nom : F (fun x => fom x <> 0).
Hypothesis Hq : 0 < q.
Hypothesis Hp : 0 < p.

Ltac go Hform Hz := rewrite Hz by auto; rewrite nth_RtoC; eapply tendsC_ext; [apply (filter_imp (fun x => fom x <> 0)); [intros x Hx; symmetry|exact Nom]; apply Hform; auto|];
  apply tendsC_RtoC; apply FL_tends0; rewrite ?Ropp_0, ?Ropp_involutive; auto using PI2_neq.
Lemma mm_tends0 (m1 m2 : R) n : nonsing q p (dM m1 m2) -> nonsing q p (- dM m1 m2) ->
  tendsC F (fun x => nth n (bubbles_mm q (fom x) p m1 m2 beta) (RtoC 0)) (nth n (zm_bubbles_mm q p m1 m2 beta) (RtoC 0)).
Proof. intros H1 H2. go mm_nth zm_mm_form. Qed.
Lemma same_tends0 (m : R) n : nonsing q p 0 -> tendsC F (fun x => nth n (bubbles_same q (fom x) p m beta) (RtoC 0)) (nth n (zm_bubbles_same q p m beta) (RtoC 0)).
Proof. intros H. go same_nth zm_same_form. Qed.
Lemma m0_tends0 (m : R) n : nonsing q p (m * m) -> nonsing q p (- (m * m)) ->
  tendsC F (fun x => nth n (bubbles_m0 q (fom x) p m beta) (RtoC 0)) (nth n (zm_bubbles_m0 q p m beta) (RtoC 0)).
Proof. intros H1 H2. go m0_nth zm_m0_form. Qed.
Lemma zero_tends0 n : nonsing q p 0 -> tendsC F (fun x => nth n (bubbles_0 q (fom x) p beta) (RtoC 0)) (nth n (zm_bubbles_0 q p beta) (RtoC 0)).
Proof. intros H. go zero_nth zm_zero_form. Qed.

Lemma glue_tends0 (m : R) n : nonsing q p 0 -> nonsing q p (m * m) -> nonsing q p (- (m * m)) ->
  tendsC F (fun x => nth n (glue_parts q (fom x) p m beta) (RtoC 0)) (nth n (zm_glue_parts q p m beta) (RtoC 0)).
Proof.
  intros H0 H1 H2. rewrite zm_glue_GLUE. eapply tendsC_ext; [apply filter_forall; intros x; symmetry; rewrite glue_GLUE_R; reflexivity|].
  assert (Hpp : (RtoC p * RtoC p)%C <> RtoC 0) by (rewrite <- RtoC_mult; apply RtoC_neq0, Rgt_not_eq, Rmult_lt_0_compat; lra).
  assert (Ts : tendsC F (fun x => sC (RtoC (fom x)) p) (RtoC p * RtoC p)%C).
  { apply (tendsC_eq _ (RtoC 0 * RtoC 0 + RtoC p * RtoC p)%C); [ring|]. unfold sC. tendCf. }
  apply GLUE_tends; auto using same_tends0, m0_tends0, zero_tends0; try (intros; apply tendsC_const).
  - apply (tendsC_eq _ (/ (RtoC p * RtoC p) * (RtoC 0 * RtoC 0))%C); [ring|]. tendCf; auto.
  - apply (tendsC_eq _ (/ (RtoC p * RtoC p) * (RtoC p * RtoC p))%C); [field; intros E; apply Hpp; rewrite E; ring|]. tendCf; auto.
Qed.

Lemma FQl_tends0 pi2 ncr e f : pi2 <> 0 -> ncr <> 0 -> 0 < e -> nonsing q p 0 -> tends F (fun x => FQl pi2 ncr q (fom x) p e f) (FQl pi2 ncr q 0 p e f).
Proof.
  intros H1 H2 He HN. pose proof (LA_tends0 fom q p Tom e 0 HN) as L. pose proof (PH_tends0 fom q p Tom Nom e 0) as H.
  apply (tends_ext (fun x => - ((fom x * fom x + p * p) * (q * q) * f / (2 * pi2 * ncr * (p * p) * e))
    * (1 - ((fom x * fom x + p * p - 4 * (e * e)) * LA q (fom x) p e 0 - 4 * e * (fom x * PH q (fom x) p e 0)) / (4 * q * p)))).
  { apply filter_forall. intros x. unfold FQl. do 4 f_equal. ring. }
  apply (tends_eq _ (- ((0 * 0 + p * p) * (q * q) * f / (2 * pi2 * ncr * (p * p) * e))
    * (1 - ((0 * 0 + p * p - 4 * (e * e)) * LA q 0 p e 0 - 4 * e * 0) / (4 * q * p)))).
  { unfold FQl. do 4 f_equal. ring. }
  apply tends_mult; [tendf; repeat apply Rmult_integral_contrapositive_currified; lra|].
  apply tends_minus; [tendf|]. apply tends_div; [repeat apply Rmult_integral_contrapositive_currified; lra| |tendf].
  apply tends_minus; [tendf|]. apply tends_mult; [tendf|assumption].
Qed.
Lemma FQt_tends0 pi2 ncr e f : pi2 <> 0 -> ncr <> 0 -> 0 < e -> nonsing q p 0 -> tends F (fun x => FQt pi2 ncr q (fom x) p e f) (FQt pi2 ncr q 0 p e f).
Proof.
  intros H1 H2 He HN. pose proof (LA_tends0 fom q p Tom e 0 HN) as L. pose proof (PH_tends0 fom q p Tom Nom e 0) as H.
  apply (tends_ext (fun x => - (f * (q * q) / (4 * pi2 * ncr * (p * p) * e))
  * (p * p - fom x * fom x - (((p * p - fom x * fom x) * (fom x * fom x + p * p) + 4 * (q * q) * (p * p) + 4 * (fom x * fom x) * (e * e)) * LA q (fom x) p e 0
      + 4 * (fom x * fom x + p * p) * e * (fom x * PH q (fom x) p e 0)) / (4 * q * p)))).
  { apply filter_forall. intros x. unfold FQt. do 4 f_equal. ring. }
  apply (tends_eq _ (- (f * (q * q) / (4 * pi2 * ncr * (p * p) * e))
  * (p * p - 0 * 0 - (((p * p - 0 * 0) * (0 * 0 + p * p) + 4 * (q * q) * (p * p) + 4 * (0 * 0) * (e * e)) * LA q 0 p e 0
      + 4 * (0 * 0 + p * p) * e * 0) / (4 * q * p)))).
  { unfold FQt. do 4 f_equal. ring. }
  apply tends_mult; [tendf; repeat apply Rmult_integral_contrapositive_currified; lra|].
  apply tends_minus; [tendf|]. apply tends_div; [repeat apply Rmult_integral_contrapositive_currified; lra| |tendf].
  apply tends_plus; [tendf|]. apply tends_mult; [tendf|assumption].
Qed.
Lemma quark_tends0 nc (mq mu : R) n : (0 < nc)%nat -> nonsing q p 0 ->
  tendsC F (fun x => nth n (quark_parts nc q (fom x) p mq beta mu) (RtoC 0)) (nth n (zm_quark_parts nc q p mq beta mu) (RtoC 0)) /\
  tendsC F (fun x => nth n (quark_parts_zero_temp nc q (fom x) p mq mu) (RtoC 0)) (nth n (zm_quark_parts_zero_temp nc q p mq mu) (RtoC 0)).
Proof.
  intros Hnc HN. assert (Hn : INR nc <> 0) by (apply not_0_INR; lia). pose proof (energy_pos' q Hq mq) as He.
  unfold quark_parts, quark_parts_zero_temp, zm_quark_parts, zm_quark_parts_zero_temp. numcbn.
  rewrite zm_quark_l_form, zm_quark_t_form, zm_quark0_l_form, zm_quark0_t_form by auto.
  destruct n as [|[|[|n]]]; cbn [nth]; split; try apply tendsC_const.
  - eapply tendsC_ext; [apply (filter_imp (fun x => fom x <> 0)); [intros x Hx; symmetry|exact Nom]; now apply quark_l_form|]. apply tendsC_RtoC, FQl_tends0; auto using PI2_neq.
  - eapply tendsC_ext; [apply (filter_imp (fun x => fom x <> 0)); [intros x Hx; symmetry|exact Nom]; now apply quark0_l_form|]. apply tendsC_RtoC, FQl_tends0; auto using PI2_neq.
  - eapply tendsC_ext; [apply (filter_imp (fun x => fom x <> 0)); [intros x Hx; symmetry|exact Nom]; now apply quark_t_form|]. apply tendsC_RtoC, FQt_tends0; auto using PI2_neq.
  - eapply tendsC_ext; [apply (filter_imp (fun x => fom x <> 0)); [intros x Hx; symmetry|exact Nom]; now apply quark0_t_form|]. apply tendsC_RtoC, FQt_tends0; auto using PI2_neq.
Qed.
End Limit.
