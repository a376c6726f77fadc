(** * The Matsubara regulator is removable *)
From Coq Require Import Reals Lra Lia List FunctionalExtensionality.
From Coquelicot Require Import Coquelicot.
From Verif Require Import Num CField MCommon MConsts MThermal MThermalZM MThermalZP MPolar MDress SpecLim SpecInteg SpecInt SpecReg PCplx PDistr PVac PDress2 PInt PLim PLimC PForms PReg PZero PZero2.
Import List ListNotations.
Open Scope R_scope.

Lemma compact_R_eq f : compact_R f = (fun t => f ((1 - t) / t) / (t * t)).
Proof. apply functional_extensionality; intros t. unfold compact_R. now replace (t ^ 2) with (t * t) by ring. Qed.
Lemma right_0 : tends (at_right 0) (fun r => r) 0.
Proof. intros P HP. unfold filtermap, at_right, within. eapply filter_imp; [|exact HP]. auto. Qed.
Lemma right_neq : at_right 0 (fun r => r <> 0).
Proof. unfold at_right, within. apply filter_forall. intros r Hr. lra. Qed.
Lemma punct_0 : tends (locally' 0) (fun r => r) 0.
Proof. intros P HP. unfold filtermap, locally', within. eapply filter_imp; [|exact HP]. auto. Qed.
Lemma punct_neq : locally' 0 (fun r : R => r <> 0).
Proof. unfold locally', within. apply filter_forall. intros r Hr. exact Hr. Qed.

Lemma reg_glue p m beta : 0 < p ->
  Forall (fun x : regulated => let '(v, f, z) := x in
    (forall J g I, v J g I = integrateR J (compact_R (f (g_matsubara_reg g))) 0 1 I) /\
    (forall q, 0 < q -> nonsing q p 0 -> nonsing q p (m * m) -> nonsing q p (- (m * m)) -> tends (at_right 0) (fun r => f r q) (z q)))
  (regulated_glue p m beta).
Proof.
  intros Hp. unfold regulated_glue. repeat apply Forall_cons; try apply Forall_nil; (split; [intros; rewrite compact_R_eq; reflexivity|intros q Hq H0 H1 H2]).
  - exact (proj1 (glue_tends0 (fun r => r) q p beta right_0 right_neq Hq Hp m 1 H0 H1 H2)).
  - exact (proj1 (glue_tends0 (fun r => r) q p beta right_0 right_neq Hq Hp m 2 H0 H1 H2)).
Qed.
Lemma reg_quark nc p mq beta mu : (0 < nc)%nat -> 0 < p ->
  Forall (fun x : regulated => let '(v, f, z) := x in
    (forall J g I, g_nc g = nc -> v J g I = integrateR J (compact_R (f (g_matsubara_reg g))) 0 1 I) /\
    (forall q, 0 < q -> nonsing q p 0 -> tends (at_right 0) (fun r => f r q) (z q)))
  (regulated_quark nc p mq beta mu).
Proof.
  intros Hnc Hp. unfold regulated_quark. repeat apply Forall_cons; try apply Forall_nil; (split; [intros J g I <-; rewrite compact_R_eq; reflexivity|intros q Hq H0]).
  - exact (proj1 (proj1 (quark_tends0 (fun r => r) q p beta right_0 right_neq Hq Hp nc mq mu 0 Hnc H0))).
  - exact (proj1 (proj1 (quark_tends0 (fun r => r) q p beta right_0 right_neq Hq Hp nc mq mu 1 Hnc H0))).
Qed.
Lemma reg_quark0 nc p mq mu : (0 < nc)%nat -> 0 < p ->
  Forall (fun x : regulated => let '(v, f, z) := x in
    (forall J g I, g_nc g = nc -> v J g I = if Rlt_dec (Rabs mu) (Rabs mq) then 0
       else integrateR J (f (g_matsubara_reg g)) 0 (sqrt (mu * mu - mq * mq)) I) /\
    (forall q, 0 < q -> nonsing q p 0 -> tends (at_right 0) (fun r => f r q) (z q)))
  (regulated_quark_zero_temp nc p mq mu).
Proof.
  intros Hnc Hp. unfold regulated_quark_zero_temp. repeat apply Forall_cons; try apply Forall_nil; (split; [intros J g I <-; rewrite <- kF_R; reflexivity|intros q Hq H0]).
  - exact (proj1 (proj2 (quark_tends0 (fun r => r) q p 0 right_0 right_neq Hq Hp nc mq mu 0 Hnc H0))).
  - exact (proj1 (proj2 (quark_tends0 (fun r => r) q p 0 right_0 right_neq Hq Hp nc mq mu 1 Hnc H0))).
Qed.
