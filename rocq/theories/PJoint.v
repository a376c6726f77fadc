(** * Joint continuity of the integrands in q, om, p at real frequency *)
From Coq Require Import Reals Lra Lia List.
From Coquelicot Require Import Coquelicot.
From Verif Require Import Num CField MCommon MThermal MThermalZM MThermalZP MPolar SpecInteg PCplx PDistr PVac PDress2 PCoh PCoh2 PLogs PMass PMassZ PMass2 PReal PForms PForms2 PCombo PReg PLim PLimC.
Import List ListNotations.
Open Scope R_scope.

Lemma tends_pos F {FF : Filter F} f a : 0 < a -> tends F f a -> F (fun x => 0 < f x).
Proof. intros Ha H. exact (H (fun y => 0 < y) (open_gt 0 a Ha)). Qed.
Lemma tends_neg F {FF : Filter F} f a : a < 0 -> tends F f a -> F (fun x => f x < 0).
Proof. intros Ha H. exact (H (fun y => y < 0) (open_lt 0 a Ha)). Qed.
Lemma tends_neq F {FF : Filter F} f a : a <> 0 -> tends F f a -> F (fun x => f x <> 0).
Proof. intros Ha H. exact (H (fun y => y <> 0) (open_neq 0 a Ha)). Qed.
Lemma tends_ln F {FF : Filter F} f a : 0 < a -> tends F f a -> tends F (fun x => ln (f x)) (ln a).
Proof. intros Ha. apply tends_comp. now apply continuous_ln. Qed.
Lemma tends_sqrt F {FF : Filter F} f a : tends F f a -> tends F (fun x => sqrt (f x)) (sqrt a).
Proof. apply tends_comp. apply continuous_sqrt. Qed.
Lemma tends_exp F {FF : Filter F} f a : tends F f a -> tends F (fun x => exp (f x)) (exp a).
Proof. apply tends_comp. apply continuous_exp. Qed.
Lemma tends_atan F {FF : Filter F} f a : tends F f a -> tends F (fun x => atan (f x)) (atan a).
Proof. apply tends_comp. apply continuous_atan. Qed.

Section Joint.
Context {F : (R -> Prop) -> Prop} {FF : Filter F}.
Variables (fq fom fp : R -> R) (q om p : R).
Hypothesis Tq : tends F fq q.
Hypothesis Tom : tends F fom om.
Hypothesis Tp : tends F fp p.
Hypothesis Hq : 0 < q.
Hypothesis Hp : 0 < p.

Lemma energy_tends m : tends F (fun x => energy (fq x) m) (energy q m).
Proof.
  apply (tends_ext (fun x => sqrt (m * m + fq x * fq x))). { apply filter_forall. intros x. now rewrite energy_R. }
  apply (tends_eq _ (sqrt (m * m + q * q))); [now rewrite energy_R|]. apply tends_sqrt; auto. tend.
Qed.
Lemma bose_tends fe e beta : beta <> 0 -> e <> 0 -> tends F fe e -> tends F (fun x => bose_distribution_zero_chempot (fe x) beta) (bose_distribution_zero_chempot e beta).
Proof.
  intros Hb He H. unfold bose_distribution_zero_chempot, statistic_distribution_exponential_zero_chempot. numcbn. apply tends_inv.
  - assert (exp (e * beta) <> 1) by (apply exp_neq_1; now apply Rmult_integral_contrapositive_currified). lra.
  - apply tends_minus; [|apply tends_const]. apply tends_exp; auto. tend.
Qed.
Lemma fermi2_tends fe e beta mu : tends F fe e -> tends F (fun x => fermi_distribution_double (fe x) beta mu) (fermi_distribution_double e beta mu).
Proof.
  intros H. unfold fermi_distribution_double, statistic_distribution_exponential. numcbn.
  pose proof (exp_pos ((e - mu) * beta)). pose proof (exp_pos ((e - - mu) * beta)).
  apply tends_plus; (apply tends_inv; [lra|]; apply tends_plus; [apply tends_exp; auto; tend|apply tends_const]).
Qed.
Lemma nE_tends m beta : beta <> 0 -> tends F (fun x => nE (fq x) m beta) (nE q m beta).
Proof.
  intros Hb. unfold nE. pose proof (energy_pos' q Hq m). apply tends_div; [lra| |apply energy_tends].
  apply bose_tends; auto; [lra|apply energy_tends].
Qed.
Lemma n0_tends beta : beta <> 0 -> tends F (fun x => n0 (fq x) beta) (n0 q beta).
Proof. intros Hb. unfold n0. apply tends_div; [lra| |auto]. apply bose_tends; auto. lra. Qed.

Section Log.
Variables (fe : R -> R) (e d : R).
Hypothesis Te : tends F fe e.
Lemma Sr_tends : tends F (fun x => Sr (fom x) (fp x) d) (Sr om p d).
Proof. unfold Sr. tend. Qed.
Lemma NP_tends : tends F (fun x => NP (fq x) (fom x) (fp x) (fe x) d) (NP q om p e d).
Proof. unfold NP. pose proof Sr_tends. tendf. Qed.
Lemma NM_tends : tends F (fun x => NM (fq x) (fom x) (fp x) (fe x) d) (NM q om p e d).
Proof. unfold NM. pose proof Sr_tends. tendf. Qed.
Lemma LA_tends : 0 < NP q om p e d -> 0 < NM q om p e d -> tends F (fun x => LA (fq x) (fom x) (fp x) (fe x) d) (LA q om p e d).
Proof.
  intros H1 H2. unfold LA. apply tends_div; [lra| |apply tends_const]. apply tends_minus; apply tends_ln; auto using NP_tends, NM_tends.
Qed.
Hypothesis Hom : om <> 0.
Hypothesis He : 0 < e.
Lemma PH_tends : tends F (fun x => PH (fq x) (fom x) (fp x) (fe x) d) (PH q om p e d).
Proof.
  unfold PH. apply tends_minus.
  - unfold PT. apply tends_atan; auto. pose proof Sr_tends. eapply tends_div; [|tendf|tendf]. repeat apply Rmult_integral_contrapositive_currified; lra.
  - destruct (Rlt_dec 0 om) as [H|H].
    + apply (tends_ext (fun _ => PI / 2)); [|apply tends_const]. generalize (tends_pos F fom om H Tom). apply filter_imp. intros x Hx.
      destruct (Rlt_dec 0 (fom x)); [auto|lra].
    + apply (tends_ext (fun _ => - (PI / 2))); [|apply tends_const]. assert (H' : om < 0) by lra. generalize (tends_neg F fom om H' Tom). apply filter_imp. intros x Hx.
      destruct (Rlt_dec 0 (fom x)); [lra|auto].
Qed.
End Log.

Hypothesis Hom : om <> 0.
Section Forms.
Variables (fn1 fe1 fn2 fe2 : R -> R) (n1 e1 n2 e2 d : R).
Hypothesis Tn1 : tends F fn1 n1.
Hypothesis Te1 : tends F fe1 e1.
Hypothesis Tn2 : tends F fn2 n2.
Hypothesis Te2 : tends F fe2 e2.
Hypothesis He1 : 0 < e1.
Hypothesis He2 : 0 < e2.
Opaque LA PH NP NM Sr.
Lemma FL_tends pi2 : pi2 <> 0 -> forall n, tends F (fun x => nth n (FL pi2 (fq x) (fom x) (fp x) (fn1 x) (fe1 x) (fn2 x) (fe2 x) d) 0) (nth n (FL pi2 q om p n1 e1 n2 e2 d) 0).
Proof.
  intros Hpi.
  assert (Hp2 : 0 < p * p) by (apply Rmult_lt_0_compat; lra).
  assert (Hs : om * om + p * p <> 0) by (pose proof (Rle_0_sqr om) as Hr; unfold Rsqr in Hr; lra).
  assert (P1 : 0 < NP q om p e1 d) by (apply NP_pos; auto). assert (P2 : 0 < NM q om p e1 d) by (apply NM_pos; auto).
  assert (P3 : 0 < NP q om p e2 (- d)) by (apply NP_pos; auto). assert (P4 : 0 < NM q om p e2 (- d)) by (apply NM_pos; auto).
  pose proof (LA_tends fe1 e1 d Te1 P1 P2) as L1. pose proof (LA_tends fe2 e2 (- d) Te2 P3 P4) as L2.
  pose proof (PH_tends fe1 e1 d Te1 Hom He1) as H1. pose proof (PH_tends fe2 e2 (- d) Te2 Hom He2) as H2.
  pose proof (NP_tends fe1 e1 d Te1) as Q1. pose proof (NM_tends fe1 e1 d Te1) as Q2.
  pose proof (NP_tends fe2 e2 (- d) Te2) as Q3. pose proof (NM_tends fe2 e2 (- d) Te2) as Q4.
  pose proof (Sr_tends d) as S1. pose proof (Sr_tends (- d)) as S2.
  unfold FL. intros [|[|[|[|[|[|[|n]]]]]]]; cbn [nth]; [| | | | | |apply tends_const|apply tends_const];
    unfold F0, Fl, Ft, D0, Dl, Dt, Gl, Gt, G0, GP, GM, HP, HM, U4, U1, X2, Y2, W;
    (* the hypotheses are matched syntactically *)
    tendf; try lra; repeat apply Rmult_integral_contrapositive_currified; lra.
Qed.
Transparent LA PH NP NM Sr.
End Forms.
End Joint.
