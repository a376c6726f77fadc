(** * Real forms of the two-mass integrands at real frequency *)
From Coq Require Import Reals Lra List.
From Coquelicot Require Import Coquelicot.
From Verif Require Import Num CField MCommon MThermal MThermalZM MThermalZP MPolar SpecInteg PCplx PDistr PVac PDress2 PCoh PCoh2 PLogs PMass PMassZ PMass2 PReal.
Import List ListNotations.
Open Scope R_scope.

(** Sums over both signs of the frequency. *)
Definition W (om p e : R) : R := om * (2 * e * om) + 2 * e * (p * p).
Definition X2 (om p e d : R) : R := (om * Sr om p d) * (om * Sr om p d) - W om p e * W om p e.
Definition Y2 (om p e d : R) : R := 2 * (om * Sr om p d) * W om p e.
Definition G0 (q om p e d : R) : R := 2 * LA q om p e d.
Definition Gl (q om p e d : R) : R := 2 * (LA q om p e d * X2 om p e d - PH q om p e d * Y2 om p e d) - om * om * (8 * q * p * Sr om p d).
Definition Gt (q om p e d : R) : R :=
  2 * (LA q om p e d * (Sr om p d * Sr om p d - (2 * e * om) * (2 * e * om) - (2 * q * p) * (2 * q * p)) - PH q om p e d * (2 * Sr om p d * (2 * e * om))) - 8 * q * p * Sr om p d.
Definition GP (q om p e d : R) : R := 2 * (Sr om p d + 2 * q * p) / NP q om p e d.
Definition GM (q om p e d : R) : R := 2 * (Sr om p d - 2 * q * p) / NM q om p e d.
Definition HP (q om p e d : R) : R := 2 * ((Sr om p d + 2 * q * p) * X2 om p e d + (2 * e * om) * Y2 om p e d) / NP q om p e d.
Definition HM (q om p e d : R) : R := 2 * ((Sr om p d - 2 * q * p) * X2 om p e d + (2 * e * om) * Y2 om p e d) / NM q om p e d.
Definition U4 (q om p e d : R) : R := 2 * om * (om * Sr om p d * LA q om p e d - W om p e * PH q om p e d).
Definition U1 (q om p e d : R) : R := 2 * (Sr om p d * LA q om p e d - 2 * e * om * PH q om p e d).

Definition F0 (pi2 q om p n1 e1 n2 e2 d : R) : R := q / (16 * pi2 * p) * (n1 * G0 q om p e1 d + n2 * G0 q om p e2 (- d)).
Definition Fl (pi2 q om p n1 e1 n2 e2 d : R) : R := q / (64 * pi2 * (p * p * p) * (om * om + p * p)) * (n1 * Gl q om p e1 d + n2 * Gl q om p e2 (- d)).
Definition Ft (pi2 q om p n1 e1 n2 e2 d : R) : R := - (q / (128 * pi2 * (p * p * p)) * (n1 * Gt q om p e1 d + n2 * Gt q om p e2 (- d))).
Definition D0 (pi2 q om p n1 e1 n2 e2 d : R) : R :=
  (- (n1 * (GP q om p e1 d + GM q om p e1 d)) + q / p * (n2 * (GP q om p e2 (- d) - GM q om p e2 (- d)) - n1 * (GP q om p e1 d - GM q om p e1 d))) / (16 * pi2).
Definition Dl (pi2 q om p n1 e1 n2 e2 d : R) : R :=
  (- (n1 * (HP q om p e1 d + HM q om p e1 d)) + 4 * (om * om) * n1 * Sr om p d + 8 * (om * om) * (q * q) * (n1 - n2)
   + 2 * (q / p) * (n2 * U4 q om p e2 (- d) - n1 * U4 q om p e1 d)
   + q / p * (n2 * (HP q om p e2 (- d) - HM q om p e2 (- d)) - n1 * (HP q om p e1 d - HM q om p e1 d))) / (64 * pi2 * (p * p) * (om * om + p * p)).
Definition Dt (pi2 q om p n1 e1 n2 e2 d : R) : R :=
  q / (8 * pi2 * p) * (- (n1 * G0 q om p e1 d) / 4 + (n2 - n1) * q / p + (n1 * U1 q om p e1 d - n2 * U1 q om p e2 (- d)) / (8 * (p * p))).

Definition nE (q m beta : R) : R := bose_distribution_zero_chempot (energy q m) beta / energy q m.
Definition dM (m1 m2 : R) : R := m2 * m2 - m1 * m1.

Lemma Cpair x y : (x, y) = (RtoC x + RtoC y * Ci)%C.
Proof. apply Ceq; simpl; ring. Qed.

Section Forms.
Variables (q om p m1 m2 beta : R).
Hypothesis Hq : 0 < q.
Hypothesis Hom : om <> 0.
Hypothesis Hp : 0 < p.
Let e1 := energy q m1.
Let e2 := energy q m2.

Lemma energy_pos' m : 0 < energy q m.
Proof. rewrite energy_R. apply sqrt_lt_R0. nra. Qed.

Ltac prep :=
  pose proof (energy_pos' m1) as He1; pose proof (energy_pos' m2) as He2; assert (Homn : - om <> 0) by lra;
  unfold F0, Fl, Ft, D0, Dl, Dt, nE;
  canon; rewrite ?energy_RC, ?bose_RC; rewrite <- ?(RtoC_opp om);
  replace (RtoC m2 * RtoC m2 - RtoC m1 * RtoC m1)%C with (RtoC (dM m1 m2)) by (unfold dM; now pushRtoC);
  rewrite <- ?(RtoC_opp (dM m1 m2));
  generalize (dM m1 m2); intros d;
  pose proof PI2_neq as Hpi; revert Hpi; generalize PI2; intros pi2 Hpi;
  fold e1 e2; fold e1 in He1; fold e2 in He2;
  generalize (bose_distribution_zero_chempot e1 beta); intros b1; generalize (bose_distribution_zero_chempot e2 beta); intros b2;
  revert He1 He2; generalize e1; generalize e2; clear e1 e2; intros e2 e1 He1 He2;
  rewrite ?(CL_R q om p) by auto; rewrite ?(CL_R q (- om) p) by auto; rewrite ?LA_opp, ?(PH_opp q om p) by auto;
  rewrite ?IP_R, ?IM_R, ?CR_R, ?NP_opp, ?NM_opp, ?Sr_opp;
  rewrite ?Cpair.
Ltac fin := unfold Gl, Gt, G0, GP, GM, HP, HM, U4, U1, X2, Y2, W;
  repeat match goal with
  | |- context [LA q om p ?e ?d] => generalize (LA q om p e d); intros
  | |- context [PH q om p ?e ?d] => generalize (PH q om p e d); intros
  | |- context [NP q om p ?e ?d] => let H := fresh in assert (H : NP q om p e d <> 0) by (apply Rgt_not_eq, NP_pos; auto); apply RtoC_neq0 in H; revert H; generalize (NP q om p e d); intros
  | |- context [NM q om p ?e ?d] => let H := fresh in assert (H : NM q om p e d <> 0) by (apply Rgt_not_eq, NM_pos; auto); apply RtoC_neq0 in H; revert H; generalize (NM q om p e d); intros
  end; unfold Sr; pushRtoC.
Ltac side := assert (Hss := sum_pos om p (Rgt_not_eq _ _ Hp)); rewrite RtoC_mult in Hss;
  repeat match goal with
  | H : ?x <> 0 |- _ => apply RtoC_neq0 in H
  | H : 0 < ?x |- _ => apply Rgt_not_eq, RtoC_neq0 in H
  end;
  repeat split; auto; try (apply RtoC_neq0; lra);
  try (let E := fresh in intros E; match goal with H : ?x <> RtoC 0 |- False => apply H; rewrite <- E; ring end).
Lemma form_0 : i_m_m_i q om p m1 m2 beta = RtoC (F0 PI2 q om p (nE q m1 beta) e1 (nE q m2 beta) e2 (dM m1 m2)).
Proof.
  rewrite i_m_m_i_RRR. prep. fin. field [Ci2]. side.
Qed.
Lemma form_l : i_m_m_l_i q om p m1 m2 beta = RtoC (Fl PI2 q om p (nE q m1 beta) e1 (nE q m2 beta) e2 (dM m1 m2)).
Proof.
  rewrite i_m_m_l_i_RRR. prep. fin. Time field [Ci2]. side.
Qed.
Lemma form_t : i_m_m_t_i q om p m1 m2 beta = RtoC (Ft PI2 q om p (nE q m1 beta) e1 (nE q m2 beta) e2 (dM m1 m2)).
Proof.
  rewrite i_m_m_t_i_RRR. prep. fin. Time field [Ci2]. side.
Qed.
Lemma form_d0 : d_i_m_m_i q om p m1 m2 beta = RtoC (D0 PI2 q om p (nE q m1 beta) e1 (nE q m2 beta) e2 (dM m1 m2)).
Proof.
  rewrite d_i_m_m_i_RRR. prep. fin. Time field [Ci2]. side.
Qed.
Lemma form_dt : d_i_m_m_t_i q om p m1 m2 beta = RtoC (Dt PI2 q om p (nE q m1 beta) e1 (nE q m2 beta) e2 (dM m1 m2)).
Proof.
  rewrite d_i_m_m_t_i_RRR. prep. fin. Time field [Ci2]. side.
Qed.
Lemma form_dl : d_i_m_m_l_i q om p m1 m2 beta = RtoC (Dl PI2 q om p (nE q m1 beta) e1 (nE q m2 beta) e2 (dM m1 m2)).
Proof.
  rewrite d_i_m_m_l_i_RRR. prep. fin. Time field [Ci2]. side.
Qed.
End Forms.
