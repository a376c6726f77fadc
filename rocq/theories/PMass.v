(** * Mass specialisations and mass symmetry of the integrands *)
From Coq Require Import Reals Lra List.
From Coquelicot Require Import Coquelicot.
From Verif Require Import Num CField MCommon MThermal MThermalZM MThermalZP MPolar SpecInteg PCplx PDistr PVac PDress2 PCoh PLogs.
Import List ListNotations.
Open Scope R_scope.

Lemma RtoC_sum0 (om : C) (p : R) : (om * om + RtoC (p * p))%C <> RtoC 0 -> (om * om + RtoC p * RtoC p)%C <> RtoC 0.
Proof. now rewrite RtoC_mult. Qed.
Lemma RtoC_neq0 x : x <> 0 -> RtoC x <> RtoC 0.
Proof. apply RtoC_neq. Qed.

Lemma Cinv_opp z : (/ - z)%C = (- / z)%C.
Proof. unfold Cinv, Copp. destruct z as [x y]; simpl. apply Ceq; simpl; unfold Rdiv; replace (- x * (- x * 1) + - y * (- y * 1)) with (x * (x * 1) + y * (y * 1)) by ring; ring. Qed.
Lemma Cinv_0' : (/ RtoC 0)%C = RtoC 0.
Proof. rewrite <- RtoC_inv'. now rewrite Rinv_0. Qed.
Lemma Cinv_mult z w : (/ (z * w))%C = (/ z * / w)%C.
Proof.
  destruct (Ceq_dec z (RtoC 0)) as [->|Hz]; [replace (RtoC 0 * w)%C with (RtoC 0) by ring; rewrite Cinv_0'; ring|].
  destruct (Ceq_dec w (RtoC 0)) as [->|Hw]; [replace (z * RtoC 0)%C with (RtoC 0) by ring; rewrite Cinv_0'; ring|].
  field; auto.
Qed.

Section General.
Variables (q p beta : R) (om m : C).
Hypothesis Hp : p <> 0.
Hypothesis Hs : (om * om + RtoC (p * p))%C <> RtoC 0.

Ltac prep := canon; replace (m * m - m * m)%C with (RtoC 0) by ring; replace (- RtoC 0)%C with (RtoC 0) by ring;
  pose proof (RtoC_neq0 p Hp) as Hp'; pose proof (RtoC_sum0 om p Hs) as Hs'; pose proof (RtoC_neq0 PI2 PI2_neq) as Hpi; revert Hpi;
  generalize PI2; intros pi2 Hpi;
  generalize (energy q m); intros en; generalize (bose_distribution_zero_chempot en beta); intros b; unfold Cdiv; pushRtoC; rewrite ?Cinv_mult; generalize (/ en)%C; intros ien;
  rewrite ?Cinv_opp; generalize (/ om)%C; intros iom.
Ltac fin := field; repeat split; auto; try (apply RtoC_neq0; lra);
  try (let E := fresh in intros E; match goal with H : ?x <> RtoC 0 |- False => apply H; rewrite <- E; ring end).
Lemma same_0 : i_m_m_i q om p m m beta = i_m_m_i_same_mass q om p m beta.
Proof. prep. fin. Qed.
Lemma same_l : i_m_m_l_i q om p m m beta = i_m_m_l_i_same_mass q om p m beta.
Proof. prep. fin. Qed.
Lemma same_t : i_m_m_t_i q om p m m beta = i_m_m_t_i_same_mass q om p m beta.
Proof. prep. fin. Qed.
Lemma same_d0 : d_i_m_m_i q om p m m beta = d_i_m_m_i_same_mass q om p m beta.
Proof. prep. fin. Qed.
Lemma same_dl : d_i_m_m_l_i q om p m m beta = d_i_m_m_l_i_same_mass q om p m beta.
Proof. prep. fin. Qed.
Lemma same_dt : d_i_m_m_t_i q om p m m beta = d_i_m_m_t_i_same_mass q om p m beta.
Proof. prep. fin. Qed.
End General.

Section Massless.
Variables (q p beta : R) (om m : C).
Hypothesis Hq : 0 < q.
Hypothesis Hp : p <> 0.
Hypothesis Hs : (om * om + RtoC (p * p))%C <> RtoC 0.

Ltac prep := canon; rewrite ?(energy_0 q Hq), ?bose_RC; 
  try replace (RtoC 0 * RtoC 0 - m * m)%C with (- (m * m))%C by ring; try replace (- m * m)%C with (- (m * m))%C by ring;
  try replace (- - (m * m))%C with (m * m)%C by ring;
  try replace (- (RtoC 0 * RtoC 0))%C with (RtoC 0) by ring; try replace (- RtoC 0 * RtoC 0)%C with (RtoC 0) by ring; replace (- RtoC 0)%C with (RtoC 0) by ring;
  pose proof (RtoC_neq0 p Hp) as Hp'; pose proof (RtoC_sum0 om p Hs) as Hs'; pose proof (RtoC_neq0 PI2 PI2_neq) as Hpi; revert Hpi;
  assert (Hq' : RtoC q <> RtoC 0) by (apply RtoC_neq0; lra);
  generalize PI2; intros pi2 Hpi;
  generalize (energy q m); intros en; generalize (bose_distribution_zero_chempot en beta); intros b; generalize (bose_distribution_zero_chempot q beta); intros b';
  unfold Cdiv; pushRtoC; rewrite ?Cinv_mult; generalize (/ en)%C; intros ien;
  rewrite ?Cinv_opp; generalize (/ om)%C; intros iom.
Ltac fin := field; repeat split; auto; try (apply RtoC_neq0; lra);
  try (let E := fresh in intros E; match goal with H : ?x <> RtoC 0 |- False => apply H; rewrite <- E; ring end).

Lemma zero_0 : i_m_m_i q om p m (RtoC 0) beta = i_m_0_i q om p m beta.
Proof. prep. fin. Qed.
Lemma zero_l : i_m_m_l_i q om p m (RtoC 0) beta = i_m_0_l_i q om p m beta.
Proof. prep. fin. Qed.
Lemma zero_t : i_m_m_t_i q om p m (RtoC 0) beta = i_m_0_t_i q om p m beta.
Proof. prep. fin. Qed.
Lemma zero_d0 : d_i_m_m_i q om p m (RtoC 0) beta = d_i_m_0_i q om p m beta.
Proof. prep. fin. Qed.
Lemma zero_dl : d_i_m_m_l_i q om p m (RtoC 0) beta = d_i_m_0_l_i q om p m beta.
Proof. prep. fin. Qed.
Lemma zero_dt : d_i_m_m_t_i q om p m (RtoC 0) beta = d_i_m_0_t_i q om p m beta.
Proof. prep. fin. Qed.
Lemma zeros_0 : i_m_0_i q om p (RtoC 0) beta = i_0_0_i q om p beta.
Proof. prep. fin. Qed.
Lemma zeros_l : i_m_0_l_i q om p (RtoC 0) beta = i_0_0_l_i q om p beta.
Proof. prep. fin. Qed.
Lemma zeros_t : i_m_0_t_i q om p (RtoC 0) beta = i_0_0_t_i q om p beta.
Proof. prep. fin. Qed.
Lemma zeros_d0 : d_i_m_0_i q om p (RtoC 0) beta = d_i_0_0_i q om p beta.
Proof. prep. fin. Qed.
Lemma zeros_dl : d_i_m_0_l_i q om p (RtoC 0) beta = d_i_0_0_l_i q om p beta.
Proof. prep. fin. Qed.
Lemma zeros_dt : d_i_m_0_t_i q om p (RtoC 0) beta = d_i_0_0_t_i q om p beta.
Proof. prep. fin. Qed.
End Massless.
