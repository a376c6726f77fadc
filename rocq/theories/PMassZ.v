(** * Mass specialisations and mass symmetry in the two limits *)
From Coq Require Import Reals Lra List.
From Coquelicot Require Import Coquelicot.
From Verif Require Import Num CField MCommon MThermal MThermalZM MThermalZP MPolar SpecInteg PCplx PDistr PVac PDress2 PCoh PLogs PMass.
Import List ListNotations.
Open Scope R_scope.

(** ** Zero Matsubara frequency *)
Definition ZP (q p d : C) : C := (/ (p * p + d + RtoC 2 * q * p))%C.
Definition ZM (q p d : C) : C := (/ (p * p + d - RtoC 2 * q * p))%C.
Definition ZL (q p d : C) : C := (Cln ((p * p + d + RtoC 2 * q * p) / (p * p + d - RtoC 2 * q * p) * ((p * p + d + RtoC 2 * q * p) / (p * p + d - RtoC 2 * q * p))) / RtoC 2)%C.
Global Arguments ZP (_ _ _)%C.
Global Arguments ZM (_ _ _)%C.
Global Arguments ZL (_ _ _)%C.
Ltac itac := intros; unfold zm_r_0; unfold ZP, ZM; numcbn; f_equal; pushRtoC; ring.
Lemma ZP1 q (p : R) (d : C) : (/ (zm_r_0 p d + RtoC (2 * p * q)))%C = ZP q p d.
Proof. itac. Qed.
Lemma ZP2 q (p : R) (d : C) : (/ (zm_r_0 p d + RtoC (q * p * 2)))%C = ZP q p d.
Proof. itac. Qed.
Lemma ZM1 q (p : R) (d : C) : (/ (zm_r_0 p d - RtoC (2 * p * q)))%C = ZM q p d.
Proof. itac. Qed.
Lemma ZM2 q (p : R) (d : C) : (/ (zm_r_0 p d - RtoC (q * p * 2)))%C = ZM q p d.
Proof. itac. Qed.
Lemma ZL1 q (p : R) (d : C) : zm_tlog q p d = ZL q p d.
Proof.
  unfold zm_tlog, ZL, zm_r_0. cbv zeta. numcbn. f_equal. f_equal.
  assert (E1 : (d + RtoC (p * p) + RtoC (q * 2 * p))%C = (p * p + d + RtoC 2 * q * p)%C) by (pushRtoC; ring).
  assert (E2 : (d + RtoC (p * p) - RtoC (q * 2 * p))%C = (p * p + d - RtoC 2 * q * p)%C) by (pushRtoC; ring).
  now rewrite E1, E2.
Qed.
Lemma ln_0 : ln 0 = 0.
Proof. unfold ln. destruct (Rlt_dec 0 0) as [H|H]; [exfalso; apply (Rlt_irrefl 0 H)|reflexivity]. Qed.
Lemma Cln_RtoC_nonneg x : 0 <= x -> Cln (RtoC x) = RtoC (ln x).
Proof.
  intros [H| <-]; [now apply Cln_RtoC|]. unfold Cln. rewrite Cmod_real, Rabs_R0, ln_0. unfold Carg, RtoC. simpl.
  destruct (Rlt_dec 0 0); [lra|]. reflexivity.
Qed.
Lemma ZL_R (q p d : R) : ZL q p (RtoC d) = RtoC (ln ((p * p + d + 2 * q * p) / (p * p + d - 2 * q * p) * ((p * p + d + 2 * q * p) / (p * p + d - 2 * q * p))) / 2).
Proof.
  unfold ZL. rewrite <- !RtoC_mult, <- !RtoC_plus, <- !RtoC_minus, <- !RtoC_div', <- !RtoC_mult, Cln_RtoC_nonneg, <- !RtoC_div'; auto. match goal with |- 0 <= ?x * ?x => apply (Rle_0_sqr x) end.
Qed.
Lemma ZL_0 (q p : R) : p <> 0 -> ZL q p (RtoC 0) = RtoC (zm_tlog_same_mass q p).
Proof.
  intros Hp. rewrite ZL_R. unfold zm_tlog_same_mass. numcbn. do 3 f_equal.
  assert (E : (p * p + 0 + 2 * q * p) / (p * p + 0 - 2 * q * p) = (2 * q + p) / (2 * - q + p)).
  { replace (p * p + 0 + 2 * q * p) with (p * (2 * q + p)) by ring. replace (p * p + 0 - 2 * q * p) with (p * (2 * - q + p)) by ring.
    unfold Rdiv. rewrite Rinv_mult. generalize (/ (2 * - q + p)). intros x. field. auto. }
  now rewrite E.
Qed.
Lemma ZP_0 (q p : R) : ZP q p (RtoC 0) = (/ RtoC p * RtoC (/ (2 * q + p)))%C.
Proof. unfold ZP. rewrite RtoC_inv', <- Cinv_mult. f_equal. pushRtoC. ring. Qed.
Lemma ZM_0 (q p : R) : ZM q p (RtoC 0) = (/ RtoC p * RtoC (/ (2 * - q + p)))%C.
Proof. unfold ZM. rewrite RtoC_inv', <- Cinv_mult. f_equal. pushRtoC. ring. Qed.

Ltac canonzm := unfold zm_i_m_m_i, zm_i_m_m_i_same_mass, zm_i_m_0_i, zm_i_0_0_i, zm_i_m_m_l_i, zm_i_m_m_l_i_same_mass, zm_i_m_0_l_i, zm_i_0_0_l_i,
  zm_i_m_m_t_i, zm_i_m_m_t_i_same_mass, zm_i_m_0_t_i, zm_i_0_0_t_i,
  zm_d_i_m_m_i, zm_d_i_m_m_i_same_mass, zm_d_i_m_0_i, zm_d_i_0_0_i, zm_d_i_m_m_l_i, zm_d_i_m_m_l_i_same_mass, zm_d_i_m_0_l_i, zm_d_i_0_0_l_i,
  zm_d_i_m_m_t_i, zm_d_i_m_m_t_i_same_mass, zm_d_i_m_0_t_i, zm_d_i_0_0_t_i, zm_tlog_t, zm_tlog_t_zero_mass, zm_tlog_t_same_mass, zm_tlog_zero_mass; cbv zeta; numcbn;
  rewrite ?ZP1, ?ZP2, ?ZM1, ?ZM2, ?ZL1; unfold zm_r_0; numcbn.

Section ZeroMatsubara.
Variables (q p beta : R) (m : C).
Hypothesis Hq : 0 < q.
Hypothesis Hp : p <> 0.
Ltac prep := canonzm; rewrite ?(energy_0 q Hq), ?(energy_0R q Hq), ?bose_RC;
  try replace (m * m - m * m)%C with (RtoC 0) by ring;
  try replace (RtoC 0 * RtoC 0 - m * m)%C with (- (m * m))%C by ring; try replace (- m * m)%C with (- (m * m))%C by ring;
  try replace (- - (m * m))%C with (m * m)%C by ring;
  try replace (- (RtoC 0 * RtoC 0))%C with (RtoC 0) by ring; try replace (- RtoC 0 * RtoC 0)%C with (RtoC 0) by ring; try replace (- RtoC 0)%C with (RtoC 0) by ring;
  rewrite ?(ZL_0 q p Hp), ?ZP_0, ?ZM_0;
  pose proof (RtoC_neq0 p Hp) as Hp'; pose proof (RtoC_neq0 PI2 PI2_neq) as Hpi; revert Hpi;
  assert (Hq' : RtoC q <> RtoC 0) by (apply RtoC_neq0; lra);
  generalize PI2; intros pi2 Hpi;
  generalize (energy q m); intros en; generalize (bose_distribution_zero_chempot en beta); intros b; generalize (bose_distribution_zero_chempot q beta); intros b';
  generalize (zm_tlog_same_mass q p); intros tl; generalize (/ (2 * q + p)); intros i1; generalize (/ (2 * - q + p)); intros i2;
  unfold Cdiv; pushRtoC; rewrite ?Cinv_mult; generalize (/ en)%C; intros ien.
Ltac fin := field; repeat split; auto; try (apply RtoC_neq0; lra).
Lemma zm_same_0 : zm_i_m_m_i q p m m beta = zm_i_m_m_i_same_mass q p m beta.
Proof. prep. fin. Qed.
Lemma zm_same_l : zm_i_m_m_l_i q p m m beta = zm_i_m_m_l_i_same_mass q p m beta.
Proof. prep. fin. Qed.
Lemma zm_same_t : zm_i_m_m_t_i q p m m beta = zm_i_m_m_t_i_same_mass q p m beta.
Proof. prep. fin. Qed.
Lemma zm_same_d0 : zm_d_i_m_m_i q p m m beta = zm_d_i_m_m_i_same_mass q p m beta.
Proof. prep. fin. Qed.
Lemma zm_same_dl : zm_d_i_m_m_l_i q p m m beta = zm_d_i_m_m_l_i_same_mass q p m beta.
Proof. prep. fin. Qed.
Lemma zm_same_dt : zm_d_i_m_m_t_i q p m m beta = zm_d_i_m_m_t_i_same_mass q p m beta.
Proof. prep. fin. Qed.
Lemma zm_zero_0 : zm_i_m_m_i q p m (RtoC 0) beta = zm_i_m_0_i q p m beta.
Proof. prep. fin. Qed.
Lemma zm_zero_l : zm_i_m_m_l_i q p m (RtoC 0) beta = zm_i_m_0_l_i q p m beta.
Proof. prep. fin. Qed.
Lemma zm_zero_t : zm_i_m_m_t_i q p m (RtoC 0) beta = zm_i_m_0_t_i q p m beta.
Proof. prep. fin. Qed.
Lemma zm_zero_d0 : zm_d_i_m_m_i q p m (RtoC 0) beta = zm_d_i_m_0_i q p m beta.
Proof. prep. fin. Qed.
Lemma zm_zero_dl : zm_d_i_m_m_l_i q p m (RtoC 0) beta = zm_d_i_m_0_l_i q p m beta.
Proof. prep. fin. Qed.
Lemma zm_zero_dt : zm_d_i_m_m_t_i q p m (RtoC 0) beta = zm_d_i_m_0_t_i q p m beta.
Proof. prep. fin. Qed.
Lemma zm_zeros_0 : zm_i_m_0_i q p (RtoC 0) beta = RtoC (zm_i_0_0_i q p beta).
Proof. prep. fin. Qed.
Lemma zm_zeros_l : zm_i_m_0_l_i q p (RtoC 0) beta = RtoC (zm_i_0_0_l_i q p beta).
Proof. prep. fin. Qed.
Lemma zm_zeros_t : zm_i_m_0_t_i q p (RtoC 0) beta = RtoC (zm_i_0_0_t_i q p beta).
Proof. prep. fin. Qed.
Lemma zm_zeros_d0 : zm_d_i_m_0_i q p (RtoC 0) beta = RtoC (zm_d_i_0_0_i q p beta).
Proof. prep. fin. Qed.
Lemma zm_zeros_dl : zm_d_i_m_0_l_i q p (RtoC 0) beta = RtoC (zm_d_i_0_0_l_i q p beta).
Proof. prep. fin. Qed.
Lemma zm_zeros_dt : zm_d_i_m_0_t_i q p (RtoC 0) beta = RtoC (zm_d_i_0_0_t_i q p beta).
Proof. prep. fin. Qed.
End ZeroMatsubara.

(** ** Zero momentum *)
Definition JZ (om en d : C) : C := (/ (om * om + d + RtoC 2 * en * om * Ci))%C.
Global Arguments JZ (_ _ _)%C.
Ltac jtac := intros; unfold JZ; f_equal; unfold CR; ring.
Lemma JZ1 om en d : (/ (om * om + en * (om * Ci * RtoC 2) + d))%C = JZ om en d. Proof. jtac. Qed.
Lemma JZ2 om en d : (/ (om * om - en * (om * Ci * RtoC 2) + d))%C = JZ (- om) en d. Proof. jtac. Qed.
Lemma JZ3 om en d : (/ (om * om + en * (om * Ci * RtoC 2) - d))%C = JZ om en (- d). Proof. jtac. Qed.
Lemma JZ4 om en d : (/ (om * om - en * (om * Ci * RtoC 2) - d))%C = JZ (- om) en (- d). Proof. jtac. Qed.
Lemma JZ5 om en : (/ (om * om + en * (om * Ci * RtoC 2)))%C = JZ om en (RtoC 0). Proof. jtac. Qed.
Lemma JZ6 om en : (/ (om * om - en * (om * Ci * RtoC 2)))%C = JZ (- om) en (RtoC 0). Proof. jtac. Qed.
Lemma JZ7 om en d : (/ (d + (om * om + en * (om * Ci * RtoC 2))))%C = JZ om en d. Proof. jtac. Qed.
Lemma JZ8 om en d : (/ (d + (om * om - en * (om * Ci * RtoC 2))))%C = JZ (- om) en d. Proof. jtac. Qed.
Lemma JZ9 om en d : (/ CR om (RtoC 0) en d)%C = JZ om en d. Proof. jtac. Qed.

Ltac canonzp := unfold zp_i_m_m_t_i, zp_i_m_m_t_i_same_mass, zp_i_m_0_t_i, zp_i_0_0_t_i, zp_d_i_m_m_t_i, zp_d_i_m_m_t_i_same_mass, zp_d_i_m_0_t_i, zp_d_i_0_0_t_i;
  unfold zp_i_m_m_i, zp_i_m_m_i_same_mass, zp_i_m_0_i, zp_i_0_0_i, zp_i_m_m_l_i, zp_i_m_m_l_i_same_mass, zp_i_m_0_l_i, zp_i_0_0_l_i,
  zp_d_i_m_m_i, zp_d_i_m_m_i_same_mass, zp_d_i_m_0_i, zp_d_i_0_0_i, zp_d_i_m_m_l_i, zp_d_i_m_m_l_i_same_mass, zp_d_i_m_0_l_i, zp_d_i_0_0_l_i;
  cbv zeta; rewrite ?zp_r_0_C, ?zp_r_0_Cq, ?zp_r_0_same_C, ?zp_r_0_same_Cq; numcbn; rewrite ?JZ9, ?JZ7, ?JZ8, ?JZ1, ?JZ2, ?JZ3, ?JZ4, ?JZ5, ?JZ6.

Section ZeroMomentum.
Variables (q beta : R) (om m : C).
Hypothesis Hq : 0 < q.
Ltac prep := canonzp; rewrite ?(energy_0 q Hq), ?bose_RC;
  try replace (m * m - m * m)%C with (RtoC 0) by ring;
  try replace (RtoC 0 * RtoC 0 - m * m)%C with (- (m * m))%C by ring; try replace (- m * m)%C with (- (m * m))%C by ring;
  try replace (- - (m * m))%C with (m * m)%C by ring;
  try replace (- (RtoC 0 * RtoC 0))%C with (RtoC 0) by ring; try replace (- RtoC 0 * RtoC 0)%C with (RtoC 0) by ring; try replace (- RtoC 0)%C with (RtoC 0) by ring;
  pose proof (RtoC_neq0 PI2 PI2_neq) as Hpi; revert Hpi;
  assert (Hq' : RtoC q <> RtoC 0) by (apply RtoC_neq0; lra);
  generalize PI2; intros pi2 Hpi;
  generalize (energy q m); intros en; generalize (bose_distribution_zero_chempot en beta); intros b; generalize (bose_distribution_zero_chempot q beta); intros b';
  unfold Cdiv; pushRtoC; rewrite ?Cinv_mult; generalize (/ en)%C; intros ien.
Ltac fin := field; repeat split; auto; try (apply RtoC_neq0; lra).
Lemma zp_same_0 : zp_i_m_m_i q om m m beta = zp_i_m_m_i_same_mass q om m beta.
Proof. prep. fin. Qed.
Lemma zp_same_l : zp_i_m_m_l_i q om m m beta = zp_i_m_m_l_i_same_mass q om m beta.
Proof. prep. fin. Qed.
Lemma zp_same_t : zp_i_m_m_t_i q om m m beta = zp_i_m_m_t_i_same_mass q om m beta.
Proof. prep. fin. Qed.
Lemma zp_same_d0 : zp_d_i_m_m_i q om m m beta = zp_d_i_m_m_i_same_mass q om m beta.
Proof. prep. fin. Qed.
Lemma zp_same_dl : zp_d_i_m_m_l_i q om m m beta = zp_d_i_m_m_l_i_same_mass q om m beta.
Proof. prep. fin. Qed.
Lemma zp_same_dt : zp_d_i_m_m_t_i q om m m beta = zp_d_i_m_m_t_i_same_mass q om m beta.
Proof. prep. fin. Qed.
Lemma zp_zero_0 : zp_i_m_m_i q om m (RtoC 0) beta = zp_i_m_0_i q om m beta.
Proof. prep. fin. Qed.
Lemma zp_zero_l : zp_i_m_m_l_i q om m (RtoC 0) beta = zp_i_m_0_l_i q om m beta.
Proof. prep. fin. Qed.
Lemma zp_zero_t : zp_i_m_m_t_i q om m (RtoC 0) beta = zp_i_m_0_t_i q om m beta.
Proof. prep. fin. Qed.
Lemma zp_zero_d0 : zp_d_i_m_m_i q om m (RtoC 0) beta = zp_d_i_m_0_i q om m beta.
Proof. prep. fin. Qed.
Lemma zp_zero_dl : zp_d_i_m_m_l_i q om m (RtoC 0) beta = zp_d_i_m_0_l_i q om m beta.
Proof. prep. fin. Qed.
Lemma zp_zero_dt : zp_d_i_m_m_t_i q om m (RtoC 0) beta = zp_d_i_m_0_t_i q om m beta.
Proof. prep. fin. Qed.
Lemma zp_zeros_0 : zp_i_m_0_i q om (RtoC 0) beta = zp_i_0_0_i q om beta.
Proof. prep. fin. Qed.
Lemma zp_zeros_l : zp_i_m_0_l_i q om (RtoC 0) beta = zp_i_0_0_l_i q om beta.
Proof. prep. fin. Qed.
Lemma zp_zeros_t : zp_i_m_0_t_i q om (RtoC 0) beta = zp_i_0_0_t_i q om beta.
Proof. prep. fin. Qed.
Lemma zp_zeros_d0 : zp_d_i_m_0_i q om (RtoC 0) beta = zp_d_i_0_0_i q om beta.
Proof. prep. fin. Qed.
Lemma zp_zeros_dl : zp_d_i_m_0_l_i q om (RtoC 0) beta = zp_d_i_0_0_l_i q om beta.
Proof. prep. fin. Qed.
Lemma zp_zeros_dt : zp_d_i_m_0_t_i q om (RtoC 0) beta = zp_d_i_0_0_t_i q om beta.
Proof. prep. fin. Qed.
End ZeroMomentum.
