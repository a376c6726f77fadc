(** * Canonical forms of the thermal logarithms and of the functions r_0 *)
From Coq Require Import Reals Lra.
From Coquelicot Require Import Coquelicot.
From Verif Require Import Num CField MCommon MThermal MThermalZM MThermalZP MPolar PCplx PDistr PVac PDress2.
Open Scope R_scope.

Definition CR (om p en d : C) : C := (om * om + p * p + d + RtoC 2 * en * om * Ci)%C.
Definition CL (q om p en d : C) : C := Cln ((CR om p en d + RtoC 2 * q * p) / (CR om p en d - RtoC 2 * q * p))%C.
Global Arguments CR (_ _ _ _)%C.
Global Arguments CL (_ _ _ _ _)%C.

Lemma CR_d om p en d d' : d = d' -> CR om p en d = CR om p en d'.
Proof. now intros ->. Qed.
Lemma CL_d q om p en d d' : d = d' -> CL q om p en d = CL q om p en d'.
Proof. now intros ->. Qed.

Ltac rtac := intros; unfold r_0, r_0_same_mass, zp_r_0, zp_r_0_same_mass, CR; numcbn; pushRtoC; ring.
Lemma r_0_C (om : C) (p : R) (en d : C) : r_0 om p en d = CR om p en d.
Proof. rtac. Qed.
Lemma r_0_Cq (om : C) (p : R) (q : R) (d : C) : r_0 om p q d = CR om p q d.
Proof. rtac. Qed.
Lemma r_0_same_C (om : C) (p : R) (en : C) : r_0_same_mass om p en = CR om p en (RtoC 0).
Proof. rtac. Qed.
Lemma r_0_same_Cq (om : C) (p : R) (q : R) : r_0_same_mass om p q = CR om p q (RtoC 0).
Proof. rtac. Qed.
Lemma zp_r_0_C (om en d : C) : zp_r_0 om en d = CR om (RtoC 0) en d.
Proof. rtac. Qed.
Lemma zp_r_0_Cq (om : C) (q : R) (d : C) : zp_r_0 om q d = CR om (RtoC 0) q d.
Proof. rtac. Qed.
Lemma zp_r_0_same_C (om en : C) : zp_r_0_same_mass om en = CR om (RtoC 0) en (RtoC 0).
Proof. rtac. Qed.
Lemma zp_r_0_same_Cq (om : C) (q : R) : zp_r_0_same_mass om q = CR om (RtoC 0) q (RtoC 0).
Proof. rtac. Qed.

Ltac ltac := intros; unfold tlog, tlog_same_mass, tlog_zero_mass, CL; cbv zeta; rewrite ?r_0_C, ?r_0_Cq, ?r_0_same_C, ?r_0_same_Cq; numcbn; pushRtoC; 
  f_equal; unfold Cdiv; f_equal; [ring|f_equal; ring].
Lemma tlog_C q (om : C) (p : R) (en d : C) : tlog q om p en d = CL q om p en d.
Proof. ltac. Qed.
Lemma tlog_Cq q (om : C) (p : R) (en : R) (d : C) : tlog q om p en d = CL q om p en d.
Proof. ltac. Qed.
Lemma tlog_same_C q (om : C) (p : R) (en : C) : tlog_same_mass q om p en = CL q om p en (RtoC 0).
Proof. ltac. Qed.
Lemma tlog_same_Cq q (om : C) (p : R) (en : R) : tlog_same_mass q om p en = CL q om p en (RtoC 0).
Proof. ltac. Qed.
Lemma tlog_zero_C q (om : C) (p : R) : tlog_zero_mass q om p = CL q om p q (RtoC 0).
Proof. ltac. Qed.

Ltac un_th := unfold i_m_m_i, i_m_m_i_same_mass, i_m_0_i, i_0_0_i, i_m_m_l_i, i_m_m_l_i_same_mass, i_m_0_l_i, i_0_0_l_i, i_m_m_t_i, i_m_m_t_i_same_mass,
  i_m_0_t_i, i_0_0_t_i, d_i_m_m_i, d_i_m_m_i_same_mass, d_i_m_0_i, d_i_0_0_i, d_i_m_m_l_i, d_i_m_m_l_i_same_mass, d_i_m_0_l_i, d_i_0_0_l_i,
  d_i_m_m_t_i, d_i_m_m_t_i_same_mass, d_i_m_0_t_i, d_i_0_0_t_i, tlog_l, tlog_l_same_mass, tlog_l_zero_mass, tlog_t, tlog_t_same_mass, tlog_t_zero_mass.

Definition IP (q om p en d : C) : C := (/ (CR om p en d + RtoC 2 * q * p))%C.
Definition IM (q om p en d : C) : C := (/ (CR om p en d - RtoC 2 * q * p))%C.
Global Arguments IP (_ _ _ _ _)%C.
Global Arguments IM (_ _ _ _ _)%C.

Ltac itac := intros; unfold IP, IM; f_equal; pushRtoC; ring.
Lemma IP1 q om (p : R) en d : (/ (CR om p en d + RtoC (2 * p * q)))%C = IP q om p en d.
Proof. itac. Qed.
Lemma IP2 q om (p : R) en d : (/ (CR om p en d + RtoC (q * p * 2)))%C = IP q om p en d.
Proof. itac. Qed.
Lemma IP3 q om (p : R) en d : (/ (RtoC (p * q * 2) + CR om p en d))%C = IP q om p en d.
Proof. itac. Qed.
Lemma IM1 q om (p : R) en d : (/ (CR om p en d - RtoC (2 * p * q)))%C = IM q om p en d.
Proof. itac. Qed.
Lemma IM2 q om (p : R) en d : (/ (CR om p en d - RtoC (q * p * 2)))%C = IM q om p en d.
Proof. itac. Qed.
Lemma IM3 q om (p : R) en d : (/ (RtoC (- (p * q * 2)) + CR om p en d))%C = IM q om p en d.
Proof. itac. Qed.

(** Rewrites an integrand of complex frequency and masses (real momentum) in
    terms of CL, CR, IP, IM. *)
Ltac canon := un_th; cbv zeta; rewrite ?tlog_C, ?tlog_Cq, ?tlog_same_C, ?tlog_same_Cq, ?tlog_zero_C, ?r_0_C, ?r_0_Cq, ?r_0_same_C, ?r_0_same_Cq;
  numcbn; rewrite ?IP1, ?IP2, ?IP3, ?IM1, ?IM2, ?IM3.

Lemma energy_0 q : 0 < q -> energy q (RtoC 0) = RtoC q.
Proof.
  intros H. unfold energy, energy_squared. numcbn. rewrite <- RtoC_mult, <- RtoC_plus, Csqrt_RtoC by nra. f_equal.
  replace (0 * 0 + q * q) with (q * q) by ring. apply sqrt_square. lra.
Qed.
Lemma energy_0R q : 0 < q -> energy q 0 = q.
Proof. intros H. unfold energy, energy_squared. numcbn. replace (0 * 0 + q * q) with (q * q) by ring. apply sqrt_square. lra. Qed.
Lemma PI2_neq : PI2 <> 0.
Proof. unfold PI2. pose proof PI_RGT_0. nra. Qed.
