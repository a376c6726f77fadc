(** * Zero-momentum bubbles at real frequency: real forms, continuity and decay *)
From Coq Require Import Reals Lra Lia List Psatz.
From Coquelicot Require Import Coquelicot.
From Verif Require Import Num CField MCommon MThermal MThermalZM MThermalZP MPolar SpecInteg SpecLim PCplx PDistr PVac PDress2 PCoh PCoh2 PLogs PMass PMassZ PMass2 PReal PForms PForms2 PCombo PComboR PReg PLim PLimC PJoint PJoint2 PCold PBound PColdG.
Import List ListNotations.
Open Scope R_scope.

Definition ZN (om e d : R) : R := (om * om + d) * (om * om + d) + (2 * e * om) * (2 * e * om).
Definition ZA (om e d : R) : R := (om * om + d) / ZN om e d.
Definition ZB (om e d : R) : R := (2 * e * om) / ZN om e d.
Definition ZQ (om e d : R) : R := ZA om e d * ZA om e d - ZB om e d * ZB om e d.
Definition FZ (pi2 q om n1 e1 n2 e2 d : R) : list R :=
  let i := n1 * (2 * ZA om e1 d) + n2 * (2 * ZA om e2 (- d)) in
  let j := n1 * (2 * ZQ om e1 d) - n2 * (2 * ZQ om e2 (- d)) in
  [ q * q / (4 * pi2) * i; q * q * q * q / (12 * pi2) * i; q * q * q * q / (12 * pi2) * i;
    (- (n1 * (2 * ZA om e1 d)) + 2 * (q * q) * j) / (8 * pi2);
    q * q * (- (n1 * (2 * ZA om e1 d)) + 2 / 3 * (q * q) * j) / (8 * pi2);
    q * q * (- (n1 * (2 * ZA om e1 d)) + 2 / 3 * (q * q) * j) / (8 * pi2) ].

Lemma ZN_pos om e d : om <> 0 -> 0 < e -> 0 < ZN om e d.
Proof.
  intros Hom He. unfold ZN. pose proof (Rle_0_sqr (om * om + d)) as A.
  assert (2 * e * om <> 0) as B by (apply Rmult_integral_contrapositive_currified; lra). apply Rlt_0_sqr in B. unfold Rsqr in *. lra.
Qed.
Lemma inv_pair x y : x * x + y * y <> 0 -> (/ (x, y))%C = (RtoC (x / (x * x + y * y)) - RtoC (y / (x * x + y * y)) * Ci)%C.
Proof. intros H. unfold Cinv. simpl. replace (x * (x * 1) + y * (y * 1)) with (x * x + y * y) by ring. apply Ceq; simpl; field; auto. Qed.

Section Form.
Variables (q om beta : R).
Hypothesis Hq : 0 < q.
Hypothesis Hom : om <> 0.
Section E.
Variables (e d : R).
Hypothesis He : 0 < e.
Lemma rp_inv z : z = (om * om + d, 2 * e * om) -> (/ z)%C = (RtoC (ZA om e d) - RtoC (ZB om e d) * Ci)%C.
Proof. intros ->. pose proof (ZN_pos om e d Hom He). unfold ZN in *. rewrite inv_pair by lra. reflexivity. Qed.
Lemma rm_inv z : z = (om * om + d, - (2 * e * om)) -> (/ z)%C = (RtoC (ZA om e d) + RtoC (ZB om e d) * Ci)%C.
Proof.
  intros ->. pose proof (ZN_pos om e d Hom He). unfold ZN in *. rewrite inv_pair by lra. unfold ZA, ZB, ZN.
  replace (- (2 * e * om) * - (2 * e * om)) with (2 * e * om * (2 * e * om)) by ring.
  replace (- (2 * e * om) / ((om * om + d) * (om * om + d) + 2 * e * om * (2 * e * om))) with (- (2 * e * om / ((om * om + d) * (om * om + d) + 2 * e * om * (2 * e * om)))) by (field; lra).
  rewrite RtoC_opp. ring.
Qed.
End E.
Ltac pr := apply Ceq; simpl; unfold dM; ring.
Lemma zp_mm_form (m1 m2 : R) : zp_bubbles_mm q om m1 m2 beta = map RtoC (FZ PI2 q om (nE q m1 beta) (energy q m1) (nE q m2 beta) (energy q m2) (dM m1 m2)).
Proof.
  pose proof (energy_pos' q Hq m1) as E1. pose proof (energy_pos' q Hq m2) as E2. pose proof PI2_neq as Hpi.
  unfold zp_bubbles_mm, zp_i_m_m_t_i, zp_d_i_m_m_t_i, FZ. cbv zeta. cbn [map].
  assert (A1 : zp_i_m_m_i q om m1 m2 beta = RtoC (q * q / (4 * PI2) * (nE q m1 beta * (2 * ZA om (energy q m1) (dM m1 m2)) + nE q m2 beta * (2 * ZA om (energy q m2) (- dM m1 m2))))).
  { unfold zp_i_m_m_i. numcbn. unfold nE.
    rewrite (rp_inv (energy q m1) (dM m1 m2) E1) by pr. rewrite (rm_inv (energy q m1) (dM m1 m2) E1) by pr.
    rewrite (rp_inv (energy q m2) (- dM m1 m2) E2) by pr. rewrite (rm_inv (energy q m2) (- dM m1 m2) E2) by pr.
    rewrite ?RtoC_div'. pushRtoC. field. repeat split; apply RtoC_neq0; lra. }
  assert (A2 : zp_i_m_m_l_i q om m1 m2 beta = RtoC (q * q * q * q / (12 * PI2) * (nE q m1 beta * (2 * ZA om (energy q m1) (dM m1 m2)) + nE q m2 beta * (2 * ZA om (energy q m2) (- dM m1 m2))))).
  { unfold zp_i_m_m_l_i. numcbn. unfold nE.
    rewrite (rp_inv (energy q m1) (dM m1 m2) E1) by pr. rewrite (rm_inv (energy q m1) (dM m1 m2) E1) by pr.
    rewrite (rp_inv (energy q m2) (- dM m1 m2) E2) by pr. rewrite (rm_inv (energy q m2) (- dM m1 m2) E2) by pr.
    rewrite ?RtoC_div'. pushRtoC. rewrite ?RtoC_inv_all. pushRtoC. field. repeat split; apply RtoC_neq0; lra. }
  assert (A3 : zp_d_i_m_m_i q om m1 m2 beta = RtoC ((- (nE q m1 beta * (2 * ZA om (energy q m1) (dM m1 m2))) + 2 * (q * q) * (nE q m1 beta * (2 * ZQ om (energy q m1) (dM m1 m2)) - nE q m2 beta * (2 * ZQ om (energy q m2) (- dM m1 m2)))) / (8 * PI2))).
  { unfold zp_d_i_m_m_i, zp_r_0. numcbn. unfold nE.
    rewrite (rp_inv (energy q m1) (dM m1 m2) E1) by pr. rewrite (rm_inv (energy q m1) (dM m1 m2) E1) by pr.
    rewrite (rp_inv (energy q m2) (- dM m1 m2) E2) by pr. rewrite (rm_inv (energy q m2) (- dM m1 m2) E2) by pr.
    unfold ZQ. rewrite ?RtoC_div'. pushRtoC. field [Ci2]. repeat split; apply RtoC_neq0; lra. }
  assert (A4 : zp_d_i_m_m_l_i q om m1 m2 beta = RtoC (q * q * (- (nE q m1 beta * (2 * ZA om (energy q m1) (dM m1 m2))) + 2 / 3 * (q * q) * (nE q m1 beta * (2 * ZQ om (energy q m1) (dM m1 m2)) - nE q m2 beta * (2 * ZQ om (energy q m2) (- dM m1 m2)))) / (8 * PI2))).
  { unfold zp_d_i_m_m_l_i, zp_r_0. numcbn. unfold nE.
    rewrite (rp_inv (energy q m1) (dM m1 m2) E1) by pr. rewrite (rm_inv (energy q m1) (dM m1 m2) E1) by pr.
    rewrite (rp_inv (energy q m2) (- dM m1 m2) E2) by pr. rewrite (rm_inv (energy q m2) (- dM m1 m2) E2) by pr.
    unfold ZQ. rewrite ?RtoC_div'. pushRtoC. field [Ci2]. repeat split; apply RtoC_neq0; lra. }
  rewrite A1, A2, A3, A4. reflexivity.
Qed.
Lemma energy_q0 : energy q 0 = q.
Proof. rewrite energy_R. replace (0 * 0 + q * q) with (q * q) by ring. apply sqrt_square. lra. Qed.
Lemma zp_same_nth (m : R) k : nth k (zp_bubbles_same q om m beta) (RtoC 0) = RtoC (nth k (FZ PI2 q om (nE q m beta) (energy q m) (nE q m beta) (energy q m) 0) 0).
Proof. rewrite <- (proj1 (special_zp_R q om m beta Hq)), zp_mm_form, dM_same. apply nth_RtoC. Qed.
Lemma zp_m0_nth (m : R) k : nth k (zp_bubbles_m0 q om m beta) (RtoC 0) = RtoC (nth k (FZ PI2 q om (nE q m beta) (energy q m) (n0 q beta) q (- (m * m))) 0).
Proof. rewrite <- (proj1 (proj2 (special_zp_R q om m beta Hq))), zp_mm_form, dM_m0, nE_0, energy_q0 by auto. apply nth_RtoC. Qed.
Lemma zp_zero_nth k : nth k (zp_bubbles_0 q om beta) (RtoC 0) = RtoC (nth k (FZ PI2 q om (n0 q beta) q (n0 q beta) q 0) 0).
Proof.
  rewrite <- (proj2 (proj2 (special_zp_R q om 0 beta Hq))), zp_m0_nth. rewrite nE_0, energy_q0 by auto. replace (- (0 * 0)) with 0 by ring. reflexivity.
Qed.
End Form.

(** ** Continuity in the loop momentum *)
Section Cont.
Variables (q om beta : R).
Hypothesis Hq : 0 < q.
Hypothesis Hom : om <> 0.
Hypothesis Hb : beta <> 0.
Notation L := (locally q).
Let Ti : tends L (fun x => x) q. Proof. intros P HP. exact HP. Qed.
Lemma ev_pos : L (fun x => 0 < x). Proof. exact (tends_pos L (fun x => x) q Hq Ti). Qed.
Lemma FZ_tends fn1 fe1 fn2 fe2 n1 e1 n2 e2 d pi2 : pi2 <> 0 -> 0 < e1 -> 0 < e2 -> tends L fn1 n1 -> tends L fn2 n2 -> tends L fe1 e1 -> tends L fe2 e2 ->
  forall k, tends L (fun x => nth k (FZ pi2 x om (fn1 x) (fe1 x) (fn2 x) (fe2 x) d) 0) (nth k (FZ pi2 q om n1 e1 n2 e2 d) 0).
Proof.
  intros Hpi He1 He2 T1 T2 T3 T4 k.
  assert (AT : forall fe e d', 0 < e -> tends L fe e -> tends L (fun x => ZA om (fe x) d') (ZA om e d')).
  { intros fe e d' He T. pose proof (ZN_pos om e d' Hom He). unfold ZA, ZN in *. apply tends_div; [lra|apply tends_const|]. tendf. }
  assert (QT : forall fe e d', 0 < e -> tends L fe e -> tends L (fun x => ZQ om (fe x) d') (ZQ om e d')).
  { intros fe e d' He T. pose proof (ZN_pos om e d' Hom He). pose proof (AT fe e d' He T). unfold ZQ.
    assert (tends L (fun x => ZB om (fe x) d') (ZB om e d')) by (unfold ZB, ZN in *; apply tends_div; [lra|tendf|tendf]). tendf. }
  pose proof (AT _ _ d He1 T3). pose proof (AT _ _ (- d) He2 T4). pose proof (QT _ _ d He1 T3). pose proof (QT _ _ (- d) He2 T4).
  destruct k as [|[|[|[|[|[|k]]]]]]; unfold FZ; cbv zeta; cbn [nth].
  1,2,3: (apply tends_mult; [apply tends_div; [lra|tendf|apply tends_const]|tendf]).
  1,2,3: (apply tends_div; [lra|tendf|apply tends_const]).
  destruct k; apply tends_const.
Qed.
Ltac go Hf := eapply tendsC_ext; [generalize ev_pos; apply filter_imp; intros x Hx; symmetry; apply Hf; auto|]; rewrite Hf by auto; apply tendsC_RtoC.
Let TE (m : R) : tends L (fun x => energy x m) (energy q m). Proof. now apply (energy_tends (fun x => x)). Qed.
Let TN (m : R) : tends L (fun x => nE x m beta) (nE q m beta). Proof. now apply (nE_tends (fun x => x)). Qed.
Let T0 : tends L (fun x => n0 x beta) (n0 q beta). Proof. now apply (n0_tends (fun x => x)). Qed.
Lemma zp_same_cont (m : R) k : tendsC L (fun x => nth k (zp_bubbles_same x om m beta) (RtoC 0)) (nth k (zp_bubbles_same q om m beta) (RtoC 0)).
Proof. go zp_same_nth. apply (FZ_tends (fun x => nE x m beta) (fun x => energy x m) (fun x => nE x m beta) (fun x => energy x m)); auto using PI2_neq, energy_pos'. Qed.
Lemma zp_m0_cont (m : R) k : tendsC L (fun x => nth k (zp_bubbles_m0 x om m beta) (RtoC 0)) (nth k (zp_bubbles_m0 q om m beta) (RtoC 0)).
Proof. go zp_m0_nth. apply (FZ_tends (fun x => nE x m beta) (fun x => energy x m) (fun x => n0 x beta) (fun x => x)); auto using PI2_neq, energy_pos'. Qed.
Lemma zp_zero_cont k : tendsC L (fun x => nth k (zp_bubbles_0 x om beta) (RtoC 0)) (nth k (zp_bubbles_0 q om beta) (RtoC 0)).
Proof. go zp_zero_nth. apply (FZ_tends (fun x => n0 x beta) (fun x => x) (fun x => n0 x beta) (fun x => x)); auto using PI2_neq, energy_pos'. Qed.
Lemma zp_glue_cont (m : R) n : tendsC L (fun x => nth n (zp_glue_parts x om m beta) (RtoC 0)) (nth n (zp_glue_parts q om m beta) (RtoC 0)).
Proof.
  rewrite zp_glue_GLUE_R. eapply tendsC_ext; [apply filter_forall; intros x; rewrite zp_glue_GLUE_R; reflexivity|].
  apply GLUE_tends; try apply tendsC_const; intros k; [apply zp_same_cont|apply zp_m0_cont|apply zp_zero_cont| |].
  - apply (tadpole_jointC (fun x => x) q beta Ti Hq Hb).
  - apply (tadpole0_jointC (fun x => x) (fun _ => 1) (fun _ => 1) q 1 1 beta Ti (tends_const 1) (tends_const 1) Hq); auto; lra.
Qed.
End Cont.

(** ** Decay *)
Definition ZAL pi2 q om e d := [q * q / (4 * pi2) * (2 * ZA om e d); q * q * q * q / (12 * pi2) * (2 * ZA om e d); q * q * q * q / (12 * pi2) * (2 * ZA om e d);
  (- (2 * ZA om e d) + 2 * (q * q) * (2 * ZQ om e d)) / (8 * pi2); q * q * (- (2 * ZA om e d) + 2 / 3 * (q * q) * (2 * ZQ om e d)) / (8 * pi2);
  q * q * (- (2 * ZA om e d) + 2 / 3 * (q * q) * (2 * ZQ om e d)) / (8 * pi2)].
Definition ZBL pi2 q om e d := [q * q * (2 * ZA om e d / (4 * pi2)); q * q * (q * q * (2 * ZA om e d) / (12 * pi2)); q * q * (q * q * (2 * ZA om e d) / (12 * pi2));
  q * q * (- (4 * ZQ om e d) / (8 * pi2)); q * q * (- (2 / 3 * (q * q) * (2 * ZQ om e d)) / (8 * pi2)); q * q * (- (2 / 3 * (q * q) * (2 * ZQ om e d)) / (8 * pi2))].
Lemma FZ_legs pi2 q om n1 e1 n2 e2 d k :
  nth k (FZ pi2 q om n1 e1 n2 e2 d) 0 = n1 * nth k (ZAL pi2 q om e1 d) 0 + n2 * nth k (ZBL pi2 q om e2 (- d)) 0.
Proof.
  destruct k as [|[|[|[|[|[|k]]]]]]; unfold FZ, ZAL, ZBL; cbv zeta; cbn [nth]; try (unfold Rdiv; ring). destruct k; ring.
Qed.
Section Leg.
Variables (om d : R) (e : R -> R).
Hypothesis He : Ob 0 e.
Hypothesis HN : Ob 0 (fun q => / ZN om (e q) d).
Variable pi2 : R.
Lemma Ob_ZA : Ob 0 (fun q => ZA om (e q) d).
Proof. unfold ZA, Rdiv. ob0. Qed.
Lemma Ob_ZQ : Ob 0 (fun q => ZQ om (e q) d).
Proof. pose proof Ob_ZA as A. assert (B : Ob 0 (fun q => ZB om (e q) d)) by (unfold ZB, Rdiv; ob0). unfold ZQ. ob0. Qed.
Lemma zp_legA k : Ob 0 (fun q => nth k (ZAL pi2 q om (e q) d) 0).
Proof.
  pose proof Ob_ZA as A. pose proof Ob_ZQ as Q. unfold ZAL.
  destruct k as [|[|[|[|[|[|k]]]]]]; cbn [nth]; [ob0..|]. destruct k; apply Ob_const.
Qed.
Lemma zp_legB k : Ob 2 (fun q => nth k (ZBL pi2 q om (e q) d) 0).
Proof.
  pose proof Ob_ZA as A. pose proof Ob_ZQ as Q. unfold ZBL.
  assert (S : forall w, Ob 0 w -> Ob 2 (fun q => q * q * w q)).
  { intros w Hw. apply (Ob_mult 2 0 (fun q => q * q) w); auto. apply (Ob_mult 1 1 (fun q => q) (fun q => q)); apply Ob_id. }
  destruct k as [|[|[|[|[|[|k]]]]]]; cbn [nth]; [apply S; ob0..|].
  destruct k; exists 0, 0%nat; (split; [lra|]); intros; rewrite Rabs_R0; lra.
Qed.
End Leg.
Lemma massive_ZN om d m : om <> 0 -> m <> 0 -> Ob 0 (fun q => / ZN om (energy q m) d).
Proof.
  intros Hom Hm. pose proof (Rlt_0_sqr om Hom) as O2. pose proof (Rlt_0_sqr m Hm) as M2. unfold Rsqr in *.
  apply (Ob_inv_bounded _ (4 * (om * om) * (m * m))); [nra|]. intros q Hq. unfold ZN.
  assert (E : energy q m * energy q m = m * m + q * q) by (rewrite energy_R; apply sqrt_sqrt; nra).
  replace ((2 * energy q m * om) * (2 * energy q m * om)) with (4 * (om * om) * (energy q m * energy q m)) by ring. rewrite E.
  pose proof (Rle_0_sqr (om * om + d)). unfold Rsqr in *. nra.
Qed.
Lemma massless_ZN om d : om <> 0 -> 0 <= d -> Ob 0 (fun q => / ZN om q d).
Proof.
  intros Hom Hd. pose proof (Rlt_0_sqr om Hom) as O2. unfold Rsqr in *.
  apply (Ob_inv_bounded _ ((om * om + d) * (om * om + d))); [nra|]. intros q Hq. unfold ZN.
  pose proof (Rle_0_sqr (2 * q * om)). unfold Rsqr in *. lra.
Qed.
Section Rd.
Variables (b0 om m : R).
Hypothesis Hb0 : 0 < b0.
Hypothesis Hom : om <> 0.
Hypothesis Hm : m <> 0.
Lemma zp_glue_Rd n : RdC b0 (fun b q => nth n (zp_glue_parts q om m b) (RtoC 0)).
Proof.
  assert (EB : forall d k, Ob 2 (fun q => nth k (ZBL PI2 q om (energy q m) d) 0)) by (intros; apply zp_legB; [apply Ob_energy|now apply massive_ZN]).
  assert (EA : forall d k, Ob 0 (fun q => nth k (ZAL PI2 q om (energy q m) d) 0)) by (intros; apply zp_legA; [apply Ob_energy|now apply massive_ZN]).
  assert (MB : forall d k, 0 <= d -> Ob 2 (fun q => nth k (ZBL PI2 q om q d) 0)) by (intros; apply (zp_legB om d (fun q => q)); [apply (Ob_to0 1), Ob_id|now apply massless_ZN]).
  assert (N0 : forall w, Ob 2 w -> Rd b0 (fun b q => n0 q b * w q)) by (intros; now apply Rd_n0).
  assert (NE : forall w, Ob 0 w -> Rd b0 (fun b q => nE q m b * w q)) by (intros; apply Rd_mult; auto; now apply Rd_nE).
  eapply RdC_ext; [intros b q Hb Hq; symmetry; rewrite zp_glue_GLUE_R; reflexivity|].
  assert (S : forall k, RdC b0 (fun b q => nth k (zp_bubbles_same q om m b) (RtoC 0))).
  { intros k. eapply RdC_ext; [intros b q Hb Hq; symmetry; apply zp_same_nth; auto|]. apply RdC_R; auto. eapply Rd_ext; [intros b q _ _; symmetry; apply FZ_legs|].
    apply Rd_plus; auto; apply NE; auto. apply (Ob_to0 2), EB. }
  assert (Z : forall k, RdC b0 (fun b q => nth k (zp_bubbles_m0 q om m b) (RtoC 0))).
  { intros k. eapply RdC_ext; [intros b q Hb Hq; symmetry; apply zp_m0_nth; auto|]. apply RdC_R; auto. eapply Rd_ext; [intros b q _ _; symmetry; apply FZ_legs|].
    apply Rd_plus; auto. apply (N0 (fun q => nth k (ZBL PI2 q om q (- - (m * m))) 0)). apply MB. nra. }
  assert (O : forall k, (k < 3)%nat -> RdC b0 (fun b q => nth k (zp_bubbles_0 q om b) (RtoC 0))).
  { intros k Hk. eapply RdC_ext; [intros b q Hb Hq; symmetry; apply zp_zero_nth; auto|]. apply RdC_R; auto. eapply Rd_ext; [intros b q _ _; symmetry; apply FZ_legs|].
    apply Rd_plus; auto.
    - apply (Rd_ext b0 (fun b q => n0 q b * nth k (ZBL PI2 q om q 0) 0)).
      + intros b q _ _. f_equal. destruct k as [|[|[|k]]]; [| | |lia]; unfold ZAL, ZBL; cbn [nth]; unfold Rdiv; ring.
      + apply (N0 (fun q => nth k (ZBL PI2 q om q 0) 0)). apply MB. lra.
    - apply (N0 (fun q => nth k (ZBL PI2 q om q (- 0)) 0)). apply MB. lra. }
  assert (T : forall k, RdC b0 (fun b q => nth k (map RtoC (tadpoles q m b)) (RtoC 0))).
  { intros k. eapply RdC_ext; [intros b q Hb Hq; symmetry; apply nth_RtoC|]. apply RdC_R; auto. now apply tadpoles_Rd. }
  assert (T0 : forall k, (k < 3)%nat -> RdC b0 (fun b q => nth k (map RtoC (tadpoles_0 q b)) (RtoC 0))).
  { intros k Hk. eapply RdC_ext; [intros b q Hb Hq; symmetry; apply nth_RtoC|]. apply RdC_R; auto. now apply tadpoles_0_Rd. }
  assert (N : forall k : nat, RdC b0 (fun b q => RtoC 0)).
  { intros _. eapply RdC_ext; [|apply (RdC_scal b0 Hb0 (RtoC 0) _ (T 0%nat))]. intros; cbv beta; ring. }
  unfold GLUE. destruct n as [|[|[|[|n]]]]; cbn [nth]; [| | |apply (N 0%nat)|apply (N n)].
  - apply GHc_Rd; auto; first [apply S|apply Z|apply O; lia|apply T|apply T0; lia].
  - apply GPc_Rd; auto; first [apply S|apply Z|apply O; lia|apply T|apply T0; lia|apply RdC_plus; auto; apply RdC_scal; auto; first [apply T|apply T0; lia]].
  - apply GPc_Rd; auto; first [apply S|apply Z|apply O; lia|apply T|apply T0; lia].
Qed.
End Rd.
