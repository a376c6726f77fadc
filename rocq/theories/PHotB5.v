(** * The gluon and ghost polarizations at zero momentum and high temperature *)
From Coq Require Import Reals Lra Lia List Psatz.
From Coquelicot Require Import Coquelicot.
From Verif Require Import Num CField MCommon MConsts MVacuum MThermal MThermalZP MPolar MDress MQuark SpecInteg SpecInt SpecLim SpecHtl PCplx PDistr PVac PDress PDress2 PCoh PCoh2 PMass PMass2 PReal PForms PForms2 PCombo PComboR PLim PLimC PJoint2 PCold PBound PColdG PColdI PZpForm PColdFin PDeriv PHtl PHtl2 PHtl3 PColdQ PDensity PHot PHot2 PHotB PHotB2 PHotB3 PHotB4.
Import List ListNotations.
Open Scope R_scope.
Local Notation PI2 := MThermal.PI2.

Section ZGlue.
Variables (om m : R).
Hypothesis Hom : om <> 0.
Hypothesis Hm : m <> 0.
Notation pp := (PI * PI).
Let s := om * om.
Let Hs : 0 < s. Proof. unfold s. nra. Qed.
Let PIn : PI <> 0. Proof. exact PI_neq0. Qed.
Let P2 : pp <> 0. Proof. now apply Rmult_integral_contrapositive_currified. Qed.
Let P2' : PI2 <> 0. Proof. exact P2. Qed.
Let M2 : m * m <> 0. Proof. now apply Rmult_integral_contrapositive_currified. Qed.
(** leg asymptotics *)
Definition ZCA (d : R) : list R := [0; (s + d) / (24 * pp * s); (s + d) / (24 * pp * s); 0; - / (24 * pp * s); - / (24 * pp * s)].
Definition ZCB (d : R) : list R := [0; (s + d) / (24 * pp * s); (s + d) / (24 * pp * s); 0; / (24 * pp * s); / (24 * pp * s)].
Lemma zp_asym mm d k : tends INF (fun q => nth k (ZAL PI2 q om (energy q mm) d) 0 / (q * q)) (nth k (ZCA d) 0) /\
                    tends INF (fun q => nth k (ZBL PI2 q om (energy q mm) d) 0 / (q * q)) (nth k (ZCB d) 0).
Proof.
  assert (TI : tends INF (fun q => / q) 0) by apply tends_inv_infty.
  assert (TX : tends INF (fun q => / q * / q) 0) by (eapply tends_eq; [|apply tends_mult; exact TI]; ring).
  assert (E2 : forall q, energy (T := R) q mm * energy q mm = mm * mm + q * q) by (intros; rewrite energy_R; apply sqrt_sqrt; nra).
  (* q^2/ZN and the two ratios *)
  assert (TN : tends INF (fun q => q * q / ZN om (energy q mm) d) (/ (4 * s))).
  { apply (tends_ext (fun q => / ((s + d) * (s + d) * (/ q * / q) + 4 * s * (mm * mm * (/ q * / q) + 1)))).
    - exists 0; intros q Hq. pose proof (ZN_pos om (energy q mm) d Hom (energy_pos' q Hq mm)) as HN.
      assert (EN : ZN om (energy q mm) d = (s + d) * (s + d) + 4 * s * (mm * mm + q * q)) by (unfold ZN, s; rewrite <- E2; ring). rewrite EN in *.
      field. split; lra.
    - eapply tends_eq; [|eapply tends_inv; [|apply tends_plus; [apply tends_mult; [apply tends_const|exact TX]|apply tends_mult; [apply tends_const|apply tends_plus; [apply tends_mult; [apply tends_const|exact TX]|apply tends_const]]]]].
      + eqR. field. lra.
      + lra. }
  assert (TA : tends INF (fun q => q * q * ZA om (energy q mm) d) ((s + d) / (4 * s))).
  { apply (tends_ext (fun q => (s + d) * (q * q / ZN om (energy q mm) d))); [exists 0; intros q Hq; unfold ZA, s, Rdiv; ring|].
    apply (tends_mult (fun _ => s + d)); [apply tends_const|exact TN]. }
  assert (TA0 : tends INF (fun q => ZA om (energy q mm) d) 0).
  { apply (tends_ext (fun q => / q * / q * (q * q * ZA om (energy q mm) d))); [exists 0; intros q Hq; field; lra|]. eapply tends_eq; [|apply tends_mult; [exact TX|exact TA]]. ring. }
  assert (TQ : tends INF (fun q => q * q * ZQ om (energy q mm) d) (- / (4 * s))).
  { apply (tends_ext (fun q => / q * / q * ((q * q * ZA om (energy q mm) d) * (q * q * ZA om (energy q mm) d)) - 4 * s * (mm * mm * (/ q * / q) + 1) * (q * q / ZN om (energy q mm) d * (q * q / ZN om (energy q mm) d)))).
    - exists 0; intros q Hq. pose proof (ZN_pos om (energy q mm) d Hom (energy_pos' q Hq mm)) as HN. unfold ZQ, ZB.
      replace (2 * energy q mm * om / ZN om (energy q mm) d * (2 * energy q mm * om / ZN om (energy q mm) d)) with (4 * s * (energy q mm * energy q mm) * (/ ZN om (energy q mm) d * / ZN om (energy q mm) d)) by (unfold s; field; lra).
      rewrite E2. field. lra.
    - eapply tends_eq; [|apply tends_minus; [apply tends_mult; [exact TX|apply tends_mult; exact TA]|apply tends_mult; [apply tends_mult; [apply tends_const|apply tends_plus; [apply tends_mult; [apply tends_const|exact TX]|apply tends_const]]|apply tends_mult; exact TN]]].
      eqR. field. lra. }
  assert (TQ0 : tends INF (fun q => ZQ om (energy q mm) d) 0).
  { apply (tends_ext (fun q => / q * / q * (q * q * ZQ om (energy q mm) d))); [exists 0; intros q Hq; field; lra|]. eapply tends_eq; [|apply tends_mult; [exact TX|exact TQ]]. ring. }
  change PI2 with pp.
  Ltac fin h := apply (tends_ext h); [exists 0; intros q Hq; cbv beta; field; repeat split; auto; lra|].
  destruct k as [|[|[|[|[|[|k]]]]]]; unfold ZAL, ZBL, ZCA, ZCB; cbn [nth].
  - split; (fin (fun q => / (2 * pp) * ZA om (energy q mm) d); eapply tends_eq; [|apply tends_mult; [apply tends_const|exact TA0]]; eqR; ring).
  - split; (fin (fun q => / (6 * pp) * (q * q * ZA om (energy q mm) d)); eapply tends_eq; [|apply tends_mult; [apply tends_const|exact TA]]; eqR; field; repeat split; auto; lra).
  - split; (fin (fun q => / (6 * pp) * (q * q * ZA om (energy q mm) d)); eapply tends_eq; [|apply tends_mult; [apply tends_const|exact TA]]; eqR; field; repeat split; auto; lra).
  - split.
    + fin (fun q => / (4 * pp) * (2 * ZQ om (energy q mm) d - / q * / q * ZA om (energy q mm) d)). eapply tends_eq; [|apply tends_mult; [apply tends_const|apply tends_minus; [apply tends_mult; [apply tends_const|exact TQ0]|apply tends_mult; [exact TX|exact TA0]]]]. eqR. ring.
    + fin (fun q => - / (2 * pp) * ZQ om (energy q mm) d). eapply tends_eq; [|apply tends_mult; [apply tends_const|exact TQ0]]. eqR. ring.
  - split.
    + fin (fun q => / (4 * pp) * (2 / 3 * (q * q * ZQ om (energy q mm) d) - ZA om (energy q mm) d)). eapply tends_eq; [|apply tends_mult; [apply tends_const|apply tends_minus; [apply tends_mult; [apply tends_const|exact TQ]|exact TA0]]]. eqR. field. repeat split; auto; lra.
    + fin (fun q => - / (6 * pp) * (q * q * ZQ om (energy q mm) d)). eapply tends_eq; [|apply tends_mult; [apply tends_const|exact TQ]]. eqR. field. repeat split; auto; lra.
  - split.
    + fin (fun q => / (4 * pp) * (2 / 3 * (q * q * ZQ om (energy q mm) d) - ZA om (energy q mm) d)). eapply tends_eq; [|apply tends_mult; [apply tends_const|apply tends_minus; [apply tends_mult; [apply tends_const|exact TQ]|exact TA0]]]. eqR. field. repeat split; auto; lra.
    + fin (fun q => - / (6 * pp) * (q * q * ZQ om (energy q mm) d)). eapply tends_eq; [|apply tends_mult; [apply tends_const|exact TQ]]. eqR. field. repeat split; auto; lra.
  - destruct k; split; (eapply tends_ext; [|apply tends_const]; exists 0; intros q Hq; cbv beta; field; lra).
Qed.
Let EB d k : Ob 2 (fun q => nth k (ZBL PI2 q om (energy q m) d) 0). Proof. apply zp_legB; [apply Ob_energy|now apply massive_ZN]. Qed.
Let EA d k : Ob 0 (fun q => nth k (ZAL PI2 q om (energy q m) d) 0). Proof. apply zp_legA; [apply Ob_energy|now apply massive_ZN]. Qed.
Let MB d k : 0 <= d -> Ob 2 (fun q => nth k (ZBL PI2 q om q d) 0). Proof. intros. apply (zp_legB om d (fun q => q)); [apply (Ob_to0 1), Ob_id|now apply massless_ZN]. Qed.
Let LZ d k : tends INF (fun q => nth k (ZAL PI2 q om q d) 0 / (q * q)) (nth k (ZCA d) 0) /\ tends INF (fun q => nth k (ZBL PI2 q om q d) 0 / (q * q)) (nth k (ZCB d) 0).
Proof.
  destruct (zp_asym 0 d k) as [A B].
  split; (eapply tends_ext; [|first [exact A|exact B]]); exists 0; intros q Hq; cbv beta; (rewrite energy_0; [reflexivity|lra]).
Qed.
Definition ZC (d : R) (k : nat) : R := nth k (ZCA d) 0 + nth k (ZCB (- d)) 0.
Lemma ZC_val d : ZC d 0 = 0 /\ ZC d 1 = / (12 * pp) /\ ZC d 2 = / (12 * pp) /\ ZC d 3 = 0 /\ ZC d 4 = 0 /\ ZC d 5 = 0.
Proof. unfold ZC, ZCA, ZCB; cbn [nth]. repeat split; eqR; first [ring|field; repeat split; auto; lra]. Qed.
Lemma zp_same_HB k : HB (fun b q => nth k (FZ PI2 q om (nE q m b) (energy q m) (nE q m b) (energy q m) 0) 0) (ZC 0 k).
Proof.
  eapply HB_ext; [intros b q _ _; apply FZ_legs|].
  apply HB_plus; [apply (HB_nE m Hm); [apply EA|exact (proj1 (zp_asym m 0 k))]|apply (HB_nE m Hm); [apply (Ob_to0 2), EB|exact (proj2 (zp_asym m (- 0) k))]].
Qed.
Lemma zp_m0_HB k : HB (fun b q => nth k (FZ PI2 q om (nE q m b) (energy q m) (n0 q b) q (- (m * m))) 0) (ZC (- (m * m)) k).
Proof.
  eapply HB_ext; [intros b q _ _; apply FZ_legs|].
  apply HB_plus; [apply (HB_nE m Hm); [apply EA|exact (proj1 (zp_asym m (- (m * m)) k))]|].
  apply (HB_n0 (fun q => nth k (ZBL PI2 q om q (- - (m * m))) 0)); [apply MB; nra|exact (proj2 (LZ (- - (m * m)) k))].
Qed.
Lemma zp_zero_HB k : (k < 3)%nat -> HB (fun b q => nth k (FZ PI2 q om (n0 q b) q (n0 q b) q 0) 0) (ZC 0 k).
Proof.
  intros Hk. eapply HB_ext; [intros b q _ _; apply FZ_legs|].
  apply HB_plus.
  - apply (HB_n0 (fun q => nth k (ZAL PI2 q om q 0) 0)); [|exact (proj1 (LZ 0 k))].
    apply (Ob_ext 2 (fun q => nth k (ZBL PI2 q om q 0) 0)); [|apply MB; lra].
    intros q _. destruct k as [|[|[|k]]]; [| | |lia]; unfold ZAL, ZBL; cbn [nth]; unfold Rdiv; ring.
  - apply (HB_n0 (fun q => nth k (ZBL PI2 q om q (- 0)) 0)); [apply MB; lra|exact (proj2 (LZ (- 0) k))].
Qed.
Definition ZR (n : nat) (b q : R) : R :=
  let bs k := nth k (FZ PI2 q om (nE q m b) (energy q m) (nE q m b) (energy q m) 0) 0 in
  let bm k := nth k (FZ PI2 q om (nE q m b) (energy q m) (n0 q b) q (- (m * m))) 0 in
  let b0 k := nth k (FZ PI2 q om (n0 q b) q (n0 q b) q 0) 0 in
  let tm k := nth k (tadpoles q m b) 0 in
  let t0 k := nth k (tadpoles_0 q b) 0 in
  let M := (m * m) in
  let iM := / m * / m in
  match n with
  | 0%nat => GHr s M iM (bm 0%nat) (b0 0%nat) (bm 3%nat) (tm 0%nat) (t0 0%nat) (tm 3%nat)
  | 1%nat => GPr s M iM (b0 1%nat) (bs 1%nat) (bm 1%nat) (bs 0%nat) (bm 0%nat) (bs 4%nat) (bm 4%nat) (bs 3%nat) (bm 3%nat) (tm 0%nat) (t0 0%nat) (tm 3%nat) (tm 6%nat)
       (tm 2%nat) (t0 2%nat) (tm 5%nat) (tm 8%nat)
  | 2%nat => GPr s M iM (b0 2%nat) (bs 2%nat) (bm 2%nat) (bs 0%nat) (bm 0%nat) (bs 5%nat) (bm 5%nat) (bs 3%nat) (bm 3%nat) (tm 0%nat) (t0 0%nat) (tm 3%nat) (tm 6%nat)
       (tm 2%nat) (t0 2%nat) (tm 5%nat) (tm 8%nat)
  | _ => 0 end.
Lemma zp_glue_ZR n b q : 0 < b -> 0 < q -> nth n (zp_glue_parts q om m b) (RtoC 0) = RtoC (ZR n b q).
Proof.
  intros Hb Hq. rewrite zp_glue_GLUE_R. unfold GLUE.
  assert (Sn : forall k, nth k (zp_bubbles_same q om m b) (RtoC 0) = RtoC (nth k (FZ PI2 q om (nE q m b) (energy q m) (nE q m b) (energy q m) 0) 0)) by (intros; now apply zp_same_nth).
  assert (Mn : forall k, nth k (zp_bubbles_m0 q om m b) (RtoC 0) = RtoC (nth k (FZ PI2 q om (nE q m b) (energy q m) (n0 q b) q (- (m * m))) 0)) by (intros; now apply zp_m0_nth).
  assert (Zn : forall k, nth k (zp_bubbles_0 q om b) (RtoC 0) = RtoC (nth k (FZ PI2 q om (n0 q b) q (n0 q b) q 0) 0)) by (intros; now apply zp_zero_nth).
  assert (I2 : (/ RtoC m * / RtoC m)%C = RtoC (/ m * / m)) by (rewrite RtoC_mult, RtoC_inv_all; reflexivity).
  rewrite I2, <- !(RtoC_mult m m), <- !(RtoC_mult om om). unfold nn.
  destruct n as [|[|[|[|n]]]]; cbn [nth]; rewrite ?Cmult_1_l, ?Cmult_0_l, ?Cplus_0_r, ?Sn, ?Mn, ?Zn, ?nth_RtoC, ?GHc_r, ?GPc_r; reflexivity.
Qed.
Definition zp_c (n : nat) : R := match n with 1%nat | 2%nat => 4 * / (12 * pp) - 2 * / (2 * pp) + 0 - - / (4 * pp) | _ => 0 end.
Definition zp_d (n : nat) : R := match n with 1%nat | 2%nat => / (6 * pp) | _ => 0 end.
Lemma zp_glue_HB n : HB (fun b q => ZR n b q - zp_d n * Q4 m b q) (zp_c n).
Proof.
  assert (Z : HB (fun b q => 0 - 0 * Q4 m b q) 0) by (eapply HB_ext; [|apply HB_0]; intros; cbv beta; ring).
  assert (B : forall d k, ZC d k = ZC 0 k \/ (6 <= k)%nat).
  { intros d k. destruct (ZC_val d) as (E0 & E1 & E2 & E3 & E4 & E5). destruct (ZC_val 0) as (F0' & F1 & F2 & F3 & F4 & F5). destruct k as [|[|[|[|[|[|k]]]]]]; try (left; congruence). right. lia. }
  destruct (ZC_val 0) as (Z0 & Z1 & Z2 & Z3 & Z4 & Z5).
  assert (S : forall k c, ZC 0 k = c -> HB (fun b q => nth k (FZ PI2 q om (nE q m b) (energy q m) (nE q m b) (energy q m) 0) 0) c) by (intros k c <-; apply zp_same_HB).
  assert (Mm : forall k c, (k < 6)%nat -> ZC 0 k = c -> HB (fun b q => nth k (FZ PI2 q om (nE q m b) (energy q m) (n0 q b) q (- (m * m))) 0) c).
  { intros k c Hk <-. eapply HB_eq; [|apply zp_m0_HB]. destruct (B (- (m * m)) k); [assumption|lia]. }
  assert (O : forall k c, (k < 3)%nat -> ZC 0 k = c -> HB (fun b q => nth k (FZ PI2 q om (n0 q b) q (n0 q b) q 0) 0) c) by (intros k c Hk <-; now apply zp_zero_HB).
  assert (J0 : HB (fun b q => nth 0 (tadpoles_0 q b) 0) (/ (2 * pp))) by apply j0_HB.
  assert (T : forall k, k <> 1%nat -> k <> 2%nat -> HB (fun b q => nth k (tadpoles q m b) 0) (nth k tadc 0)) by (apply tadpoles_HB; auto).
  assert (T0 := T 0%nat ltac:(lia) ltac:(lia)). assert (T3 := T 3%nat ltac:(lia) ltac:(lia)). assert (T5 := T 5%nat ltac:(lia) ltac:(lia)). assert (T6 := T 6%nat ltac:(lia) ltac:(lia)). assert (T8 := T 8%nat ltac:(lia) ltac:(lia)).
  cbn [nth tadc] in T0, T3, T5, T6, T8.
  assert (QJ : HB (fun b q => (nth 2 (tadpoles q m b) 0 - nth 2 (tadpoles_0 q b) 0) * (/ m * / m) - / (6 * pp) * Q4 m b q) 0).
  { eapply HB_ext; [|apply HB_0]. intros b q _ Hq. cbv beta. rewrite jt_diff by auto. ring. }
  Ltac fz := first [assumption|match goal with S : forall k c, ZC 0 k = c -> _, M : forall k c, (k < 6)%nat -> _, O : forall k c, (k < 3)%nat -> _ |- _ => first [solve [apply S; assumption]|solve [apply M; [lia|assumption]]|solve [apply O; [lia|assumption]]] end].
  destruct n as [|[|[|n]]]; unfold ZR, zp_d, zp_c; cbv zeta; [| | |exact Z].
  - eapply HB_ext; [intros b q _ _; rewrite Rmult_0_l, Rminus_0_r; reflexivity|]. apply (GH_HB s m) with (jl := / (2 * pp)); fz.
  - apply (GP_HB s m) with (h := fun b q => / (6 * pp) * Q4 m b q) (xl := / (12 * pp)) (jl := / (2 * pp)) (ql := 0) (dJl := - / (4 * pp)); fz.
  - apply (GP_HB s m) with (h := fun b q => / (6 * pp) * Q4 m b q) (xl := / (12 * pp)) (jl := / (2 * pp)) (ql := 0) (dJl := - / (4 * pp)); fz.
Qed.
Definition zp_lim (n : nat) : R := match n with 1%nat | 2%nat => - / 9 | _ => 0 end.
Lemma zp_val n : zp_c n * (pp / 6) + zp_d n * - (pp / 4) = zp_lim n.
Proof. destruct n as [|[|[|n]]]; unfold zp_c, zp_d, zp_lim; field; auto. Qed.
Lemma zp_glue_hot J n I : exact_integrator J ->
  tendsC INF (fun T => integrateC J (compact_C (fun q => nth n (zp_glue_parts q om m (/ T)%R) (RtoC 0))) 0 1 I / RtoC (T * T))%C (RtoC (zp_lim n)).
Proof.
  intros HJ. apply (HB_hot J m HJ Hm (fun b q => nth n (zp_glue_parts q om m b) (RtoC 0)) (ZR n) (zp_c n) (zp_d n)).
  - intros. now apply zp_glue_ZR.
  - intros. now apply zp_glue_good.
  - apply zp_glue_HB.
  - apply zp_val.
Qed.
End ZGlue.
