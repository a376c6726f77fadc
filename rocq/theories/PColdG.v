(** * The gluonic and ghost integrands decay uniformly as the temperature goes to zero *)
From Coq Require Import Reals Lra Lia List Psatz.
From Coquelicot Require Import Coquelicot.
From Verif Require Import Num CField MCommon MThermal MThermalZM MThermalZP MPolar SpecInteg PCplx PDistr PVac PDress2 PCoh PCoh2 PMass PMass2 PReal PForms PForms2 PCombo PComboR PJoint2 PCold PBound.
Import List ListNotations.
Open Scope R_scope.

Ltac ob0 := repeat first
  [ assumption
  | match goal with
    | |- Ob 0 (Rmult ?c) => change (Ob 0 (fun q => c * q))
    | |- Ob 0 (fun _ => ?c) => apply Ob_const
    | |- Ob 0 (fun q => q) => apply (Ob_to0 1), Ob_id
    | |- Ob 0 (fun q => _ + _) => apply Ob_plus
    | |- Ob 0 (fun q => _ - _) => apply Ob_minus
    | |- Ob 0 (fun q => - _) => apply Ob_opp
    | |- Ob 0 (fun q => _ / ?c) => apply Ob_div
    | |- Ob 0 (fun q => _ * _) => apply Ob_mult0
    end ].
Ltac ob1 := first
  [ assumption
  | match goal with
    | |- Ob 1 (Rmult ?c) => change (Ob 1 (fun q => c * q)); ob1
    | |- Ob 1 (fun q => q) => apply Ob_id
    | |- Ob 1 (fun q => _ + _) => apply Ob_plus; ob1
    | |- Ob 1 (fun q => _ - _) => apply Ob_minus; ob1
    | |- Ob 1 (fun q => - _) => apply Ob_opp; ob1
    | |- Ob 1 (fun q => _ / ?c) => apply Ob_div; ob1
    | |- Ob 1 (fun q => _ * _) => first [solve [apply Ob_ml1; [ob1|ob0]]|solve [apply Ob_mr1; [ob0|ob1]]]
    end ].

(** ** One leg of a bubble *)
Definition A0 (pi2 q om p e d : R) : R := q / (16 * pi2 * p) * G0 q om p e d.
Definition A1 (pi2 q om p e d : R) : R := q / (64 * pi2 * (p * p * p) * (om * om + p * p)) * Gl q om p e d.
Definition A2 (pi2 q om p e d : R) : R := - (q / (128 * pi2 * (p * p * p)) * Gt q om p e d).
Definition A3 (pi2 q om p e d : R) : R := (- (GP q om p e d + GM q om p e d) - q / p * (GP q om p e d - GM q om p e d)) / (16 * pi2).
Definition B3 (pi2 q om p e d : R) : R := q / p * (GP q om p e d - GM q om p e d) / (16 * pi2).
Definition A4 (pi2 q om p e d : R) : R :=
  (- (HP q om p e d + HM q om p e d) + 4 * (om * om) * Sr om p d + 8 * (om * om) * (q * q) - 2 * (q / p) * U4 q om p e d
   - q / p * (HP q om p e d - HM q om p e d)) / (64 * pi2 * (p * p) * (om * om + p * p)).
Definition B4 (pi2 q om p e d : R) : R :=
  (- (8 * (om * om) * (q * q)) + 2 * (q / p) * U4 q om p e d + q / p * (HP q om p e d - HM q om p e d)) / (64 * pi2 * (p * p) * (om * om + p * p)).
Definition A5 (pi2 q om p e d : R) : R := q / (8 * pi2 * p) * (- G0 q om p e d / 4 - q / p + U1 q om p e d / (8 * (p * p))).
Definition B5 (pi2 q om p e d : R) : R := q / (8 * pi2 * p) * (q / p - U1 q om p e d / (8 * (p * p))).
Definition AL pi2 q om p e d := [A0 pi2 q om p e d; A1 pi2 q om p e d; A2 pi2 q om p e d; A3 pi2 q om p e d; A4 pi2 q om p e d; A5 pi2 q om p e d].
Definition BL pi2 q om p e d := [A0 pi2 q om p e d; A1 pi2 q om p e d; A2 pi2 q om p e d; B3 pi2 q om p e d; B4 pi2 q om p e d; B5 pi2 q om p e d].

Lemma FL_legs pi2 q om p n1 e1 n2 e2 d k :
  nth k (FL pi2 q om p n1 e1 n2 e2 d) 0 = n1 * nth k (AL pi2 q om p e1 d) 0 + n2 * nth k (BL pi2 q om p e2 (- d)) 0.
Proof.
  do 7 (destruct k as [|k]; [cbn [nth FL AL BL]; unfold F0, Fl, Ft, D0, Dl, Dt, A0, A1, A2, A3, B3, A4, B4, A5, B5, Rdiv; ring|]).
  cbn. destruct k; ring.
Qed.

Lemma ln_diff a b : 0 < a -> 0 < b -> Rabs (ln a - ln b) <= Rabs (a - b) * (/ a + / b).
Proof.
  intros Ha Hb.
  assert (U : forall x y, 0 < x -> 0 < y -> ln x - ln y <= (x - y) * / y).
  { intros x y Hx Hy. assert (E : ln x - ln y = ln (x * / y)) by (rewrite ln_mult, ln_Rinv; auto using Rinv_0_lt_compat; ring).
    assert (P : 0 < x * / y) by (apply Rmult_lt_0_compat; auto using Rinv_0_lt_compat).
    assert (L : ln (x * / y) <= x * / y - 1) by (pose proof (exp_ineq1_le (ln (x * / y))) as X; rewrite exp_ln in X by auto; lra).
    rewrite E. eapply Rle_trans; [exact L|]. right. field. lra. }
  pose proof (U a b Ha Hb). pose proof (U b a Hb Ha). pose proof (Rinv_0_lt_compat a Ha). pose proof (Rinv_0_lt_compat b Hb).
  pose proof (Rabs_pos (a - b)). pose proof (Rle_abs (a - b)). pose proof (Rle_abs (- (a - b))). rewrite Rabs_Ropp in *.
  apply Rabs_le. split; nra.
Qed.

Section Leg.
Variables (om p d : R) (e : R -> R).
Hypothesis Hom : om <> 0.
Hypothesis Hp : 0 < p.
Hypothesis He : forall q, 0 < q -> 0 < e q.
Hypothesis HNP : Ob 0 (fun q => / NP q om p (e q) d).
Hypothesis HNM : Ob 0 (fun q => / NM q om p (e q) d).
Lemma Ob_LA : Ob 1 (fun q => LA q om p (e q) d).
Proof.
  apply (Ob_le 1 (fun q => q * (4 * p * Rabs (Sr om p d) * (/ NP q om p (e q) d + / NM q om p (e q) d)))); [|ob1].
  intros q Hq. assert (P : 0 < NP q om p (e q) d) by (apply NP_pos; auto; apply He; auto). assert (M : 0 < NM q om p (e q) d) by (apply NM_pos; auto; apply He; auto).
  unfold LA. pose proof (ln_diff _ _ P M) as L.
  assert (E : NP q om p (e q) d - NM q om p (e q) d = 8 * q * p * Sr om p d) by (unfold NP, NM; ring).
  rewrite E in L. pose proof (Rinv_0_lt_compat _ P). pose proof (Rinv_0_lt_compat _ M).
  unfold Rdiv. rewrite Rabs_mult, (Rabs_right (/ 2)) by lra.
  rewrite (Rabs_right (q * _)).
  - replace (8 * q * p * Sr om p d) with ((8 * q * p) * Sr om p d) in L by ring. rewrite (Rabs_mult (8 * q * p)), (Rabs_right (8 * q * p)) in L by nra. nra.
  - apply Rle_ge. pose proof (Rabs_pos (Sr om p d)). repeat apply Rmult_le_pos; try lra.
Qed.
Lemma Ob_PH : Ob 0 (fun q => PH q om p (e q) d).
Proof. apply (Ob_bounded _ PI). intros q Hq. now apply PH_bound. Qed.

(** A massive leg. *)
Section M.
Hypothesis Oe : Ob 0 e.
Variable pi2 : R.
Lemma massive_leg k : Ob 0 (fun q => nth k (AL pi2 q om p (e q) d) 0) /\ Ob 0 (fun q => nth k (BL pi2 q om p (e q) d) 0).
Proof.
  pose proof (Ob_to0 1 _ Ob_LA) as OL. pose proof Ob_PH as OP. pose proof (Ob_to0 1 _ Ob_id) as Oi. cbv beta in *. pose proof (Ob_ext 0 _ _ (fun q _ => eq_refl (e q)) Oe) as Oe'.
  assert (OW : Ob 0 (fun q => W om p (e q))) by (unfold W; ob0).
  assert (OX : Ob 0 (fun q => X2 om p (e q) d)) by (unfold X2; ob0).
  assert (OY : Ob 0 (fun q => Y2 om p (e q) d)) by (unfold Y2; ob0).
  assert (O0 : Ob 0 (fun q => G0 q om p (e q) d)) by (unfold G0; ob0).
  assert (Ol : Ob 0 (fun q => Gl q om p (e q) d)) by (unfold Gl; ob0).
  assert (Ot : Ob 0 (fun q => Gt q om p (e q) d)) by (unfold Gt; ob0).
  assert (OGP : Ob 0 (fun q => GP q om p (e q) d)) by (unfold GP, Rdiv; ob0).
  assert (OGM : Ob 0 (fun q => GM q om p (e q) d)) by (unfold GM, Rdiv; ob0).
  assert (OHP : Ob 0 (fun q => HP q om p (e q) d)) by (unfold HP, Rdiv; ob0).
  assert (OHM : Ob 0 (fun q => HM q om p (e q) d)) by (unfold HM, Rdiv; ob0).
  assert (O4 : Ob 0 (fun q => U4 q om p (e q) d)) by (unfold U4; ob0).
  assert (O1 : Ob 0 (fun q => U1 q om p (e q) d)) by (unfold U1; ob0).
  do 6 (destruct k as [|k]; [cbn [nth AL BL]; unfold A0, A1, A2, A3, A4, A5, B3, B4, B5; split; ob0|]).
  cbn [nth AL BL]; destruct k; split; apply Ob_const.
Qed.
End M.

(** A massless leg: every weight except three is of second order in q. *)
Section Z.
Hypothesis Oe : Ob 1 e.
Variable pi2 : R.
Lemma massless_leg k : Ob 2 (fun q => nth k (BL pi2 q om p (e q) d) 0).
Proof.
  pose proof Ob_LA as OL. pose proof Ob_PH as OP. pose proof Ob_id as Oi. pose proof (Ob_to0 1 _ Oi) as Oi0. cbv beta in *.
  pose proof (Ob_ext 1 _ _ (fun q _ => eq_refl (e q)) Oe) as Oe'. pose proof (Ob_to0 1 _ Oe') as Oe0. cbv beta in *.
  pose proof (Ob_to0 1 _ OL) as OL0. cbv beta in *.
  assert (OW : Ob 1 (fun q => W om p (e q))) by (unfold W; ob1).
  pose proof (Ob_to0 1 _ OW) as OW0. cbv beta in *.
  assert (OX : Ob 0 (fun q => X2 om p (e q) d)) by (unfold X2; ob0).
  assert (OY : Ob 1 (fun q => Y2 om p (e q) d)) by (unfold Y2; ob1).
  pose proof (Ob_to0 1 _ OY) as OY0. cbv beta in *.
  assert (O0 : Ob 1 (fun q => G0 q om p (e q) d)) by (unfold G0; ob1).
  assert (Ol : Ob 1 (fun q => Gl q om p (e q) d)) by (unfold Gl; ob1).
  assert (Ot : Ob 1 (fun q => Gt q om p (e q) d)) by (unfold Gt; ob1).
  assert (O4 : Ob 1 (fun q => U4 q om p (e q) d)) by (unfold U4; ob1).
  assert (O1 : Ob 1 (fun q => U1 q om p (e q) d)) by (unfold U1; ob1).
  assert (OGP : Ob 1 (fun q => GP q om p (e q) d - GM q om p (e q) d)).
  { apply (Ob_ext 1 (fun q => q * (8 * p) * / NP q om p (e q) d - 2 * (Sr om p d - 2 * q * p) * (q * (8 * p * Sr om p d)) * / NP q om p (e q) d * / NM q om p (e q) d)).
    - intros q Hq. assert (P : 0 < NP q om p (e q) d) by (apply NP_pos; auto; apply He; auto). assert (M : 0 < NM q om p (e q) d) by (apply NM_pos; auto; apply He; auto).
      replace (q * (8 * p * Sr om p d)) with (NP q om p (e q) d - NM q om p (e q) d) by (unfold NP, NM; ring). unfold GP, GM. field. lra.
    - apply Ob_minus.
      + ob1.
      + replace 1%nat with (1 + 0)%nat by auto. apply Ob_mult; [|ob0]. replace 1%nat with (1 + 0)%nat by auto. apply Ob_mult; [|ob0]. ob1. }
  assert (OHP : Ob 1 (fun q => HP q om p (e q) d - HM q om p (e q) d)).
  { apply (Ob_ext 1 (fun q => (GP q om p (e q) d - GM q om p (e q) d) * X2 om p (e q) d + 2 * (2 * e q * om) * Y2 om p (e q) d * (/ NP q om p (e q) d - / NM q om p (e q) d))).
    - intros q Hq. assert (P : 0 < NP q om p (e q) d) by (apply NP_pos; auto; apply He; auto). assert (M : 0 < NM q om p (e q) d) by (apply NM_pos; auto; apply He; auto).
      unfold HP, HM, GP, GM. field. lra.
    - apply Ob_plus; ob1. }
  assert (Q : forall w c, Ob 1 w -> Ob 2 (fun q => q / c * w q)).
  { intros w c Hw. apply (Ob_mult 1 1 (fun q => q / c) w); auto. now apply Ob_div. }
  destruct k as [|[|[|[|[|[|k]]]]]]; cbn [nth AL BL]; unfold A0, A1, A2, B3, B4, B5.
  - now apply Q.
  - now apply Q.
  - apply Ob_opp. now apply Q.
  - apply Ob_div. now apply Q.
  - apply Ob_div. apply Ob_plus; [|now apply Q]. apply Ob_plus.
    + apply Ob_opp. apply (Ob_mult 0 2 (fun _ => 8 * (om * om)) (fun q => q * q)); [apply Ob_const|]. apply (Ob_mult 1 1 (fun q => q) (fun q => q)); auto.
    + apply (Ob_mult 1 1 (fun q => 2 * (q / p))); auto. ob1.
  - apply Q. apply Ob_minus; ob1.
  - cbn [nth AL BL]; destruct k; exists 0, 0%nat; (split; [lra|]); intros; rewrite Rabs_R0; lra.
Qed.
End Z.
End Leg.

(** ** Lower bounds on the squared moduli *)
Lemma massive_NP om p d m : om <> 0 -> m <> 0 -> Ob 0 (fun q => / NP q om p (energy q m) d) /\ Ob 0 (fun q => / NM q om p (energy q m) d).
Proof.
  intros Hom Hm.
  assert (B : forall q, 0 < q -> 4 * (om * om) * (m * m) <= (2 * energy q m * om) * (2 * energy q m * om)).
  { intros q Hq. assert (E : energy q m * energy q m = m * m + q * q) by (rewrite energy_R; apply sqrt_sqrt; nra).
    replace ((2 * energy q m * om) * (2 * energy q m * om)) with (4 * (om * om) * (energy q m * energy q m)) by ring. rewrite E.
    pose proof (Rlt_0_sqr om Hom). unfold Rsqr in *. nra. }
  assert (P : 0 < 4 * (om * om) * (m * m)) by (pose proof (Rlt_0_sqr om Hom); pose proof (Rlt_0_sqr m Hm); unfold Rsqr in *; nra).
  split; apply (Ob_inv_bounded _ (4 * (om * om) * (m * m))); auto; intros q Hq; specialize (B q Hq); unfold NP, NM.
  - pose proof (Rle_0_sqr (Sr om p d + 2 * q * p)). unfold Rsqr in *. lra.
  - pose proof (Rle_0_sqr (Sr om p d - 2 * q * p)). unfold Rsqr in *. lra.
Qed.
Lemma massless_NP om p d : om <> 0 -> 0 < p -> 0 <= d -> Ob 0 (fun q => / NP q om p q d) /\ Ob 0 (fun q => / NM q om p q d).
Proof.
  intros Hom Hp Hd. pose proof (Rlt_0_sqr om Hom) as H2. unfold Rsqr in H2.
  assert (HS : 0 < Sr om p d) by (unfold Sr; nra). set (S := Sr om p d) in *.
  assert (D : 0 < om * om + p * p) by nra.
  assert (P : 0 < S * S * (om * om) / (om * om + p * p)) by (apply Rdiv_lt_0_compat; auto; apply Rmult_lt_0_compat; nra).
  assert (LM : forall q, S * S * (om * om) / (om * om + p * p) <= NM q om p q d).
  { intros q. apply Rmult_le_reg_r with (om * om + p * p); auto. unfold Rdiv. rewrite Rmult_assoc, Rinv_l, Rmult_1_r by lra. unfold NM. fold S.
    pose proof (Rle_0_sqr (2 * q * (om * om + p * p) - S * p)) as X. unfold Rsqr in X.
    replace (((S - 2 * q * p) * (S - 2 * q * p) + 2 * q * om * (2 * q * om)) * (om * om + p * p))
      with (S * S * (om * om) + (2 * q * (om * om + p * p) - S * p) * (2 * q * (om * om + p * p) - S * p)) by ring. lra. }
  split; apply (Ob_inv_bounded _ (S * S * (om * om) / (om * om + p * p))); auto; intros q Hq.
  eapply Rle_trans; [apply (LM q)|]. unfold NM, NP. fold S. assert (0 <= S * q * p) by (repeat apply Rmult_le_pos; lra). nra.
Qed.

Section Bubbles.
Variables (b0 om p m pi2 : R).
Hypothesis Hb0 : 0 < b0.
Hypothesis Hom : om <> 0.
Hypothesis Hp : 0 < p.
Hypothesis Hm : m <> 0.
Let Ee q : 0 < q -> 0 < energy q m.
Proof. intros H. pose proof (energy_ge_q m q H). lra. Qed.
Let ME d k := massive_leg om p d (fun q => energy q m) Hom Hp Ee (proj1 (massive_NP om p d m Hom Hm)) (proj2 (massive_NP om p d m Hom Hm)) (Ob_energy m) pi2 k.
Let ZE d k (Hd : 0 <= d) := massless_leg om p d (fun q => q) Hom Hp (fun q H => H) (proj1 (massless_NP om p d Hom Hp Hd)) (proj2 (massless_NP om p d Hom Hp Hd)) Ob_id pi2 k.
Lemma same_Rd k : Rd b0 (fun b q => nth k (FL pi2 q om p (nE q m b) (energy q m) (nE q m b) (energy q m) 0) 0).
Proof.
  eapply Rd_ext; [intros b q _ _; symmetry; apply FL_legs|].
  apply Rd_plus; auto; (apply Rd_mult; [auto|now apply Rd_nE|]); [apply (ME 0 k)|apply (ME (-0) k)].
Qed.
Lemma m0_Rd k : Rd b0 (fun b q => nth k (FL pi2 q om p (nE q m b) (energy q m) (n0 q b) q (- (m * m))) 0).
Proof.
  eapply Rd_ext; [intros b q _ _; symmetry; apply FL_legs|].
  apply Rd_plus; auto.
  - apply Rd_mult; [auto|now apply Rd_nE|apply (ME (- (m * m)) k)].
  - apply (Rd_n0 b0 Hb0 (fun q => nth k (BL pi2 q om p q (- - (m * m))) 0)). apply (ZE (- - (m * m)) k). nra.
Qed.
Lemma zero_Rd k : (k < 3)%nat -> Rd b0 (fun b q => nth k (FL pi2 q om p (n0 q b) q (n0 q b) q 0) 0).
Proof.
  intros Hk. eapply Rd_ext; [intros b q _ _; symmetry; apply FL_legs|].
  assert (Z0 : 0 <= - 0) by lra. assert (Z1 : 0 <= 0) by lra.
  apply Rd_plus; auto.
  - apply (Rd_n0 b0 Hb0 (fun q => nth k (AL pi2 q om p q 0) 0)).
    destruct k as [|[|[|k]]]; [apply (ZE 0 0 Z1)|apply (ZE 0 1 Z1)|apply (ZE 0 2 Z1)|lia].
  - apply (Rd_n0 b0 Hb0 (fun q => nth k (BL pi2 q om p q (- 0)) 0)). apply (ZE (- 0) k Z0).
Qed.

Lemma tadpoles_Rd k : Rd b0 (fun b q => nth k (tadpoles q m b) 0).
Proof.
  pose proof (Rd_bose b0 Hb0 m Hm) as B. pose proof (Rd_b_bose b0 Hb0 m Hm) as BB. destruct (bose_neg_bd b0 Hb0 m Hm) as [M HM].
  pose proof (Rd_multb b0 Hb0 _ _ M BB HM) as BBN. cbv beta in BBN. pose proof (Ob_energy m) as OE. pose proof (Ob_inv_energy m Hm) as OI.
  assert (P2 : PI2 <> 0) by (unfold PI2; pose proof PI_RGT_0; nra).
  assert (E0 : forall q, 0 < q -> energy q m <> 0) by (intros q Hq; pose proof (Ee q Hq); lra).
  assert (K : forall f w, Ob 0 w -> (forall b q, b0 <= b -> 0 < q -> bose_distribution_zero_chempot (energy q m) b * w q = f b q) -> Rd b0 f).
  { intros f w Hw H. apply (Rd_ext b0 _ f H). now apply Rd_mult. }
  assert (K2 : forall f w1 w2, Ob 0 w1 -> Ob 0 w2 -> (forall b q, b0 <= b -> 0 < q -> bose_distribution_zero_chempot (energy q m) b * w1 q + b * bose_distribution_zero_chempot (energy q m) b * bose_distribution_zero_chempot (- energy q m) b * w2 q = f b q) -> Rd b0 f).
  { intros f w1 w2 Hw1 Hw2 H. apply (Rd_ext b0 _ f H). apply Rd_plus; auto; now apply Rd_mult. }
  destruct k as [|[|[|[|[|[|[|[|[|k]]]]]]]]]; cbn [nth tadpoles]; unfold j_m_i, j_m_l_i, j_m_t_i, d_j_m_i, d_j_m_l_i, d_j_m_t_i, d2_j_m_i, d2_j_m_l_i, d2_j_m_t_i; numcbn.
  - apply (K _ (fun q => q * q * / energy q m * / (2 * PI2))); [ob0|]. intros b q _ Hq. specialize (E0 q Hq). field. auto.
  - apply (K _ (fun q => - (q * q * energy q m * / (2 * PI2)))); [ob0|]. intros b q _ Hq. field. auto.
  - apply (K _ (fun q => q * q * (q * q) * / energy q m * / (6 * PI2))); [ob0|]. intros b q _ Hq. specialize (E0 q Hq). field. auto.
  - apply (K _ (fun q => - (/ energy q m * / (4 * PI2)))); [ob0|]. intros b q _ Hq. specialize (E0 q Hq). field. auto.
  - apply (K _ (fun q => energy q m * / (4 * PI2))); [ob0|]. intros b q _ Hq. field. auto.
  - apply (K _ (fun q => - (q * q * / energy q m * / (4 * PI2)))); [ob0|]. intros b q _ Hq. specialize (E0 q Hq). field. auto.
  - apply (K2 _ (fun q => / energy q m * / energy q m * / energy q m * / (8 * PI2)) (fun q => - (/ energy q m * / energy q m * / (8 * PI2)))); [ob0|ob0|].
    intros b q _ Hq. specialize (E0 q Hq). field. auto.
  - apply (K2 _ (fun q => / energy q m * / (8 * PI2)) (fun q => / (8 * PI2))); [ob0|ob0|].
    intros b q _ Hq. specialize (E0 q Hq). field. auto.
  - apply (K _ (fun q => / energy q m * / (8 * PI2))); [ob0|]. intros b q _ Hq. specialize (E0 q Hq). field. auto.
  - cbn [nth tadpoles]. apply (K _ (fun _ => 0)); [apply Ob_const|]. intros; destruct k; ring.
Qed.
Lemma tadpoles_0_Rd k : (k < 3)%nat -> Rd b0 (fun b q => nth k (tadpoles_0 q b) 0).
Proof.
  intros Hk. pose proof (Rd_q_bose b0 Hb0) as B.
  assert (P2 : PI2 <> 0) by (unfold PI2; pose proof PI_RGT_0; nra).
  assert (K : forall f w, Ob 0 w -> (forall b q, b0 <= b -> 0 < q -> q * bose_distribution_zero_chempot q b * w q = f b q) -> Rd b0 f).
  { intros f w Hw H. apply (Rd_ext b0 _ f H). now apply Rd_mult. }
  destruct k as [|[|[|k]]]; [| | |lia]; cbn [nth tadpoles_0]; unfold j_0_i, j_0_l_i, j_0_t_i; numcbn.
  - apply (K _ (fun q => / (2 * PI2))); [ob0|]. intros. field. auto.
  - apply (K _ (fun q => - (q * q * / (2 * PI2)))); [ob0|]. intros. field. auto.
  - apply (K _ (fun q => q * q * / (6 * PI2))); [ob0|]. intros. field. auto.
Qed.
End Bubbles.

(** ** Complex-valued combinations *)
Section Cplx.
Variable b0 : R.
Hypothesis Hb0 : 0 < b0.
Definition RdC (f : R -> R -> C) : Prop := Rd b0 (fun b q => Cmod (f b q)).
Lemma RdC_ext f g : (forall b q, b0 <= b -> 0 < q -> f b q = g b q) -> RdC f -> RdC g.
Proof. intros E. apply Rd_ext. intros. now rewrite E. Qed.
Lemma RdC_R f : Rd b0 f -> RdC (fun b q => RtoC (f b q)).
Proof. apply Rd_le. intros. rewrite Cmod_R, Rabs_Rabsolu. lra. Qed.
Lemma RdC_plus f g : RdC f -> RdC g -> RdC (fun b q => f b q + g b q)%C.
Proof.
  intros H G. eapply Rd_le; [|apply (Rd_plus b0 Hb0 _ _ H G)]. intros b q _ _. cbv beta.
  rewrite !Rabs_right; [apply Cmod_triangle| |apply Rle_ge, Cmod_ge_0]. pose proof (Cmod_ge_0 (f b q)). pose proof (Cmod_ge_0 (g b q)). lra.
Qed.
Lemma RdC_opp f : RdC f -> RdC (fun b q => - f b q)%C.
Proof. apply Rd_ext. intros. now rewrite Cmod_opp. Qed.
Lemma RdC_minus f g : RdC f -> RdC g -> RdC (fun b q => f b q - g b q)%C.
Proof. intros H G. apply (RdC_plus f (fun b q => - g b q)%C); auto. now apply RdC_opp. Qed.
Lemma RdC_scal c f : RdC f -> RdC (fun b q => c * f b q)%C.
Proof. intros H. apply (Rd_ext b0 (fun b q => Cmod c * Cmod (f b q))); [intros; now rewrite Cmod_mult|]. now apply Rd_scal. Qed.
Lemma RdC_scalr c f : RdC f -> RdC (fun b q => f b q * c)%C.
Proof. intros H. apply (RdC_ext (fun b q => c * f b q)%C); [intros; ring|]. now apply RdC_scal. Qed.
Lemma RdC_div c f : RdC f -> RdC (fun b q => f b q / c)%C.
Proof. apply RdC_scalr. Qed.
Ltac rdc := repeat first
  [ assumption
  | match goal with
    | |- RdC (fun b q => _ + _)%C => apply RdC_plus
    | |- RdC (fun b q => _ - _)%C => apply RdC_minus
    | |- RdC (fun b q => - _)%C => apply RdC_opp
    | |- RdC (fun b q => _ / ?c)%C => apply RdC_div
    | |- RdC (fun b q => ?c * _)%C => apply RdC_scal
    | |- RdC (fun b q => _ * ?c)%C => apply RdC_scalr
    end ].
Lemma GHc_Rd s m2 im2 im0 i00 di jm j0 dj : RdC im0 -> RdC i00 -> RdC di -> RdC jm -> RdC j0 -> RdC dj ->
  RdC (fun b q => GHc s m2 im2 (im0 b q) (i00 b q) (di b q) (jm b q) (j0 b q) (dj b q)).
Proof. intros. unfold GHc. rdc. Qed.
Lemma GPc_Rd s m2 im2 x00 xs x0 is i0 dxs dx0 ds d0 jm j0 dj d2j Jm J0 dJ d2J :
  RdC x00 -> RdC xs -> RdC x0 -> RdC is -> RdC i0 -> RdC dxs -> RdC dx0 -> RdC ds -> RdC d0 -> RdC jm -> RdC j0 -> RdC dj -> RdC d2j ->
  RdC Jm -> RdC J0 -> RdC dJ -> RdC d2J ->
  RdC (fun b q => GPc s m2 im2 (x00 b q) (xs b q) (x0 b q) (is b q) (i0 b q) (dxs b q) (dx0 b q) (ds b q) (d0 b q) (jm b q) (j0 b q) (dj b q) (d2j b q) (Jm b q) (J0 b q) (dJ b q) (d2J b q)).
Proof. intros. unfold GPc. rdc. Qed.

Variables (om p m : R).
Hypothesis Hom : om <> 0.
Hypothesis Hp : 0 < p.
Hypothesis Hm : m <> 0.
Lemma glue_Rd n : RdC (fun b q => nth n (glue_parts q om p m b) (RtoC 0)).
Proof.
  eapply RdC_ext; [intros b q Hb Hq; symmetry; rewrite glue_GLUE_R; reflexivity|].
  assert (S : forall k, RdC (fun b q => nth k (bubbles_same q om p m b) (RtoC 0))).
  { intros k. eapply RdC_ext; [intros b q Hb Hq; symmetry; apply same_nth; auto; lra|]. apply RdC_R. now apply same_Rd. }
  assert (Z : forall k, RdC (fun b q => nth k (bubbles_m0 q om p m b) (RtoC 0))).
  { intros k. eapply RdC_ext; [intros b q Hb Hq; symmetry; apply m0_nth; auto; lra|]. apply RdC_R. now apply m0_Rd. }
  assert (O : forall k, (k < 3)%nat -> RdC (fun b q => nth k (bubbles_0 q om p b) (RtoC 0))).
  { intros k Hk. eapply RdC_ext; [intros b q Hb Hq; symmetry; apply zero_nth; auto; lra|]. apply RdC_R. now apply zero_Rd. }
  assert (T : forall k, RdC (fun b q => nth k (map RtoC (tadpoles q m b)) (RtoC 0))).
  { intros k. eapply RdC_ext; [intros b q Hb Hq; symmetry; apply nth_RtoC|]. apply RdC_R. now apply tadpoles_Rd. }
  assert (T0 : forall k, (k < 3)%nat -> RdC (fun b q => nth k (map RtoC (tadpoles_0 q b)) (RtoC 0))).
  { intros k Hk. eapply RdC_ext; [intros b q Hb Hq; symmetry; apply nth_RtoC|]. apply RdC_R. now apply tadpoles_0_Rd. }
  assert (N : forall k : nat, RdC (fun b q => RtoC 0)).
  { intros _. eapply RdC_ext; [|apply (RdC_scal (RtoC 0) _ (T 0%nat))]. intros; cbv beta; ring. }
  unfold GLUE. destruct n as [|[|[|[|n]]]]; cbn [nth]; [| | |apply (N 0%nat)|apply (N n)].
  - apply GHc_Rd; first [apply S|apply Z|apply O; lia|apply T|apply T0; lia].
  - apply GPc_Rd; first [apply S|apply Z|apply O; lia|apply T|apply T0; lia|apply RdC_plus; apply RdC_scal; first [apply T|apply T0; lia]].
  - apply GPc_Rd; first [apply S|apply Z|apply O; lia|apply T|apply T0; lia].
Qed.
End Cplx.
