(** * The thermal logarithm at real frequency; real forms of the integrands *)
From Coq Require Import Reals Lra List.
From Coquelicot Require Import Coquelicot.
From Verif Require Import Num CField MCommon MThermal MThermalZM MThermalZP MPolar SpecInteg PCplx PDistr PVac PDress2 PCoh PCoh2 PLogs PMass PMassZ PMass2.
Import List ListNotations.
Open Scope R_scope.

(** ** Principal argument off the real axis *)
Lemma Carg_pos x y : 0 < y -> Carg (x, y) = PI / 2 - atan (x / y).
Proof.
  intros Hy. unfold Carg. simpl. destruct (Rlt_dec 0 x) as [Hx|Hx].
  - replace (x / y) with (/ (y / x)) by (field; lra). rewrite atan_inv by (apply Rdiv_lt_0_compat; auto). ring.
  - destruct (Rlt_dec x 0) as [Hx'|Hx'].
    + destruct (Rlt_dec y 0); [lra|]. replace (x / y) with (- / (y / - x)) by (field; lra). rewrite atan_opp, atan_inv by (apply Rdiv_lt_0_compat; lra).
      replace (y / x) with (- (y / - x)) by (field; lra). rewrite atan_opp. field.
    + destruct (Rlt_dec 0 y); [|lra]. replace x with 0 by lra. replace (0 / y) with 0 by (field; lra). rewrite atan_0. ring.
Qed.
Lemma Carg_neg x y : y < 0 -> Carg (x, y) = - (PI / 2) - atan (x / y).
Proof.
  intros Hy. replace (x, y) with (Cconj (x, - y)) by (apply Ceq; simpl; ring).
  rewrite Carg_conj by (unfold slit; simpl; left; lra). rewrite Carg_pos by lra. replace (x / - y) with (- (x / y)) by (field; lra). rewrite atan_opp. ring.
Qed.

(** ** The logarithm *)
Definition Sr (om p d : R) : R := om * om + p * p + d.
Definition NP (q om p e d : R) : R := (Sr om p d + 2 * q * p) * (Sr om p d + 2 * q * p) + (2 * e * om) * (2 * e * om).
Definition NM (q om p e d : R) : R := (Sr om p d - 2 * q * p) * (Sr om p d - 2 * q * p) + (2 * e * om) * (2 * e * om).
Definition LA (q om p e d : R) : R := (ln (NP q om p e d) - ln (NM q om p e d)) / 2.
Definition PT (q om p e d : R) : R :=
  atan ((Sr om p d * Sr om p d + (2 * e * om) * (2 * e * om) - (2 * q * p) * (2 * q * p)) / (2 * (2 * q * p) * (2 * e * om))).
Definition PH (q om p e d : R) : R := PT q om p e d - (if Rlt_dec 0 om then PI / 2 else - (PI / 2)).

Section Log.
Variables (q om p e d : R).
Hypothesis Hq : 0 < q.
Hypothesis Hom : om <> 0.
Hypothesis He : 0 < e.

Lemma Y_pos : 0 < (2 * e * om) * (2 * e * om).
Proof. apply (Rlt_0_sqr (2 * e * om)). apply Rmult_integral_contrapositive_currified; lra. Qed.
Lemma NP_pos : 0 < NP q om p e d.
Proof. unfold NP. pose proof Y_pos. pose proof (Rle_0_sqr (Sr om p d + 2 * q * p)). unfold Rsqr in *. lra. Qed.
Lemma NM_pos : 0 < NM q om p e d.
Proof. unfold NM. pose proof Y_pos. pose proof (Rle_0_sqr (Sr om p d - 2 * q * p)). unfold Rsqr in *. lra. Qed.
Lemma CR_R : CR om p e d = (Sr om p d, 2 * e * om).
Proof. unfold CR, Sr. apply Ceq; simpl; ring. Qed.
Lemma CRp : (CR om p e d + RtoC 2 * q * p)%C = (Sr om p d + 2 * q * p, 2 * e * om).
Proof. rewrite CR_R. apply Ceq; simpl; ring. Qed.
Lemma CRm : (CR om p e d - RtoC 2 * q * p)%C = (Sr om p d - 2 * q * p, 2 * e * om).
Proof. rewrite CR_R. apply Ceq; simpl; ring. Qed.
Definition larg : C := ((Sr om p d * Sr om p d + (2 * e * om) * (2 * e * om) - (2 * q * p) * (2 * q * p)) / NM q om p e d,
  - (2 * (2 * q * p) * (2 * e * om)) / NM q om p e d).
Lemma larg_eq : ((CR om p e d + RtoC 2 * q * p) / (CR om p e d - RtoC 2 * q * p))%C = larg.
Proof.
  rewrite CRp, CRm. unfold larg. pose proof NM_pos as H. unfold NM in *. unfold Cdiv, Cinv, Cmult. apply Ceq; simpl; field; nra.
Qed.
Lemma IP_R : IP q om p e d = ((Sr om p d + 2 * q * p) / NP q om p e d, - (2 * e * om) / NP q om p e d).
Proof. unfold IP. rewrite CRp. unfold Cinv, NP. apply Ceq; simpl; repeat (f_equal; try ring). Qed.
Lemma IM_R : IM q om p e d = ((Sr om p d - 2 * q * p) / NM q om p e d, - (2 * e * om) / NM q om p e d).
Proof. unfold IM. rewrite CRm. unfold Cinv, NM. apply Ceq; simpl; repeat (f_equal; try ring). Qed.

Hypothesis Hp : 0 < p.
Lemma larg_im : snd larg <> 0.
Proof.
  unfold larg. simpl. pose proof NM_pos. apply Rmult_integral_contrapositive_currified; [|apply Rinv_neq_0_compat; lra].
  apply Ropp_neq_0_compat. repeat apply Rmult_integral_contrapositive_currified; lra.
Qed.
Lemma larg_mod : Cmod larg = sqrt (NP q om p e d / NM q om p e d).
Proof.
  unfold Cmod. f_equal. unfold larg; simpl. pose proof NM_pos as H. unfold NP, NM in *. field. nra.
Qed.
Lemma CL_R : CL q om p e d = (LA q om p e d, PH q om p e d).
Proof.
  unfold CL. rewrite larg_eq. unfold Cln. pose proof NP_pos as HP. pose proof NM_pos as HM. f_equal.
  - rewrite larg_mod. assert (0 < NP q om p e d / NM q om p e d) by (apply Rdiv_lt_0_compat; auto).
    unfold LA. rewrite <- ln_div by auto.
    assert (E : ln (sqrt (NP q om p e d / NM q om p e d)) + ln (sqrt (NP q om p e d / NM q om p e d)) = ln (NP q om p e d / NM q om p e d)).
    { rewrite <- ln_mult by (apply sqrt_lt_R0; auto). rewrite sqrt_sqrt; auto. lra. }
    lra.
  - unfold larg, PH, PT. assert (HY : 2 * (2 * q * p) * (2 * e * om) <> 0) by (repeat apply Rmult_integral_contrapositive_currified; lra).
    set (X := Sr om p d * Sr om p d + 2 * e * om * (2 * e * om) - 2 * q * p * (2 * q * p)).
    set (Y := 2 * (2 * q * p) * (2 * e * om)) in *.
    assert (EX : X / NM q om p e d / (- Y / NM q om p e d) = - (X / Y)) by (field; repeat split; lra).
    destruct (Rlt_dec 0 om) as [H|H].
    + assert (0 < Y) by (unfold Y; repeat apply Rmult_lt_0_compat; lra).
      rewrite Carg_neg. 2: { unfold Rdiv. assert (0 < / NM q om p e d) by (apply Rinv_0_lt_compat; auto). nra. }
      rewrite EX, atan_opp. ring.
    + assert (0 < - Y) by (unfold Y; replace (- (2 * (2 * q * p) * (2 * e * om))) with (2 * (2 * q * p) * (2 * e * - om)) by ring; repeat apply Rmult_lt_0_compat; lra).
      rewrite Carg_pos. 2: { unfold Rdiv. apply Rmult_lt_0_compat; auto. apply Rinv_0_lt_compat; auto. }
      rewrite EX, atan_opp. ring.
Qed.
End Log.
Lemma Sr_opp om p d : Sr (- om) p d = Sr om p d.
Proof. unfold Sr. ring. Qed.
Lemma NP_opp q om p e d : NP q (- om) p e d = NP q om p e d.
Proof. unfold NP. rewrite Sr_opp. ring. Qed.
Lemma NM_opp q om p e d : NM q (- om) p e d = NM q om p e d.
Proof. unfold NM. rewrite Sr_opp. ring. Qed.
Lemma LA_opp q om p e d : LA q (- om) p e d = LA q om p e d.
Proof. unfold LA. now rewrite NP_opp, NM_opp. Qed.
Lemma PT_opp q om p e d : PT q (- om) p e d = - PT q om p e d.
Proof.
  unfold PT. rewrite Sr_opp, <- atan_opp. f_equal. replace (2 * (2 * q * p) * (2 * e * - om)) with (- (2 * (2 * q * p) * (2 * e * om))) by ring.
  replace (2 * e * - om * (2 * e * - om)) with (2 * e * om * (2 * e * om)) by ring. unfold Rdiv. rewrite Rinv_opp. ring.
Qed.
Lemma PH_opp q om p e d : om <> 0 -> PH q (- om) p e d = - PH q om p e d.
Proof. intros H. unfold PH. rewrite PT_opp. destruct (Rlt_dec 0 (- om)), (Rlt_dec 0 om); lra. Qed.
Lemma PH_bound q om p e d : om <> 0 -> Rabs (PH q om p e d) <= PI.
Proof.
  intros H. unfold PH, PT. match goal with |- context [atan ?x] => pose proof (atan_bound x) as B end. pose proof PI_RGT_0.
  apply Rabs_le. destruct (Rlt_dec 0 om); lra.
Qed.
