(** * The argument of the thermal logarithm; reality and evenness at real frequency *)
From Coq Require Import Reals Lra Lia List.
From Coquelicot Require Import Coquelicot.
From Verif Require Import Num CField MCommon MThermal MThermalZM MThermalZP MPolar SpecInteg PCplx PDistr PVac PDress2 PCoh PCoh2 PLogs PMass PMassZ PMass2 PReal PForms PForms2 PCombo.
Import List ListNotations.
Open Scope R_scope.

Lemma Cexp_Cln z : snd z <> 0 -> Cexp (Cln z) = z.
Proof.
  destruct z as [x y]. simpl. intros Hy. unfold Cexp, Cln. cbn [fst snd].
  assert (Hy2 : 0 < y * y) by (apply Rsqr_pos_lt in Hy; exact Hy).
  assert (Hm : 0 < Cmod (x, y)).
  { unfold Cmod. cbn [fst snd]. apply sqrt_lt_R0. pose proof (Rle_0_sqr x). unfold Rsqr in *. nra. }
  rewrite exp_ln by auto.
  assert (E : sqrt (1 + (x / y)²) = Cmod (x, y) / Rabs y).
  { unfold Cmod. cbn [fst snd]. rewrite <- sqrt_Rsqr_abs, <- sqrt_div by (unfold Rsqr; pose proof (Rle_0_sqr x); unfold Rsqr in *; nra).
    f_equal. unfold Rsqr. field. auto. }
  assert (Ha : Rabs y <> 0) by (now apply Rabs_no_R0).
  destruct (Rlt_dec 0 y) as [H|H].
  - rewrite Carg_pos by auto. rewrite cos_shift, sin_shift, sin_atan, cos_atan, E. rewrite Rabs_pos_eq in * by lra. apply Ceq; cbn [fst snd]; field; repeat split; lra.
  - assert (H' : y < 0) by lra. rewrite Carg_neg by auto.
    replace (- (PI / 2) - atan (x / y)) with (- (PI / 2 - - atan (x / y))) by ring. rewrite cos_neg, sin_neg, cos_shift, sin_shift, cos_neg, sin_neg, sin_atan, cos_atan, E.
    rewrite Rabs_left in * by lra. apply Ceq; cbn [fst snd]; field; repeat split; lra.
Qed.
Lemma Carg_bound z : snd z <> 0 -> - PI < Carg z < PI.
Proof.
  destruct z as [x y]. simpl. intros Hy. pose proof PI_RGT_0. destruct (Rlt_dec 0 y) as [H1|H1].
  - rewrite Carg_pos by auto. pose proof (atan_bound (x / y)). lra.
  - rewrite Carg_neg by lra. pose proof (atan_bound (x / y)). lra.
Qed.

Lemma tlog_R q (om p en d : R) : tlog q om p en d = CL q om p en d.
Proof.
  unfold tlog, CL, r_0, CR. numcbn. apply (f_equal Cln). apply (f_equal2 Cdiv); pushRtoC; ring.
Qed.
Lemma tlog_same_R q (om p en : R) : tlog_same_mass q om p en = CL q om p en (RtoC 0).
Proof.
  unfold tlog_same_mass, CL, r_0_same_mass, CR. numcbn. apply (f_equal Cln). apply (f_equal2 Cdiv); pushRtoC; ring.
Qed.
Lemma tlog_zero_R q (om p : R) : tlog_zero_mass q om p = CL q om p q (RtoC 0).
Proof.
  unfold tlog_zero_mass, CL, r_0_same_mass, CR. numcbn. apply (f_equal Cln). apply (f_equal2 Cdiv); pushRtoC; ring.
Qed.

Section Arg.
Variables (q om p en d : R).
Hypothesis Hq : 0 < q.
Hypothesis Hom : om <> 0.
Hypothesis Hp : p <> 0.
Hypothesis Hen : 0 < en.
Let r : C := (om * om + p * p + d, 2 * en * om).
Lemma pair_neq (z : C) : snd z <> 0 -> z <> RtoC 0.
Proof. intros H E. apply H. rewrite E. reflexivity. Qed.
Lemma y_neq : 2 * en * om <> 0.
Proof. repeat apply Rmult_integral_contrapositive_currified; lra. Qed.
Lemma larg_im' : snd (larg q om p en d) <> 0.
Proof.
  unfold larg. simpl. pose proof (NM_pos q om p en d Hom Hen). apply Rmult_integral_contrapositive_currified; [|apply Rinv_neq_0_compat; lra].
  apply Ropp_neq_0_compat. repeat apply Rmult_integral_contrapositive_currified; lra.
Qed.
Lemma r_CR : r = CR om p en d.
Proof. unfold r. rewrite CR_R. reflexivity. Qed.
Lemma w_larg : ((r + RtoC (2 * q * p)) / (r - RtoC (2 * q * p)))%C = larg q om p en d.
Proof. rewrite <- larg_eq by auto. rewrite r_CR. now rewrite !RtoC_mult. Qed.
Lemma arg_regular :
  (r + RtoC (2 * q * p))%C <> RtoC 0 /\ (r - RtoC (2 * q * p))%C <> RtoC 0 /\
  ((r + RtoC (2 * q * p)) / (r - RtoC (2 * q * p)))%C <> RtoC 0 /\
  snd ((r + RtoC (2 * q * p)) / (r - RtoC (2 * q * p)))%C <> 0 /\
  Cexp (tlog q om p en d) = ((r + RtoC (2 * q * p)) / (r - RtoC (2 * q * p)))%C /\
  - PI < snd (tlog q om p en d) < PI.
Proof.
  pose proof y_neq as Hy. repeat split.
  - apply pair_neq. simpl. now rewrite Rplus_0_r.
  - apply pair_neq. simpl. now rewrite Ropp_0, Rplus_0_r.
  - rewrite w_larg. apply pair_neq, larg_im'.
  - rewrite w_larg. apply larg_im'.
  - rewrite w_larg, tlog_R. unfold CL. rewrite larg_eq by auto. apply Cexp_Cln, larg_im'.
  - rewrite tlog_R. unfold CL. rewrite larg_eq by auto. unfold Cln. cbn [snd]. apply Carg_bound, larg_im'.
  - rewrite tlog_R. unfold CL. rewrite larg_eq by auto. unfold Cln. cbn [snd]. apply Carg_bound, larg_im'.
Qed.
End Arg.
Lemma tlog_same_eq q (om p en : R) : tlog_same_mass q om p en = tlog q om p en 0.
Proof. now rewrite tlog_same_R, tlog_R. Qed.
Lemma tlog_zero_eq q (om p : R) : tlog_zero_mass q om p = tlog q om p q 0.
Proof. now rewrite tlog_zero_R, tlog_R. Qed.

(** ** Reality *)
Definition isreal (z : C) : Prop := snd z = 0.
Lemma ir_RtoC x : isreal (RtoC x). Proof. reflexivity. Qed.
Lemma ir_plus a b : isreal a -> isreal b -> isreal (a + b)%C.
Proof. unfold isreal. simpl. intros -> ->. ring. Qed.
Lemma ir_opp a : isreal a -> isreal (- a)%C.
Proof. unfold isreal. simpl. intros ->. ring. Qed.
Lemma ir_minus a b : isreal a -> isreal b -> isreal (a - b)%C.
Proof. intros. apply ir_plus; auto using ir_opp. Qed.
Lemma ir_mult a b : isreal a -> isreal b -> isreal (a * b)%C.
Proof. unfold isreal. simpl. intros -> ->. ring. Qed.
Lemma ir_inv a : isreal a -> isreal (/ a)%C.
Proof. unfold isreal. simpl. intros ->. unfold Rdiv. ring. Qed.
Lemma ir_div a b : isreal a -> isreal b -> isreal (a / b)%C.
Proof. intros. apply ir_mult; auto using ir_inv. Qed.
Create HintDb ir.
#[global] Hint Resolve ir_RtoC ir_plus ir_opp ir_minus ir_mult ir_inv ir_div : ir.
Ltac ir := repeat first [assumption | apply ir_RtoC | apply ir_plus | apply ir_opp | apply ir_minus | apply ir_mult | apply ir_inv | apply ir_div].

Lemma GHc_real s m2 im2 a b c d e f : isreal s -> isreal m2 -> isreal im2 -> isreal a -> isreal b -> isreal c -> isreal d -> isreal e -> isreal f ->
  isreal (GHc s m2 im2 a b c d e f).
Proof. intros. unfold GHc. ir. Qed.
Lemma GPc_real s m2 im2 x00 xs x0 is i0 dxs dx0 ds d0 jm j0 dj d2j Jm J0 dJ d2J :
  isreal s -> isreal m2 -> isreal im2 -> Forall isreal [x00; xs; x0; is; i0; dxs; dx0; ds; d0; jm; j0; dj; d2j; Jm; J0; dJ; d2J] ->
  isreal (GPc s m2 im2 x00 xs x0 is i0 dxs dx0 ds d0 jm j0 dj d2j Jm J0 dJ d2J).
Proof.
  intros H1 H2 H3 H. repeat match goal with H : Forall _ (_ :: _) |- _ => inversion_clear H end. unfold GPc. ir.
Qed.

Lemma map_real l : Forall (fun z => snd z = 0) (map RtoC l).
Proof. induction l; simpl; constructor; auto. Qed.

Section RealEven.
Variables (q om p beta : R).
Hypothesis Hq : 0 < q.
Hypothesis Hom : om <> 0.
Hypothesis Hp : 0 < p.
Lemma bubbles_real (m1 m2 m : R) :
  Forall (fun z => snd z = 0) (bubbles_mm q om p m1 m2 beta ++ bubbles_same q om p m beta ++ bubbles_m0 q om p m beta ++ bubbles_0 q om p beta).
Proof.
  rewrite mm_form, same_form, m0_form, zero_form by auto. repeat (apply Forall_app; split); apply map_real.
Qed.

Ltac bub := repeat match goal with
  | H : Forall _ (_ :: _) |- _ => inversion_clear H end.
Lemma glue_real m : Forall (fun z => snd z = 0) (glue_parts q om p m beta).
Proof.
  pose proof (bubbles_real m m m) as H. repeat (apply Forall_app in H; destruct H as [? H]).
  rewrite glue_R. rewrite same_RR, m0_RR, zero_R in *. unfold bubbles_same, bubbles_m0, bubbles_0 in *. bub.
  unfold glue_parts. rewrite ghost_combo, glue_l_combo, glue_t_combo.
  assert (Hs : isreal (sC (RtoC om) p)) by (unfold sC; ir).
  rewrite <- i_m_0_i_CR, <- i_m_0_l_i_CR, <- i_m_0_t_i_CR, <- d_i_m_0_i_CR, <- d_i_m_0_l_i_CR, <- d_i_m_0_t_i_CR,
    <- i_m_m_i_same_mass_CR, <- i_m_m_l_i_same_mass_CR, <- i_m_m_t_i_same_mass_CR,
    <- d_i_m_m_i_same_mass_CR, <- d_i_m_m_l_i_same_mass_CR, <- d_i_m_m_t_i_same_mass_CR in *.
  repeat apply Forall_cons; [apply GHc_real|apply GPc_real|apply GPc_real|apply Forall_nil];
  repeat apply Forall_cons; try apply Forall_nil; try assumption; unfold TLc; ir; auto.
Qed.

(** ** Evenness *)
Lemma W_opp a b : W (- om) a b = W om a b. Proof. unfold W. ring. Qed.
Lemma X2_opp a b c : X2 (- om) a b c = X2 om a b c. Proof. unfold X2. rewrite W_opp, Sr_opp. ring. Qed.
Lemma Y2_opp a b c : Y2 (- om) a b c = - Y2 om a b c. Proof. unfold Y2. rewrite W_opp, Sr_opp. ring. Qed.
Ltac opp := rewrite ?W_opp, ?X2_opp, ?Y2_opp, ?Sr_opp, ?NP_opp, ?NM_opp, ?LA_opp, ?(PH_opp q om p) by exact Hom; rewrite ?Rmult_opp_opp; unfold Rdiv; ring.
Lemma G0_opp e d : G0 q (- om) p e d = G0 q om p e d. Proof. unfold G0. opp. Qed.
Lemma Gl_opp e d : Gl q (- om) p e d = Gl q om p e d. Proof. unfold Gl. opp. Qed.
Lemma Gt_opp e d : Gt q (- om) p e d = Gt q om p e d. Proof. unfold Gt. opp. Qed.
Lemma GP_opp e d : GP q (- om) p e d = GP q om p e d. Proof. unfold GP. opp. Qed.
Lemma GM_opp e d : GM q (- om) p e d = GM q om p e d. Proof. unfold GM. opp. Qed.
Lemma HP_opp e d : HP q (- om) p e d = HP q om p e d. Proof. unfold HP. opp. Qed.
Lemma HM_opp e d : HM q (- om) p e d = HM q om p e d. Proof. unfold HM. opp. Qed.
Lemma U4_opp e d : U4 q (- om) p e d = U4 q om p e d. Proof. unfold U4. opp. Qed.
Lemma U1_opp e d : U1 q (- om) p e d = U1 q om p e d. Proof. unfold U1. opp. Qed.
Lemma FL_opp pi2 n1 e1 n2 e2 d : FL pi2 q (- om) p n1 e1 n2 e2 d = FL pi2 q om p n1 e1 n2 e2 d.
Proof.
  unfold FL, F0, Fl, Ft, D0, Dl, Dt.
  now rewrite !G0_opp, !Gl_opp, !Gt_opp, !GP_opp, !GM_opp, !HP_opp, !HM_opp, !U4_opp, !U1_opp, !Sr_opp, !Rmult_opp_opp.
Qed.
Lemma FQl_opp pi2 ncr e f : FQl pi2 ncr q (- om) p e f = FQl pi2 ncr q om p e f.
Proof. unfold FQl. rewrite LA_opp, (PH_opp q om p) by auto. rewrite !Rmult_opp_opp. unfold Rdiv. ring. Qed.
Lemma FQt_opp pi2 ncr e f : FQt pi2 ncr q (- om) p e f = FQt pi2 ncr q om p e f.
Proof. unfold FQt. rewrite LA_opp, (PH_opp q om p) by auto. rewrite !Rmult_opp_opp. unfold Rdiv. ring. Qed.

Lemma bubbles_even (m1 m2 m : R) :
  bubbles_mm q (- om) p m1 m2 beta = bubbles_mm q om p m1 m2 beta /\
  bubbles_same q (- om) p m beta = bubbles_same q om p m beta /\
  bubbles_m0 q (- om) p m beta = bubbles_m0 q om p m beta /\
  bubbles_0 q (- om) p beta = bubbles_0 q om p beta.
Proof.
  assert (Hn : - om <> 0) by lra.
  rewrite !mm_form, !same_form, !m0_form, !zero_form by auto. rewrite !FL_opp. auto.
Qed.
Lemma glue_even (m : R) : glue_parts q (- om) p m beta = glue_parts q om p m beta.
Proof.
  destruct (bubbles_even m m m) as (_ & H2 & H3 & H4).
  rewrite !glue_R. rewrite !same_RR, <- !same_CR in H2. rewrite !m0_RR, <- !m0_CR in H3. rewrite !zero_R in H4.
  unfold bubbles_same, bubbles_m0, bubbles_0 in *.
  apply (f_equal (fun l => (nth 0 l (RtoC 0), nth 1 l (RtoC 0), nth 2 l (RtoC 0), nth 3 l (RtoC 0), nth 4 l (RtoC 0), nth 5 l (RtoC 0)))) in H2, H3, H4.
  cbn [nth] in *.
  pose proof (f_equal (fun t => fst (fst (fst (fst (fst t))))) H2) as S0. pose proof (f_equal (fun t => snd (fst (fst (fst (fst t))))) H2) as S1.
  pose proof (f_equal (fun t => snd (fst (fst (fst t)))) H2) as S2. pose proof (f_equal (fun t => snd (fst (fst t))) H2) as S3.
  pose proof (f_equal (fun t => snd (fst t)) H2) as S4. pose proof (f_equal snd H2) as S5.
  pose proof (f_equal (fun t => fst (fst (fst (fst (fst t))))) H3) as M0. pose proof (f_equal (fun t => snd (fst (fst (fst (fst t))))) H3) as M1.
  pose proof (f_equal (fun t => snd (fst (fst (fst t)))) H3) as M2. pose proof (f_equal (fun t => snd (fst (fst t))) H3) as M3.
  pose proof (f_equal (fun t => snd (fst t)) H3) as M4. pose proof (f_equal snd H3) as M5.
  pose proof (f_equal (fun t => fst (fst (fst (fst (fst t))))) H4) as Z0. pose proof (f_equal (fun t => snd (fst (fst (fst (fst t))))) H4) as Z1.
  pose proof (f_equal (fun t => snd (fst (fst (fst t)))) H4) as Z2.
  cbn [fst snd] in *. clear H2 H3 H4.
  unfold glue_parts. rewrite !ghost_combo, !glue_l_combo, !glue_t_combo.
  rewrite S0, S1, S2, S3, S4, S5, M0, M1, M2, M3, M4, M5, Z0, Z1, Z2.
  assert (Hs : sC (RtoC (- om)) p = sC (RtoC om) p) by (unfold sC; pushRtoC; ring).
  assert (Ho : (RtoC (- om) * RtoC (- om))%C = (RtoC om * RtoC om)%C) by (pushRtoC; ring).
  rewrite Hs, Ho. reflexivity.
Qed.
Lemma quark_real_even nc (mq mu : R) : (0 < nc)%nat ->
  Forall (fun z => snd z = 0) (quark_parts nc q om p mq beta mu ++ quark_parts_zero_temp nc q om p mq mu) /\
  quark_parts nc q (- om) p mq beta mu = quark_parts nc q om p mq beta mu /\
  quark_parts_zero_temp nc q (- om) p mq mu = quark_parts_zero_temp nc q om p mq mu.
Proof.
  intros Hnc. assert (Hn : - om <> 0) by lra. unfold quark_parts, quark_parts_zero_temp.
  rewrite !quark_l_form, !quark_t_form, !quark0_l_form, !quark0_t_form by auto. rewrite !FQl_opp, !FQt_opp.
  repeat split. cbn [app]. repeat constructor.
Qed.
End RealEven.
