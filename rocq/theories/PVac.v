(** * Vacuum functions: real axis, reflection, consistency *)
From Coq Require Import Reals List Psatz.
From Coquelicot Require Import Coquelicot.
From Verif Require Import Num CField MVacuum SpecVac PCplx.
Import List ListNotations.
Open Scope R_scope.

Lemma off_cut_slit z : off_cut z <-> slit z.
Proof.
  unfold off_cut, slit. split.
  - intros H. destruct (Req_dec (snd z) 0); auto. right. destruct (Rlt_dec 0 (fst z)); auto. exfalso. apply H. split; auto. lra.
  - intros [H|H] [H1 H2]; lra.
Qed.

(** ** Real arguments *)
Lemma a_gt_1 s : 0 < s -> 1 < sqrt (/ s * 4 + 1).
Proof.
  intros H. apply Rinv_0_lt_compat in H. rewrite <- sqrt_1 at 1. apply sqrt_lt_1; lra.
Qed.

Ltac realside s Hs :=
  assert (0 < s + 1) by lra;
  assert (0 <= / s * 4 + 1) by (pose proof (Rinv_0_lt_compat s Hs); lra);
  assert (0 < (sqrt (/ s * 4 + 1) - 1) / 2) by (pose proof (a_gt_1 s Hs); lra);
  assert (0 < (sqrt (/ s * 4 + 1) - 1) / (sqrt (/ s * 4 + 1) + 1))
    by (pose proof (a_gt_1 s Hs); apply Rmult_lt_0_compat; [lra|apply Rinv_0_lt_compat; lra]).

Ltac pullR :=
  repeat first
    [ progress rewrite <- ?RtoC_plus, <- ?RtoC_minus, <- ?RtoC_mult, <- ?RtoC_opp, <- ?RtoC_div', <- ?RtoC_inv'
    | rewrite Csqrt_RtoC by assumption
    | rewrite Cln_RtoC by assumption ].

Ltac numcbn := cbn [nadd nsub nmul ndiv nopp ninv nln nexp nsqrt nabs nre nim ofR toC NumR NumC].

Ltac low_unfold := unfold gh_g, gh_g_sep, gh_l_g, gh_r_g, gh_g_xi, gl_f, gl_f_sep, gl_l_a, gl_l_b, gl_l_c, gl_r_a, gl_r_b, gl_r_c,
  gl_f_xi, gl_f_xi_sep, gl_f_q, gl_f_q_crossed.

Ltac realproof := intros Hs; match type of Hs with (0 < ?s)%R => realside s Hs end; low_unfold; numcbn; pullR; reflexivity.

Lemma gh_g_RC s : 0 < s -> gh_g (RtoC s) = RtoC (gh_g s).
Proof. realproof. Qed.
Lemma gh_g_xi_RC s : 0 < s -> gh_g_xi (RtoC s) = RtoC (gh_g_xi s).
Proof. realproof. Qed.
Lemma gl_f_RC s : 0 < s -> gl_f (RtoC s) = RtoC (gl_f s).
Proof. realproof. Qed.
Lemma gl_f_xi_RC s : 0 < s -> gl_f_xi (RtoC s) = RtoC (gl_f_xi s).
Proof. realproof. Qed.
Lemma gl_f_q_RC s : 0 < s -> gl_f_q (RtoC s) = RtoC (gl_f_q s).
Proof. realproof. Qed.
Lemma gl_f_q_crossed_RC s : 0 < s -> gl_f_q_crossed (RtoC s) = RtoC (gl_f_q_crossed s).
Proof. realproof. Qed.

(** ** Decomposition of the composite functions *)
Section Decomp.
Context {T : Type} {NT : Num T}.
Open Scope num_scope.
Lemma ym_ghost_inv_landau_eq (s : T) g0 : ym_ghost_dressing_inv_landau s g0 = gh_g s + ofR g0.
Proof. reflexivity. Qed.
Lemma ym_ghost_inv_eq (s : T) g0 xi : ym_ghost_dressing_inv s g0 xi = gh_g s + ofR g0 + gh_g_xi s * ofR xi.
Proof. reflexivity. Qed.
Lemma ym_gluon_inv_landau_eq (s : T) f0 : ym_gluon_dressing_inv_landau s f0 = gl_f s + ofR f0.
Proof. reflexivity. Qed.
Lemma ym_gluon_inv_eq (s : T) f0 xi : ym_gluon_dressing_inv s f0 xi = gl_f s + ofR f0 + gl_f_xi s * ofR xi.
Proof. reflexivity. Qed.
Lemma qcd_inv_landau_eq r (s : T) mq f0 : qcd_gluon_dressing_inv_landau r s mq f0 = gl_f s + ofR f0 + gl_f_q (s / ofR (mq * mq)%R) * ofR r.
Proof. reflexivity. Qed.
Lemma qcd_inv_eq r (s : T) mq f0 xi : qcd_gluon_dressing_inv r s mq f0 xi = gl_f s + ofR f0 + gl_f_xi s * ofR xi + gl_f_q (s / ofR (mq * mq)%R) * ofR r.
Proof. reflexivity. Qed.
Lemma qcdx_inv_landau_eq r (s : T) mq f0 : qcd_gluon_dressing_crossed_inv_landau r s mq f0 = gl_f s + ofR f0 + gl_f_q_crossed (s / ofR (mq * mq)%R) * ofR r.
Proof. reflexivity. Qed.
Lemma qcdx_inv_eq r (s : T) mq f0 xi : qcd_gluon_dressing_crossed_inv r s mq f0 xi = gl_f s + ofR f0 + gl_f_xi s * ofR xi + gl_f_q_crossed (s / ofR (mq * mq)%R) * ofR r.
Proof. reflexivity. Qed.

Definition qloops (F : T -> T) (s : T) (l : list QuarkInternal) (x : T) : T :=
  fold_left (fun res qi => res + F (s / ofR (qi_mq_div_m_2 qi)) * ofR (qi_nf_div_nc qi)) l x.

Lemma fc_inv_landau_eq (s : T) f0 c : qcd_gluon_dressing_inv_landau_w_field_config s f0 c = qloops gl_f_q s (fc_quarks_internal c) (gl_f s + ofR f0).
Proof. reflexivity. Qed.
Lemma fc_inv_eq (s : T) f0 xi c : qcd_gluon_dressing_inv_w_field_config s f0 xi c = qloops gl_f_q s (fc_quarks_internal c) (gl_f s + ofR f0 + gl_f_xi s * ofR xi).
Proof. reflexivity. Qed.
Lemma fcx_inv_landau_eq (s : T) f0 c : qcd_gluon_dressing_crossed_inv_landau_w_field_config s f0 c = qloops gl_f_q_crossed s (fc_quarks_internal c) (gl_f s + ofR f0).
Proof. reflexivity. Qed.
Lemma fcx_inv_eq (s : T) f0 xi c : qcd_gluon_dressing_crossed_inv_w_field_config s f0 xi c = qloops gl_f_q_crossed s (fc_quarks_internal c) (gl_f s + ofR f0 + gl_f_xi s * ofR xi).
Proof. reflexivity. Qed.
End Decomp.

Lemma qloops_RC (F : forall (X : Type) (NX : Num X), X -> X) (HF : forall s, 0 < s -> F C NumC (RtoC s) = RtoC (F R NumR s)) s l :
  0 < s -> Forall (fun qi => 0 < qi_mq_div_m_2 qi) l ->
  forall x, qloops (F C NumC) (RtoC s) l (RtoC x) = RtoC (qloops (F R NumR) s l x).
Proof.
  intros Hs Hl. induction Hl as [|qi l Hq Hl IH]; intros x; [reflexivity|].
  unfold qloops in *. cbn [fold_left]. rewrite <- IH. f_equal. numcbn.
  rewrite <- RtoC_div', HF; [now rewrite <- RtoC_mult, <- RtoC_plus|].
  apply Rmult_lt_0_compat; auto. now apply Rinv_0_lt_compat.
Qed.

Lemma internal_pos nc m quarks : m <> 0 -> Forall (fun q => snd q <> 0) quarks ->
  Forall (fun qi => 0 < qi_mq_div_m_2 qi) (fc_quarks_internal (FieldConfig_new nc m quarks)).
Proof.
  intros Hm H. simpl. induction H as [|[n mq] l Hq H IH]; constructor; auto. simpl in *.
  assert (mq / m <> 0) by (apply Rmult_integral_contrapositive; split; auto; now apply Rinv_neq_0_compat). nra.
Qed.

Lemma vacuum_real_complex r g0 f0 xi mq cfg : mq <> 0 ->
  Forall (fun qi => 0 < qi_mq_div_m_2 qi) (fc_quarks_internal cfg) ->
  Forall2 (fun (F : C -> C) (f : R -> R) => forall s, 0 < s -> F (RtoC s) = RtoC (f s))
    (vacuum_functions r g0 f0 xi mq cfg) (vacuum_functions r g0 f0 xi mq cfg).
Proof.
  intros Hq Hc. assert (Hq2 : 0 < mq * mq) by nra.
  assert (Hd : forall s, 0 < s -> 0 < s / (mq * mq)) by (intros; apply Rmult_lt_0_compat; auto; now apply Rinv_0_lt_compat).
  assert (B1 := gh_g_RC). assert (B2 := gh_g_xi_RC). assert (B3 := gl_f_RC). assert (B4 := gl_f_xi_RC).
  assert (B5 := gl_f_q_RC). assert (B6 := gl_f_q_crossed_RC).
  assert (I1 : forall s, 0 < s -> ym_ghost_dressing_inv_landau (RtoC s) g0 = RtoC (ym_ghost_dressing_inv_landau s g0)).
  { intros. rewrite !ym_ghost_inv_landau_eq. numcbn. rewrite B1 by auto. now pullR. }
  assert (I2 : forall s, 0 < s -> ym_ghost_dressing_inv (RtoC s) g0 xi = RtoC (ym_ghost_dressing_inv s g0 xi)).
  { intros. rewrite !ym_ghost_inv_eq. numcbn. rewrite B1, B2 by auto. now pullR. }
  assert (I3 : forall s, 0 < s -> ym_gluon_dressing_inv_landau (RtoC s) f0 = RtoC (ym_gluon_dressing_inv_landau s f0)).
  { intros. rewrite !ym_gluon_inv_landau_eq. numcbn. rewrite B3 by auto. now pullR. }
  assert (I4 : forall s, 0 < s -> ym_gluon_dressing_inv (RtoC s) f0 xi = RtoC (ym_gluon_dressing_inv s f0 xi)).
  { intros. rewrite !ym_gluon_inv_eq. numcbn. rewrite B3, B4 by auto. now pullR. }
  assert (I5 : forall s, 0 < s -> qcd_gluon_dressing_inv_landau r (RtoC s) mq f0 = RtoC (qcd_gluon_dressing_inv_landau r s mq f0)).
  { intros. rewrite !qcd_inv_landau_eq. numcbn. rewrite <- RtoC_div', B3, B5 by auto. now pullR. }
  assert (I6 : forall s, 0 < s -> qcd_gluon_dressing_inv r (RtoC s) mq f0 xi = RtoC (qcd_gluon_dressing_inv r s mq f0 xi)).
  { intros. rewrite !qcd_inv_eq. numcbn. rewrite <- RtoC_div', B3, B4, B5 by auto. now pullR. }
  assert (I7 : forall s, 0 < s -> qcd_gluon_dressing_crossed_inv_landau r (RtoC s) mq f0 = RtoC (qcd_gluon_dressing_crossed_inv_landau r s mq f0)).
  { intros. rewrite !qcdx_inv_landau_eq. numcbn. rewrite <- RtoC_div', B3, B6 by auto. now pullR. }
  assert (I8 : forall s, 0 < s -> qcd_gluon_dressing_crossed_inv r (RtoC s) mq f0 xi = RtoC (qcd_gluon_dressing_crossed_inv r s mq f0 xi)).
  { intros. rewrite !qcdx_inv_eq. numcbn. rewrite <- RtoC_div', B3, B4, B6 by auto. now pullR. }
  assert (I9 : forall s, 0 < s -> qcd_gluon_dressing_inv_landau_w_field_config (RtoC s) f0 cfg = RtoC (qcd_gluon_dressing_inv_landau_w_field_config s f0 cfg)).
  { intros. rewrite !fc_inv_landau_eq. numcbn. rewrite B3, <- RtoC_plus by auto. now apply (qloops_RC (@gl_f_q)). }
  assert (I10 : forall s, 0 < s -> qcd_gluon_dressing_inv_w_field_config (RtoC s) f0 xi cfg = RtoC (qcd_gluon_dressing_inv_w_field_config s f0 xi cfg)).
  { intros. rewrite !fc_inv_eq. numcbn. rewrite B3, B4 by auto. rewrite <- RtoC_mult, <- !RtoC_plus. now apply (qloops_RC (@gl_f_q)). }
  assert (I11 : forall s, 0 < s -> qcd_gluon_dressing_crossed_inv_landau_w_field_config (RtoC s) f0 cfg = RtoC (qcd_gluon_dressing_crossed_inv_landau_w_field_config s f0 cfg)).
  { intros. rewrite !fcx_inv_landau_eq. numcbn. rewrite B3, <- RtoC_plus by auto. now apply (qloops_RC (@gl_f_q_crossed)). }
  assert (I12 : forall s, 0 < s -> qcd_gluon_dressing_crossed_inv_w_field_config (RtoC s) f0 xi cfg = RtoC (qcd_gluon_dressing_crossed_inv_w_field_config s f0 xi cfg)).
  { intros. rewrite !fcx_inv_eq. numcbn. rewrite B3, B4 by auto. rewrite <- RtoC_mult, <- !RtoC_plus. now apply (qloops_RC (@gl_f_q_crossed)). }
  unfold vacuum_functions.
  repeat constructor; auto; intros s Hs;
  unfold ym_ghost_propagator, ym_ghost_propagator_landau, ym_gluon_propagator, ym_gluon_propagator_landau,
    qcd_gluon_propagator, qcd_gluon_propagator_landau, qcd_gluon_propagator_crossed, qcd_gluon_propagator_crossed_landau,
    qcd_gluon_propagator_w_field_config, qcd_gluon_propagator_landau_w_field_config,
    qcd_gluon_propagator_crossed_w_field_config, qcd_gluon_propagator_crossed_landau_w_field_config,
    ym_ghost_dressing, ym_ghost_dressing_landau, ym_gluon_dressing, ym_gluon_dressing_landau,
    qcd_gluon_dressing, qcd_gluon_dressing_landau, qcd_gluon_dressing_crossed, qcd_gluon_dressing_crossed_landau,
    qcd_gluon_dressing_w_field_config, qcd_gluon_dressing_landau_w_field_config,
    qcd_gluon_dressing_crossed_w_field_config, qcd_gluon_dressing_crossed_landau_w_field_config;
  numcbn; rewrite ?I1, ?I2, ?I3, ?I4, ?I5, ?I6, ?I7, ?I8, ?I9, ?I10, ?I11, ?I12 by auto; now pullR.
Qed.
