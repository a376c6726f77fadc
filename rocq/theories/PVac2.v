(** * Vacuum functions: reflection symmetry, dressings, field configurations *)
From Coq Require Import Reals List Psatz Permutation.
From Coquelicot Require Import Coquelicot.
From Verif Require Import Num CField MConsts MVacuum SpecVac PCplx PVac.
Import List ListNotations.
Open Scope R_scope.
Arguments Cconj _%C.

(** ** Arguments of the logarithms and the square root stay off the cut *)
Lemma slit_a2 s : slit s -> slit (/ s * RtoC 4 + RtoC 1)%C.
Proof. intros H. apply slit_plus_RtoC; [lra|]. apply slit_scal; [lra|]. now apply slit_inv. Qed.

Lemma a_real_gt_1 s : slit s -> snd (Csqrt (/ s * RtoC 4 + RtoC 1)%C) = 0 -> 1 < fst (Csqrt (/ s * RtoC 4 + RtoC 1)%C).
Proof.
  intros H E. pose proof (Csqrt_re_pos _ (slit_a2 s H)) as P. pose proof (Csqrt_sqr (/ s * RtoC 4 + RtoC 1)%C) as S.
  set (a := Csqrt (/ s * RtoC 4 + RtoC 1)%C) in *. clearbody a. destruct a as [x y]. simpl in E, P. subst y.
  assert (S' : (/ s = RtoC ((x * x - 1) / 4))%C).
  { replace (/ s)%C with (((x, 0) * (x, 0) - RtoC 1) * RtoC (/ 4))%C by (rewrite S; rewrite RtoC_inv'; field; now apply slit_neq_0).
    apply Ceq; simpl; field. }
  assert (R : slit (/ s)%C) by now apply slit_inv. rewrite S' in R. simpl fst. destruct R as [R|R]; simpl in R; [lra|]. nra.
Qed.

Lemma slit_half s : slit s -> slit ((Csqrt (/ s * RtoC 4 + RtoC 1)%C - RtoC 1) / RtoC 2)%C.
Proof.
  intros H. pose proof (a_real_gt_1 s H) as A. set (a := Csqrt (/ s * RtoC 4 + RtoC 1)%C) in *. clearbody a.
  replace ((a - RtoC 1) / RtoC 2)%C with ((a - RtoC 1) * RtoC (/ 2))%C by (rewrite RtoC_inv'; reflexivity).
  apply slit_scal; [lra|]. destruct (Req_dec (snd a) 0) as [E|E]; [right|left]; simpl; [specialize (A E); lra|lra].
Qed.

Lemma slit_ratio s : slit s ->
  slit ((Csqrt (/ s * RtoC 4 + RtoC 1)%C - RtoC 1) / (Csqrt (/ s * RtoC 4 + RtoC 1)%C + RtoC 1))%C.
Proof.
  intros H. pose proof (a_real_gt_1 s H) as A. pose proof (Csqrt_re_nonneg (/ s * RtoC 4 + RtoC 1)%C) as P.
  set (a := Csqrt (/ s * RtoC 4 + RtoC 1)%C) in *. clearbody a. destruct a as [x y]. simpl in A, P.
  assert (D : 0 < (x + 1) * (x + 1) + y * y) by nra. pose proof (Rinv_0_lt_compat _ D) as I.
  replace (((x, y) - RtoC 1) / ((x, y) + RtoC 1))%C
    with ((x * x + y * y - 1) * / ((x + 1) * (x + 1) + y * y), 2 * y * / ((x + 1) * (x + 1) + y * y))
    by (apply Ceq; simpl; field; nra).
  destruct (Req_dec y 0) as [E|E]; [right|left]; cbn [fst snd].
  - specialize (A E). subst y. apply Rmult_lt_0_compat; auto. nra.
  - intros Z. apply Rmult_integral in Z as [Z|Z]; lra.
Qed.

Ltac conjside s Hs :=
  assert (slit (s + RtoC 1)%C) by (apply slit_plus_RtoC; [lra|assumption]);
  pose proof (slit_a2 s Hs); pose proof (slit_half s Hs); pose proof (slit_ratio s Hs).

Ltac pushconj :=
  repeat first
    [ rewrite conj_plus | rewrite conj_minus | rewrite conj_mult | rewrite conj_opp | rewrite conj_div
    | rewrite conj_inv | rewrite conj_RtoC
    | rewrite <- Csqrt_conj by assumption
    | rewrite <- Cln_conj by assumption ].

Ltac conjproof := intros Hs; match type of Hs with slit ?s => conjside s Hs end; low_unfold; numcbn; pushconj; reflexivity.

Lemma gh_g_conj s : slit s -> gh_g (Cconj s) = Cconj (gh_g s)%C.
Proof. conjproof. Qed.
Lemma gh_g_xi_conj s : slit s -> gh_g_xi (Cconj s) = Cconj (gh_g_xi s)%C.
Proof. conjproof. Qed.
Lemma gl_f_conj s : slit s -> gl_f (Cconj s) = Cconj (gl_f s)%C.
Proof. conjproof. Qed.
Lemma gl_f_xi_conj s : slit s -> gl_f_xi (Cconj s) = Cconj (gl_f_xi s)%C.
Proof. conjproof. Qed.
Lemma gl_f_q_conj s : slit s -> gl_f_q (Cconj s)%C = Cconj (gl_f_q s)%C.
Proof. conjproof. Qed.
Lemma gl_f_q_crossed_conj s : slit s -> gl_f_q_crossed (Cconj s)%C = Cconj (gl_f_q_crossed s)%C.
Proof. conjproof. Qed.

Lemma slit_div s x : 0 < x -> slit s -> slit (s / RtoC x)%C.
Proof.
  intros Hx H. unfold Cdiv. rewrite <- RtoC_inv'. apply slit_scal; auto. now apply Rinv_0_lt_compat.
Qed.

Lemma qloops_conj (F : C -> C) (HF : forall s, slit s -> F (Cconj s) = Cconj (F s)%C) s l :
  slit s -> Forall (fun qi => 0 < qi_mq_div_m_2 qi) l ->
  forall x, qloops F (Cconj s) l (Cconj x) = Cconj (qloops F s l x)%C.
Proof.
  intros Hs Hl. induction Hl as [|qi l Hq Hl IH]; intros x; [reflexivity|].
  unfold qloops in *. cbn [fold_left]. rewrite <- IH. f_equal. numcbn.
  rewrite conj_plus, conj_mult, conj_RtoC. f_equal. f_equal. rewrite <- HF by now apply slit_div.
  now rewrite conj_div, conj_RtoC.
Qed.

Lemma vacuum_reflection r g0 f0 xi mq cfg : mq <> 0 ->
  Forall (fun qi => 0 < qi_mq_div_m_2 qi) (fc_quarks_internal cfg) ->
  Forall (fun F : C -> C => forall s, slit s -> F (Cconj s) = Cconj (F s)%C) (vacuum_functions r g0 f0 xi mq cfg).
Proof.
  intros Hq Hc. assert (Hq2 : 0 < mq * mq) by nra.
  assert (B1 := gh_g_conj). assert (B2 := gh_g_xi_conj). assert (B3 := gl_f_conj). assert (B4 := gl_f_xi_conj).
  assert (B5 : forall s, slit s -> gl_f_q (Cconj s / RtoC (mq * mq))%C = Cconj (gl_f_q (s / RtoC (mq * mq))%C)%C).
  { intros. rewrite <- gl_f_q_conj by now apply slit_div. now rewrite conj_div, conj_RtoC. }
  assert (B6 : forall s, slit s -> gl_f_q_crossed (Cconj s / RtoC (mq * mq))%C = Cconj (gl_f_q_crossed (s / RtoC (mq * mq))%C)%C).
  { intros. rewrite <- gl_f_q_crossed_conj by now apply slit_div. now rewrite conj_div, conj_RtoC. }
  assert (I1 : forall s, slit s -> ym_ghost_dressing_inv_landau (Cconj s) g0 = Cconj (ym_ghost_dressing_inv_landau s g0)%C).
  { intros. rewrite !ym_ghost_inv_landau_eq. numcbn. rewrite B1 by auto. now pushconj. }
  assert (I2 : forall s, slit s -> ym_ghost_dressing_inv (Cconj s) g0 xi = Cconj (ym_ghost_dressing_inv s g0 xi)%C).
  { intros. rewrite !ym_ghost_inv_eq. numcbn. rewrite B1, B2 by auto. now pushconj. }
  assert (I3 : forall s, slit s -> ym_gluon_dressing_inv_landau (Cconj s) f0 = Cconj (ym_gluon_dressing_inv_landau s f0)%C).
  { intros. rewrite !ym_gluon_inv_landau_eq. numcbn. rewrite B3 by auto. now pushconj. }
  assert (I4 : forall s, slit s -> ym_gluon_dressing_inv (Cconj s) f0 xi = Cconj (ym_gluon_dressing_inv s f0 xi)%C).
  { intros. rewrite !ym_gluon_inv_eq. numcbn. rewrite B3, B4 by auto. now pushconj. }
  assert (I5 : forall s, slit s -> qcd_gluon_dressing_inv_landau r (Cconj s) mq f0 = Cconj (qcd_gluon_dressing_inv_landau r s mq f0)%C).
  { intros. rewrite !qcd_inv_landau_eq. numcbn. rewrite B3, B5 by auto. now pushconj. }
  assert (I6 : forall s, slit s -> qcd_gluon_dressing_inv r (Cconj s) mq f0 xi = Cconj (qcd_gluon_dressing_inv r s mq f0 xi)%C).
  { intros. rewrite !qcd_inv_eq. numcbn. rewrite B3, B4, B5 by auto. now pushconj. }
  assert (I7 : forall s, slit s -> qcd_gluon_dressing_crossed_inv_landau r (Cconj s) mq f0 = Cconj (qcd_gluon_dressing_crossed_inv_landau r s mq f0)%C).
  { intros. rewrite !qcdx_inv_landau_eq. numcbn. rewrite B3, B6 by auto. now pushconj. }
  assert (I8 : forall s, slit s -> qcd_gluon_dressing_crossed_inv r (Cconj s) mq f0 xi = Cconj (qcd_gluon_dressing_crossed_inv r s mq f0 xi)%C).
  { intros. rewrite !qcdx_inv_eq. numcbn. rewrite B3, B4, B6 by auto. now pushconj. }
  assert (K : forall s, slit s -> (gl_f (Cconj s) + RtoC f0)%C = Cconj (gl_f s + RtoC f0)%C).
  { intros. rewrite B3 by auto. now pushconj. }
  assert (K' : forall s, slit s -> (gl_f (Cconj s) + RtoC f0 + gl_f_xi (Cconj s) * RtoC xi)%C = Cconj (gl_f s + RtoC f0 + gl_f_xi s * RtoC xi)%C).
  { intros. rewrite B3, B4 by auto. now pushconj. }
  assert (I9 : forall s, slit s -> qcd_gluon_dressing_inv_landau_w_field_config (Cconj s) f0 cfg = Cconj (qcd_gluon_dressing_inv_landau_w_field_config s f0 cfg)%C).
  { intros. rewrite !fc_inv_landau_eq. numcbn. rewrite K by auto. now apply (qloops_conj gl_f_q gl_f_q_conj). }
  assert (I10 : forall s, slit s -> qcd_gluon_dressing_inv_w_field_config (Cconj s) f0 xi cfg = Cconj (qcd_gluon_dressing_inv_w_field_config s f0 xi cfg)%C).
  { intros. rewrite !fc_inv_eq. numcbn. rewrite K' by auto. now apply (qloops_conj gl_f_q gl_f_q_conj). }
  assert (I11 : forall s, slit s -> qcd_gluon_dressing_crossed_inv_landau_w_field_config (Cconj s) f0 cfg = Cconj (qcd_gluon_dressing_crossed_inv_landau_w_field_config s f0 cfg)%C).
  { intros. rewrite !fcx_inv_landau_eq. numcbn. rewrite K by auto. now apply (qloops_conj gl_f_q_crossed gl_f_q_crossed_conj). }
  assert (I12 : forall s, slit s -> qcd_gluon_dressing_crossed_inv_w_field_config (Cconj s) f0 xi cfg = Cconj (qcd_gluon_dressing_crossed_inv_w_field_config s f0 xi cfg)%C).
  { intros. rewrite !fcx_inv_eq. numcbn. rewrite K' by auto. now apply (qloops_conj gl_f_q_crossed gl_f_q_crossed_conj). }
  unfold vacuum_functions.
  repeat constructor; auto using gl_f_q_conj, gl_f_q_crossed_conj; intros s Hs;
  unfold ym_ghost_propagator, ym_ghost_propagator_landau, ym_gluon_propagator, ym_gluon_propagator_landau,
    qcd_gluon_propagator, qcd_gluon_propagator_landau, qcd_gluon_propagator_crossed, qcd_gluon_propagator_crossed_landau,
    qcd_gluon_propagator_w_field_config, qcd_gluon_propagator_landau_w_field_config,
    qcd_gluon_propagator_crossed_w_field_config, qcd_gluon_propagator_crossed_landau_w_field_config,
    ym_ghost_dressing, ym_ghost_dressing_landau, ym_gluon_dressing, ym_gluon_dressing_landau,
    qcd_gluon_dressing, qcd_gluon_dressing_landau, qcd_gluon_dressing_crossed, qcd_gluon_dressing_crossed_landau,
    qcd_gluon_dressing_w_field_config, qcd_gluon_dressing_landau_w_field_config,
    qcd_gluon_dressing_crossed_w_field_config, qcd_gluon_dressing_crossed_landau_w_field_config;
  numcbn; rewrite ?I1, ?I2, ?I3, ?I4, ?I5, ?I6, ?I7, ?I8, ?I9, ?I10, ?I11, ?I12 by auto; now pushconj.
Qed.

(** ** Dressing, inverse dressing, propagator *)
Lemma dressing_consistent_R r g0 f0 xi mq cfg :
  Forall (fun x : (R -> R) * (R -> R) * (R -> R) => let '(i, d, p) := x in
    forall s, s <> 0 -> i s <> 0 -> d s * i s = 1 /\ s * p s = d s) (dressing_families r g0 f0 xi mq cfg).
Proof.
  unfold dressing_families. repeat constructor;
  (unfold ym_ghost_propagator, ym_ghost_propagator_landau, ym_gluon_propagator, ym_gluon_propagator_landau,
    qcd_gluon_propagator, qcd_gluon_propagator_landau, qcd_gluon_propagator_crossed, qcd_gluon_propagator_crossed_landau,
    qcd_gluon_propagator_w_field_config, qcd_gluon_propagator_landau_w_field_config,
    qcd_gluon_propagator_crossed_w_field_config, qcd_gluon_propagator_crossed_landau_w_field_config,
    ym_ghost_dressing, ym_ghost_dressing_landau, ym_gluon_dressing, ym_gluon_dressing_landau,
    qcd_gluon_dressing, qcd_gluon_dressing_landau, qcd_gluon_dressing_crossed, qcd_gluon_dressing_crossed_landau,
    qcd_gluon_dressing_w_field_config, qcd_gluon_dressing_landau_w_field_config,
    qcd_gluon_dressing_crossed_w_field_config, qcd_gluon_dressing_crossed_landau_w_field_config in *; numcbn;
  revert H0; match goal with |- ?i <> 0 -> _ => generalize i end; intros i Hi; field; auto).
Qed.

Lemma dressing_consistent_C r g0 f0 xi mq cfg :
  Forall (fun x : (C -> C) * (C -> C) * (C -> C) => let '(i, d, p) := x in
    forall s, s <> RtoC 0 -> i s <> RtoC 0 -> (d s * i s)%C = RtoC 1 /\ (s * p s)%C = d s) (dressing_families r g0 f0 xi mq cfg).
Proof.
  unfold dressing_families. repeat constructor;
  (unfold ym_ghost_propagator, ym_ghost_propagator_landau, ym_gluon_propagator, ym_gluon_propagator_landau,
    qcd_gluon_propagator, qcd_gluon_propagator_landau, qcd_gluon_propagator_crossed, qcd_gluon_propagator_crossed_landau,
    qcd_gluon_propagator_w_field_config, qcd_gluon_propagator_landau_w_field_config,
    qcd_gluon_propagator_crossed_w_field_config, qcd_gluon_propagator_crossed_landau_w_field_config,
    ym_ghost_dressing, ym_ghost_dressing_landau, ym_gluon_dressing, ym_gluon_dressing_landau,
    qcd_gluon_dressing, qcd_gluon_dressing_landau, qcd_gluon_dressing_crossed, qcd_gluon_dressing_crossed_landau,
    qcd_gluon_dressing_w_field_config, qcd_gluon_dressing_landau_w_field_config,
    qcd_gluon_dressing_crossed_w_field_config, qcd_gluon_dressing_crossed_landau_w_field_config in *; numcbn;
  revert H0; match goal with |- ?i <> RtoC 0 -> _ => generalize i end; intros i Hi; field; auto).
Qed.
