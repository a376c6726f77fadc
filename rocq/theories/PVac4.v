(** * Limits of the composite vacuum functions *)
From Coq Require Import Reals List Psatz Permutation Lia.
From Coquelicot Require Import Coquelicot.
From Verif Require Import Num CField MConsts MVacuum MTc SpecVac PCplx PVac PVac2 PVac3 PLim PVacLim.
Import List ListNotations.
Open Scope R_scope.

(** ** Loop sums *)
Lemma qloops_cons (F : R -> R) s q l : qloops F s (q :: l) 0 = F (s / qi_mq_div_m_2 q) * qi_nf_div_nc q + qloops F s l 0.
Proof.
  change (qloops F s (q :: l) 0) with (qloops F s l (0 + F (s / qi_mq_div_m_2 q) * qi_nf_div_nc q)).
  rewrite qloops_shift_R. ring.
Qed.

(** ** Infrared *)
Lemma scale_right c : 0 < c -> filterlim (fun s => s / c) (at_right 0) (at_right 0).
Proof.
  intros Hc P [e He]. unfold filtermap, at_right, within.
  assert (Hp : 0 < e * c) by (apply Rmult_lt_0_compat; [apply cond_pos|auto]).
  exists (mkposreal _ Hp). intros y Hy Hpos. apply He.
  - unfold ball in *; simpl in *. unfold AbsRing_ball, abs, minus, plus, opp in *; simpl in *.
    rewrite Ropp_0, Rplus_0_r in *. rewrite Rabs_pos_eq in * by (try apply Rlt_le; try apply Rdiv_lt_0_compat; lra).
    apply (Rmult_lt_reg_r c); auto. unfold Rdiv. rewrite Rmult_assoc, Rinv_l by lra. lra.
  - apply Rdiv_lt_0_compat; lra.
Qed.

Lemma f_q_scaled c : 0 < c -> tends (at_right 0) (fun s => gl_f_q (s / c)) 0.
Proof. intros Hc. apply (filterlim_comp _ _ _ (fun s => s / c) gl_f_q _ _ _ (scale_right c Hc) f_q_0). Qed.
Lemma f_q_crossed_scaled c : 0 < c -> tends (at_right 0) (fun s => gl_f_q_crossed (s / c)) 0.
Proof. intros Hc. apply (filterlim_comp _ _ _ (fun s => s / c) gl_f_q_crossed _ _ _ (scale_right c Hc) f_q_crossed_0). Qed.

Lemma qloops_ir (F : R -> R) (HF : forall c, 0 < c -> tends (at_right 0) (fun s => F (s / c)) 0) l :
  Forall (fun qi => 0 < qi_mq_div_m_2 qi) l -> tends (at_right 0) (fun s => qloops F s l 0) 0.
Proof.
  intros Hl. induction Hl as [|q l Hq Hl IH].
  - unfold qloops. cbn. apply tends_const.
  - apply (tends_ext (fun s => F (s / qi_mq_div_m_2 q) * qi_nf_div_nc q + qloops F s l 0)).
    + apply (ev_right _ 0 1); [lra|]. intros s Hs. rewrite qloops_cons. ring.
    + pose proof (HF _ Hq). eapply tends_eq; [|tend]. ring.
Qed.

(** s times every gluon inverse dressing *)
Lemma s_inv_ir r mq f0 xi cfg : mq <> 0 -> Forall (fun qi => 0 < qi_mq_div_m_2 qi) (fc_quarks_internal cfg) ->
  Forall (fun I : R -> R => tends (at_right 0) (fun s => s * I s) (5 / 8))
    [ (fun s => ym_gluon_dressing_inv_landau s f0); (fun s => qcd_gluon_dressing_inv_landau r s mq f0);
      (fun s => qcd_gluon_dressing_crossed_inv_landau r s mq f0);
      (fun s => qcd_gluon_dressing_inv_landau_w_field_config s f0 cfg);
      (fun s => qcd_gluon_dressing_crossed_inv_landau_w_field_config s f0 cfg) ] /\
  Forall (fun I : R -> R => tends (at_right 0) (fun s => s * I s) (5 / 8 + xi / 4))
    [ (fun s => ym_gluon_dressing_inv s f0 xi); (fun s => qcd_gluon_dressing_inv r s mq f0 xi);
      (fun s => qcd_gluon_dressing_crossed_inv r s mq f0 xi);
      (fun s => qcd_gluon_dressing_inv_w_field_config s f0 xi cfg);
      (fun s => qcd_gluon_dressing_crossed_inv_w_field_config s f0 xi cfg) ].
Proof.
  intros Hq Hc. assert (Hq2 : 0 < mq * mq) by nra.
  assert (I := tends_id_right 0). assert (H1 := s_f_0). assert (H2 := s_f_xi_0). assert (H3 := f_q_scaled _ Hq2). assert (H4 := f_q_crossed_scaled _ Hq2).
  assert (H5 := qloops_ir gl_f_q f_q_scaled _ Hc). assert (H6 := qloops_ir gl_f_q_crossed f_q_crossed_scaled _ Hc).
  split; repeat constructor.
  - apply (tends_ext (fun s => s * gl_f s + s * f0)); [apply filter_forall; intros s; inv_eqs; numcbn; ring|]. eapply tends_eq; [|tend]. ring.
  - apply (tends_ext (fun s => s * gl_f s + s * f0 + s * r * gl_f_q (s / (mq * mq)))); [apply filter_forall; intros s; inv_eqs; numcbn; ring|]. eapply tends_eq; [|tend]. ring.
  - apply (tends_ext (fun s => s * gl_f s + s * f0 + s * r * gl_f_q_crossed (s / (mq * mq)))); [apply filter_forall; intros s; inv_eqs; numcbn; ring|]. eapply tends_eq; [|tend]. ring.
  - apply (tends_ext (fun s => s * gl_f s + s * f0 + s * qloops gl_f_q s (fc_quarks_internal cfg) 0)); [apply filter_forall; intros s; inv_eqs; numcbn; rewrite (qloops_shift_R _ _ _ (_ + _)); ring|]. eapply tends_eq; [|tend]. ring.
  - apply (tends_ext (fun s => s * gl_f s + s * f0 + s * qloops gl_f_q_crossed s (fc_quarks_internal cfg) 0)); [apply filter_forall; intros s; inv_eqs; numcbn; rewrite (qloops_shift_R _ _ _ (_ + _)); ring|]. eapply tends_eq; [|tend]. ring.
  - apply (tends_ext (fun s => s * gl_f s + s * f0 + xi * (s * gl_f_xi s))); [apply filter_forall; intros s; inv_eqs; numcbn; ring|]. eapply tends_eq; [|tend]. field.
  - apply (tends_ext (fun s => s * gl_f s + s * f0 + xi * (s * gl_f_xi s) + s * r * gl_f_q (s / (mq * mq)))); [apply filter_forall; intros s; inv_eqs; numcbn; ring|]. eapply tends_eq; [|tend]. field.
  - apply (tends_ext (fun s => s * gl_f s + s * f0 + xi * (s * gl_f_xi s) + s * r * gl_f_q_crossed (s / (mq * mq)))); [apply filter_forall; intros s; inv_eqs; numcbn; ring|]. eapply tends_eq; [|tend]. field.
  - apply (tends_ext (fun s => s * gl_f s + s * f0 + xi * (s * gl_f_xi s) + s * qloops gl_f_q s (fc_quarks_internal cfg) 0)); [apply filter_forall; intros s; inv_eqs; numcbn; rewrite (qloops_shift_R _ _ _ (_ + _)); ring|]. eapply tends_eq; [|tend]. field.
  - apply (tends_ext (fun s => s * gl_f s + s * f0 + xi * (s * gl_f_xi s) + s * qloops gl_f_q_crossed s (fc_quarks_internal cfg) 0)); [apply filter_forall; intros s; inv_eqs; numcbn; rewrite (qloops_shift_R _ _ _ (_ + _)); ring|]. eapply tends_eq; [|tend]. field.
Qed.

Lemma prop_limit (I P : R -> R) l : l <> 0 -> (forall s, P s = / (s * I s)) -> tends (at_right 0) (fun s => s * I s) l ->
  tends (at_right 0) P (/ l).
Proof.
  intros Hl E H. apply (tends_ext (fun s => / (s * I s))); [apply filter_forall; intros s; symmetry; apply E|]. apply tends_inv; auto.
Qed.

Lemma gluon_prop_ir r mq f0 xi cfg : mq <> 0 -> Forall (fun qi => 0 < qi_mq_div_m_2 qi) (fc_quarks_internal cfg) ->
  Forall (fun P : R -> R => tends (at_right 0) P (8 / 5))
    [ (fun s => ym_gluon_propagator_landau s f0); (fun s => qcd_gluon_propagator_landau r s mq f0);
      (fun s => qcd_gluon_propagator_crossed_landau r s mq f0);
      (fun s => qcd_gluon_propagator_landau_w_field_config s f0 cfg);
      (fun s => qcd_gluon_propagator_crossed_landau_w_field_config s f0 cfg) ] /\
  (5 / 8 + xi / 4 <> 0 ->
   Forall (fun P : R -> R => tends (at_right 0) P (/ (5 / 8 + xi / 4)))
    [ (fun s => ym_gluon_propagator s f0 xi); (fun s => qcd_gluon_propagator r s mq f0 xi);
      (fun s => qcd_gluon_propagator_crossed r s mq f0 xi);
      (fun s => qcd_gluon_propagator_w_field_config s f0 xi cfg);
      (fun s => qcd_gluon_propagator_crossed_w_field_config s f0 xi cfg) ]).
Proof.
  intros Hq Hc. destruct (s_inv_ir r mq f0 xi cfg Hq Hc) as [H1 H2]. replace (8 / 5) with (/ (5 / 8)) by field.
  repeat match goal with H : Forall _ (_ :: _) |- _ => apply Forall_cons_iff in H as [? H] end.
  assert (X : 5 / 8 <> 0) by lra.
  assert (U : forall s i, / s * / i = / (s * i)) by (intros; now rewrite Rinv_mult).
  assert (U' : forall s i, / i * / s = / (s * i)) by (intros; rewrite Rinv_mult; ring).
  split; [|intros Hx]; repeat (apply Forall_cons || apply Forall_nil);
  [ apply (prop_limit (fun s => ym_gluon_dressing_inv_landau s f0))
  | apply (prop_limit (fun s => qcd_gluon_dressing_inv_landau r s mq f0))
  | apply (prop_limit (fun s => qcd_gluon_dressing_crossed_inv_landau r s mq f0))
  | apply (prop_limit (fun s => qcd_gluon_dressing_inv_landau_w_field_config s f0 cfg))
  | apply (prop_limit (fun s => qcd_gluon_dressing_crossed_inv_landau_w_field_config s f0 cfg))
  | apply (prop_limit (fun s => ym_gluon_dressing_inv s f0 xi))
  | apply (prop_limit (fun s => qcd_gluon_dressing_inv r s mq f0 xi))
  | apply (prop_limit (fun s => qcd_gluon_dressing_crossed_inv r s mq f0 xi))
  | apply (prop_limit (fun s => qcd_gluon_dressing_inv_w_field_config s f0 xi cfg))
  | apply (prop_limit (fun s => qcd_gluon_dressing_crossed_inv_w_field_config s f0 xi cfg)) ];
  try assumption; intros s; (apply U || apply U').
Qed.

Lemma ghost_ir g0 : tends (at_right 0) (fun s => ym_ghost_dressing_inv_landau s g0) (5 / 24 + g0).
Proof.
  assert (G := g_0). apply (tends_ext (fun s => gh_g s + g0)); [apply filter_forall; intros s; reflexivity|]. tend.
Qed.
Lemma ghost_dressing_ir g0 : 5 / 24 + g0 <> 0 -> tends (at_right 0) (fun s => ym_ghost_dressing_landau s g0) (/ (5 / 24 + g0)).
Proof. intros H. apply (tends_inv _ _ H). apply ghost_ir. Qed.

(** ** Ultraviolet *)
Lemma scale_infty c : 0 < c -> filterlim (fun s => s / c) INF INF.
Proof.
  intros Hc P [M HM]. exists (M * c). intros x Hx. apply HM. apply (Rmult_lt_reg_r c); auto.
  unfold Rdiv. rewrite Rmult_assoc, Rinv_l by lra. lra.
Qed.
Lemma ln_scale_ratio c : 0 < c -> tends INF (fun s => ln (s / c) / ln s) 1.
Proof.
  intros Hc. apply (tends_ext (fun s => 1 - ln c * / ln s)).
  - apply (ev_infty _ 1). intros s Hs. pose proof (ln_pos s Hs). unfold Rdiv. rewrite ln_mult, ln_Rinv by (auto; try apply Rinv_0_lt_compat; lra). field. lra.
  - assert (IL := inv_ln_infty). eapply tends_eq; [|tend]. ring.
Qed.
Lemma scaled_uv (F : R -> R) a c : 0 < c -> tends INF (fun s => F s / ln s) a -> tends INF (fun s => F (s / c) / ln s) a.
Proof.
  intros Hc H.
  assert (H' : tends INF (fun s => F (s / c) / ln (s / c)) a) by exact (filterlim_comp _ _ _ (fun s => s / c) (fun s => F s / ln s) _ _ _ (scale_infty c Hc) H).
  assert (L := ln_scale_ratio c Hc).
  apply (tends_ext (fun s => F (s / c) / ln (s / c) * (ln (s / c) / ln s))).
  - apply (ev_infty _ (Rmax 1 c)). intros s Hs. pose proof (Rmax_l 1 c). pose proof (Rmax_r 1 c). pose proof (ln_pos s ltac:(lra)).
    assert (1 < s / c). { apply (Rmult_lt_reg_r c); auto. unfold Rdiv. rewrite Rmult_assoc, Rinv_l by lra. lra. }
    pose proof (ln_pos (s / c) ltac:(lra)). field. lra.
  - eapply tends_eq; [|tend]. ring.
Qed.

Definition loop_weight (l : list QuarkInternal) : R := fold_right (fun q acc => qi_nf_div_nc q + acc) 0 l.

Lemma qloops_uv (F : R -> R) (HF : tends INF (fun s => F s / ln s) (- (2 / 9))) l :
  Forall (fun qi => 0 < qi_mq_div_m_2 qi) l -> tends INF (fun s => qloops F s l 0 / ln s) (- (2 / 9) * loop_weight l).
Proof.
  intros Hl. induction Hl as [|q l Hq Hl IH].
  - unfold qloops, loop_weight. cbn. apply (tends_ext (fun _ => 0)); [apply filter_forall; intros; unfold Rdiv; ring|]. eapply tends_eq; [|tend]. ring.
  - pose proof (scaled_uv F _ _ Hq HF).
    apply (tends_ext (fun s => F (s / qi_mq_div_m_2 q) / ln s * qi_nf_div_nc q + qloops F s l 0 / ln s)).
    + apply filter_forall. intros s. rewrite qloops_cons. unfold Rdiv. ring.
    + eapply tends_eq; [|tend]. unfold loop_weight. cbn [fold_right]. ring.
Qed.

Lemma const_uv c : tends INF (fun s => c / ln s) 0.
Proof. assert (IL := inv_ln_infty). eapply tends_eq; [|unfold Rdiv; tend]. ring. Qed.

Lemma g_xi_inf : tends INF (fun s => gh_g_xi s / ln s) (- (1 / 12)).
Proof.
  apply (tends_ext (fun s => - (1 / 12))); [|tend]. apply (ev_infty _ 1). intros s Hs. pose proof (ln_pos s Hs).
  unfold gh_g_xi. numcbn. field. lra.
Qed.

Lemma inv_uv r mq f0 g0 xi cfg : mq <> 0 -> Forall (fun qi => 0 < qi_mq_div_m_2 qi) (fc_quarks_internal cfg) ->
  Forall (fun x : (R -> R) * R => tends INF (fun s => fst x s / ln s) (snd x))
    [ (fun s => ym_ghost_dressing_inv_landau s g0, 1 / 4);
      (fun s => ym_ghost_dressing_inv s g0 xi, 1 / 4 - xi / 12);
      (fun s => ym_gluon_dressing_inv_landau s f0, 13 / 18);
      (fun s => ym_gluon_dressing_inv s f0 xi, 13 / 18 - xi / 6);
      (fun s => qcd_gluon_dressing_inv_landau r s mq f0, 13 / 18 - 2 / 9 * r);
      (fun s => qcd_gluon_dressing_inv r s mq f0 xi, 13 / 18 - xi / 6 - 2 / 9 * r);
      (fun s => qcd_gluon_dressing_crossed_inv_landau r s mq f0, 13 / 18 - 2 / 9 * r);
      (fun s => qcd_gluon_dressing_crossed_inv r s mq f0 xi, 13 / 18 - xi / 6 - 2 / 9 * r);
      (fun s => qcd_gluon_dressing_inv_landau_w_field_config s f0 cfg, 13 / 18 - 2 / 9 * loop_weight (fc_quarks_internal cfg));
      (fun s => qcd_gluon_dressing_inv_w_field_config s f0 xi cfg, 13 / 18 - xi / 6 - 2 / 9 * loop_weight (fc_quarks_internal cfg));
      (fun s => qcd_gluon_dressing_crossed_inv_landau_w_field_config s f0 cfg, 13 / 18 - 2 / 9 * loop_weight (fc_quarks_internal cfg));
      (fun s => qcd_gluon_dressing_crossed_inv_w_field_config s f0 xi cfg, 13 / 18 - xi / 6 - 2 / 9 * loop_weight (fc_quarks_internal cfg)) ].
Proof.
  intros Hq Hc. assert (Hq2 : 0 < mq * mq) by nra.
  assert (H1 := f_inf). assert (H2 := f_xi_inf). assert (H3 := scaled_uv _ _ _ Hq2 f_q_inf). assert (H4 := scaled_uv _ _ _ Hq2 f_q_crossed_inf).
  assert (H5 := qloops_uv gl_f_q f_q_inf _ Hc). assert (H6 := qloops_uv gl_f_q_crossed f_q_crossed_inf _ Hc).
  assert (H7 := g_inf). assert (H8 := g_xi_inf). assert (C0 := const_uv f0). assert (C1 := const_uv g0).
  repeat constructor; cbn [fst snd];
  [ apply (tends_ext (fun s => gh_g s / ln s + g0 / ln s))
  | apply (tends_ext (fun s => gh_g s / ln s + g0 / ln s + xi * (gh_g_xi s / ln s)))
  | apply (tends_ext (fun s => gl_f s / ln s + f0 / ln s))
  | apply (tends_ext (fun s => gl_f s / ln s + f0 / ln s + xi * (gl_f_xi s / ln s)))
  | apply (tends_ext (fun s => gl_f s / ln s + f0 / ln s + r * (gl_f_q (s / (mq * mq)) / ln s)))
  | apply (tends_ext (fun s => gl_f s / ln s + f0 / ln s + xi * (gl_f_xi s / ln s) + r * (gl_f_q (s / (mq * mq)) / ln s)))
  | apply (tends_ext (fun s => gl_f s / ln s + f0 / ln s + r * (gl_f_q_crossed (s / (mq * mq)) / ln s)))
  | apply (tends_ext (fun s => gl_f s / ln s + f0 / ln s + xi * (gl_f_xi s / ln s) + r * (gl_f_q_crossed (s / (mq * mq)) / ln s)))
  | apply (tends_ext (fun s => gl_f s / ln s + f0 / ln s + qloops gl_f_q s (fc_quarks_internal cfg) 0 / ln s))
  | apply (tends_ext (fun s => gl_f s / ln s + f0 / ln s + xi * (gl_f_xi s / ln s) + qloops gl_f_q s (fc_quarks_internal cfg) 0 / ln s))
  | apply (tends_ext (fun s => gl_f s / ln s + f0 / ln s + qloops gl_f_q_crossed s (fc_quarks_internal cfg) 0 / ln s))
  | apply (tends_ext (fun s => gl_f s / ln s + f0 / ln s + xi * (gl_f_xi s / ln s) + qloops gl_f_q_crossed s (fc_quarks_internal cfg) 0 / ln s)) ].
  all: try (apply filter_forall; intros s; inv_eqs; numcbn; try rewrite (qloops_shift_R _ _ _ (_ + _)); unfold Rdiv; ring).
  all: eapply tends_eq; [|tend]; field.
Qed.

(** ** Heavy quarks *)
Lemma heavy_arg s m : 0 < s -> 0 < m -> filterlim (fun mq => s / (mq / m * (mq / m))) INF (at_right 0).
Proof.
  intros Hs Hm.
  assert (H : filterlim (fun mq => s / (mq / m * (mq / m))) INF (locally 0)).
  { apply (tends_ext (fun mq => s * (m * / mq) * (m * / mq))).
    - apply (ev_infty _ 0). intros x Hx. field. lra.
    - assert (T := t_inf). eapply tends_eq; [|tend]. ring. }
  intros P HP. unfold at_right, within in HP. specialize (H _ HP). unfold filtermap in *.
  apply (filter_imp (fun mq => (0 < s / (mq / m * (mq / m)) -> P (s / (mq / m * (mq / m)))) /\ 0 < mq)).
  - intros x [H1 H2]. apply H1. assert (0 < x / m) by (apply Rdiv_lt_0_compat; auto). apply Rdiv_lt_0_compat; auto. apply Rmult_lt_0_compat; auto.
  - apply filter_and; auto. exists 0. auto.
Qed.

Lemma qloops_app (F : R -> R) s l1 l2 : qloops F s (l1 ++ l2) 0 = qloops F s l1 0 + qloops F s l2 0.
Proof. unfold qloops. rewrite fold_left_app. fold (qloops F s l1 0). fold (qloops F s l2 (qloops F s l1 0)). now rewrite qloops_shift_R. Qed.

Lemma qloops_one (F : R -> R) s nc m nf mq :
  qloops F s [QuarkInternal_new nc m nf mq] 0 = F (s / (mq / m * (mq / m))) * (INR nf / INR nc).
Proof. unfold qloops, QuarkInternal_new. cbn. ring. Qed.

Lemma fc_internal_app nc m l1 l2 : fc_quarks_internal (FieldConfig_new nc m (l1 ++ l2)) =
  fc_quarks_internal (FieldConfig_new nc m l1) ++ fc_quarks_internal (FieldConfig_new nc m l2).
Proof. unfold FieldConfig_new; cbn [fc_quarks_internal]. apply map_app. Qed.

Lemma heavy_config nc m nf l s f0 xi : 0 < s -> 0 < m ->
  Forall (fun F : R -> FieldConfig -> R => tends INF (fun mq => F s (FieldConfig_new nc m (l ++ [(nf, mq)]))) (F s (FieldConfig_new nc m l)))
    [ (fun s c => qcd_gluon_dressing_inv_landau_w_field_config s f0 c); (fun s c => qcd_gluon_dressing_inv_w_field_config s f0 xi c);
      (fun s c => qcd_gluon_dressing_crossed_inv_landau_w_field_config s f0 c); (fun s c => qcd_gluon_dressing_crossed_inv_w_field_config s f0 xi c) ].
Proof.
  intros Hs Hm. set (L := fc_quarks_internal (FieldConfig_new nc m l)).
  assert (H1 : tends INF (fun mq => gl_f_q (s / (mq / m * (mq / m)))) 0) by exact (filterlim_comp _ _ _ _ _ _ _ _ (heavy_arg s m Hs Hm) f_q_0).
  assert (H2 : tends INF (fun mq => gl_f_q_crossed (s / (mq / m * (mq / m)))) 0) by exact (filterlim_comp _ _ _ _ _ _ _ _ (heavy_arg s m Hs Hm) f_q_crossed_0).
  repeat constructor.
  - apply (tends_ext (fun mq => gl_f s + f0 + (qloops gl_f_q s L 0 + gl_f_q (s / (mq / m * (mq / m))) * (INR nf / INR nc)))).
    + apply filter_forall. intros mq. inv_eqs. numcbn; rewrite (qloops_shift_R _ _ _ (_ + _)), fc_internal_app, qloops_app. fold L. unfold FieldConfig_new; cbn [fc_quarks_internal map fst snd]. now rewrite qloops_one.
    + inv_eqs. fold L. numcbn; rewrite (qloops_shift_R _ _ _ (_ + _)). eapply tends_eq; [|tend]. numcbn. ring.
  - apply (tends_ext (fun mq => gl_f s + f0 + gl_f_xi s * xi + (qloops gl_f_q s L 0 + gl_f_q (s / (mq / m * (mq / m))) * (INR nf / INR nc)))).
    + apply filter_forall. intros mq. inv_eqs. numcbn; rewrite (qloops_shift_R _ _ _ (_ + _)), fc_internal_app, qloops_app. fold L. unfold FieldConfig_new; cbn [fc_quarks_internal map fst snd]. now rewrite qloops_one.
    + inv_eqs. fold L. numcbn; rewrite (qloops_shift_R _ _ _ (_ + _)). eapply tends_eq; [|tend]. numcbn. ring.
  - apply (tends_ext (fun mq => gl_f s + f0 + (qloops gl_f_q_crossed s L 0 + gl_f_q_crossed (s / (mq / m * (mq / m))) * (INR nf / INR nc)))).
    + apply filter_forall. intros mq. inv_eqs. numcbn; rewrite (qloops_shift_R _ _ _ (_ + _)), fc_internal_app, qloops_app. fold L. unfold FieldConfig_new; cbn [fc_quarks_internal map fst snd]. now rewrite qloops_one.
    + inv_eqs. fold L. numcbn; rewrite (qloops_shift_R _ _ _ (_ + _)). eapply tends_eq; [|tend]. numcbn. ring.
  - apply (tends_ext (fun mq => gl_f s + f0 + gl_f_xi s * xi + (qloops gl_f_q_crossed s L 0 + gl_f_q_crossed (s / (mq / m * (mq / m))) * (INR nf / INR nc)))).
    + apply filter_forall. intros mq. inv_eqs. numcbn; rewrite (qloops_shift_R _ _ _ (_ + _)), fc_internal_app, qloops_app. fold L. unfold FieldConfig_new; cbn [fc_quarks_internal map fst snd]. now rewrite qloops_one.
    + inv_eqs. fold L. numcbn; rewrite (qloops_shift_R _ _ _ (_ + _)). eapply tends_eq; [|tend]. numcbn. ring.
Qed.

Lemma heavy_global r s f0 xi : 0 < s ->
  tends INF (fun mq => qcd_gluon_dressing_inv_landau r s mq f0) (ym_gluon_dressing_inv_landau s f0) /\
  tends INF (fun mq => qcd_gluon_dressing_inv r s mq f0 xi) (ym_gluon_dressing_inv s f0 xi) /\
  tends INF (fun mq => qcd_gluon_dressing_crossed_inv_landau r s mq f0) (ym_gluon_dressing_inv_landau s f0) /\
  tends INF (fun mq => qcd_gluon_dressing_crossed_inv r s mq f0 xi) (ym_gluon_dressing_inv s f0 xi).
Proof.
  intros Hs.
  assert (H1 : tends INF (fun mq => gl_f_q (s / (mq * mq))) 0).
  { apply (tends_ext (fun mq => gl_f_q (s / (mq / 1 * (mq / 1))))); [apply filter_forall; intros; now rewrite Rdiv_1|].
    exact (filterlim_comp _ _ _ _ _ _ _ _ (heavy_arg s 1 Hs Rlt_0_1) f_q_0). }
  assert (H2 : tends INF (fun mq => gl_f_q_crossed (s / (mq * mq))) 0).
  { apply (tends_ext (fun mq => gl_f_q_crossed (s / (mq / 1 * (mq / 1))))); [apply filter_forall; intros; now rewrite Rdiv_1|].
    exact (filterlim_comp _ _ _ _ _ _ _ _ (heavy_arg s 1 Hs Rlt_0_1) f_q_crossed_0). }
  repeat split.
  - apply (tends_ext (fun mq => gl_f s + f0 + gl_f_q (s / (mq * mq)) * r)); [apply filter_forall; intros; now inv_eqs|]. inv_eqs. eapply tends_eq; [|tend]. numcbn; ring.
  - apply (tends_ext (fun mq => gl_f s + f0 + gl_f_xi s * xi + gl_f_q (s / (mq * mq)) * r)); [apply filter_forall; intros; now inv_eqs|]. inv_eqs. eapply tends_eq; [|tend]. numcbn; ring.
  - apply (tends_ext (fun mq => gl_f s + f0 + gl_f_q_crossed (s / (mq * mq)) * r)); [apply filter_forall; intros; now inv_eqs|]. inv_eqs. eapply tends_eq; [|tend]. numcbn; ring.
  - apply (tends_ext (fun mq => gl_f s + f0 + gl_f_xi s * xi + gl_f_q_crossed (s / (mq * mq)) * r)); [apply filter_forall; intros; now inv_eqs|]. inv_eqs. eapply tends_eq; [|tend]. numcbn; ring.
Qed.

(** ** Massless quarks *)
Lemma light_arg s m : 0 < s -> 0 < m -> filterlim (fun mq => s / (mq / m * (mq / m))) (at_right 0) INF.
Proof.
  intros Hs Hm P [M HM]. unfold filtermap. assert (HM' : 0 < Rmax M 1) by (pose proof (Rmax_r M 1); lra).
  set (K := Rmax M 1) in *. assert (M <= K) by apply Rmax_l.
  assert (B : 0 < s * m * m / K) by (repeat apply Rmult_lt_0_compat; auto; now apply Rinv_0_lt_compat).
  apply (ev_right _ 0 (Rmin 1 (s * m * m / K))); [apply Rmin_case; lra|]. intros x [H0 H1].
  pose proof (Rmin_l 1 (s * m * m / K)). pose proof (Rmin_r 1 (s * m * m / K)).
  apply HM. eapply Rle_lt_trans; [eassumption|].
  replace (s / (x / m * (x / m))) with (s * m * m / (x * x)) by (field; lra).
  apply (Rmult_lt_reg_r (x * x)); [nra|]. unfold Rdiv at 1. rewrite (Rmult_assoc (s * m * m)), Rinv_l, Rmult_1_r by nra.
  apply (Rle_lt_trans _ (K * x)).
  - apply Rmult_le_compat_l; [lra|]. assert (x < 1) by lra. nra.
  - apply (Rmult_lt_reg_r (/ K)); [now apply Rinv_0_lt_compat|]. replace (K * x * / K) with x by (field; lra). fold (s * m * m / K). lra.
Qed.

Lemma light_f_q s m : 0 < s -> 0 < m ->
  tends (at_right 0) (fun mq => gl_f_q (s / (mq / m * (mq / m))) + 4 / 9 * ln (m / mq)) (10 / 27 - 2 / 9 * ln s).
Proof.
  intros Hs Hm.
  assert (H : tends (at_right 0) (fun mq => gl_f_q (s / (mq / m * (mq / m))) + 2 / 9 * ln (s / (mq / m * (mq / m)))) (10 / 27))
    by exact (filterlim_comp _ _ _ _ (fun s => gl_f_q s + 2 / 9 * ln s) _ _ _ (light_arg s m Hs Hm) f_q_shift_inf).
  eapply tends_ext; [|eapply tends_minus; [exact H|apply (tends_const (2 / 9 * ln s))]].
  apply (ev_right _ 0 1); [lra|]. intros x Hx. cbv beta.
  replace (s / (x / m * (x / m))) with (s * ((m / x) * (m / x))) by (field; lra).
  assert (0 < m / x) by (apply Rdiv_lt_0_compat; lra).
  rewrite (ln_mult s), (ln_mult (m / x)) by (auto; apply Rmult_lt_0_compat; auto). field.
Qed.

Lemma config_f0_cons f0 nc m nf mq l :
  config_f0 f0 (FieldConfig_new nc m ((nf, mq) :: l)) = config_f0 f0 (FieldConfig_new nc m l) + INR nf * ln (m / mq) * 4 / (9 * INR nc).
Proof.
  unfold config_f0, FieldConfig_new. cbn [fc_nc fc_gluon fc_quarks map fold_left fst snd].
  assert (E : forall l x, fold_left Rplus l x = x + fold_left Rplus l 0).
  { clear. induction l as [|a l IH]; intros x; cbn [fold_left]; [ring|]. rewrite IH, (IH (0 + a)). ring. }
  rewrite E. unfold Rdiv. ring.
Qed.

Lemma massless_limit nc m nf l s f0 xi : (0 < nc)%nat -> 0 < s -> 0 < m ->
  let c mq := FieldConfig_new nc m ((nf, mq) :: l) in
  let c0 := FieldConfig_new nc m l in
  tends (at_right 0) (fun mq => qcd_gluon_dressing_inv_landau_w_field_config s (config_f0 f0 (c mq)) (c mq))
    (qcd_gluon_dressing_inv_landau_w_field_config s (config_f0 f0 c0) c0 + INR nf / INR nc * (10 / 27 - 2 / 9 * ln s)) /\
  tends (at_right 0) (fun mq => qcd_gluon_dressing_inv_w_field_config s (config_f0 f0 (c mq)) xi (c mq))
    (qcd_gluon_dressing_inv_w_field_config s (config_f0 f0 c0) xi c0 + INR nf / INR nc * (10 / 27 - 2 / 9 * ln s)).
Proof.
  intros Hc Hs Hm c c0. assert (Hn : INR nc <> 0) by (apply not_0_INR; lia). assert (H := light_f_q s m Hs Hm).
  set (L := fc_quarks_internal c0).
  assert (Q : forall mq, fc_quarks_internal (c mq) = [QuarkInternal_new nc m nf mq] ++ L) by reflexivity.
  split.
  - apply (tends_ext (fun mq => gl_f s + config_f0 f0 c0 + qloops gl_f_q s L 0
       + INR nf / INR nc * (gl_f_q (s / (mq / m * (mq / m))) + 4 / 9 * ln (m / mq)))).
    + apply filter_forall. intros mq. inv_eqs. numcbn; rewrite (qloops_shift_R _ _ _ (_ + _)), Q, qloops_app, qloops_one. unfold c. rewrite config_f0_cons. fold c0. numcbn. field. auto.
    + inv_eqs. fold L. numcbn; rewrite (qloops_shift_R _ _ _ (_ + _)). eapply tends_eq; [|tend]. reflexivity.
  - apply (tends_ext (fun mq => gl_f s + config_f0 f0 c0 + gl_f_xi s * xi + qloops gl_f_q s L 0
       + INR nf / INR nc * (gl_f_q (s / (mq / m * (mq / m))) + 4 / 9 * ln (m / mq)))).
    + apply filter_forall. intros mq. inv_eqs. numcbn; rewrite (qloops_shift_R _ _ _ (_ + _)), Q, qloops_app, qloops_one. unfold c. rewrite config_f0_cons. fold c0. numcbn. field. auto.
    + inv_eqs. fold L. numcbn; rewrite (qloops_shift_R _ _ _ (_ + _)). eapply tends_eq; [|tend]. reflexivity.
Qed.

Lemma m_infty_intro {F} {FF : Filter F} (f g h : R -> R) l :
  filterlim g F (Rbar_locally p_infty) -> tends F h l -> (forall x, f x = h x - g x) -> filterlim f F (Rbar_locally m_infty).
Proof.
  intros Hg Hh E P [M HM].
  assert (A : F (fun x => l + 1 - M < g x)). { apply (Hg (fun y => l + 1 - M < y)). exists (l + 1 - M). auto. }
  assert (B : F (fun x => h x < l + 1)).
  { apply (Hh (fun y => y < l + 1)). exists (mkposreal 1 Rlt_0_1). intros y Hy. unfold ball in Hy; simpl in Hy. unfold AbsRing_ball, abs, minus, plus, opp in Hy; simpl in Hy. apply Rabs_def2 in Hy. lra. }
  unfold filtermap. generalize (filter_and _ _ A B). apply filter_imp. intros x [H1 H2]. apply HM. rewrite E. lra.
Qed.

Lemma ln_right_0 m c : 0 < m -> 0 < c -> filterlim (fun mq => c * ln (m / mq)) (at_right 0) (Rbar_locally p_infty).
Proof.
  intros Hm Hc P [M HM]. unfold filtermap. assert (He : 0 < m * exp (- (M / c))) by (apply Rmult_lt_0_compat; auto; apply exp_pos).
  apply (ev_right _ 0 _ He). intros x [H0 H1]. apply HM.
  assert (M / c < ln (m / x)).
  { rewrite <- (ln_exp (M / c)). apply ln_increasing; [apply exp_pos|]. rewrite exp_Ropp in H1.
    apply (Rmult_lt_reg_r x); auto. unfold Rdiv. rewrite (Rmult_assoc m), Rinv_l, Rmult_1_r by lra. pose proof (exp_pos (M / c)).
    apply (Rmult_lt_reg_r (/ exp (M / c))); [now apply Rinv_0_lt_compat|]. replace (exp (M * / c) * x * / exp (M / c)) with x by (unfold Rdiv; field; apply Rgt_not_eq, exp_pos). auto. }
  apply (Rmult_lt_reg_r (/ c)); [now apply Rinv_0_lt_compat|]. replace (c * ln (m / x) * / c) with (ln (m / x)) by (field; lra). auto.
Qed.

Lemma massless_divergence nc m nf l s f0 xi : (0 < nc)%nat -> (0 < nf)%nat -> 0 < s -> 0 < m ->
  let c mq := FieldConfig_new nc m ((nf, mq) :: l) in
  filterlim (fun mq => qcd_gluon_dressing_inv_landau_w_field_config s f0 (c mq)) (at_right 0) (Rbar_locally m_infty) /\
  filterlim (fun mq => qcd_gluon_dressing_inv_w_field_config s f0 xi (c mq)) (at_right 0) (Rbar_locally m_infty).
Proof.
  intros Hc Hf Hs Hm c. assert (Hn : 0 < INR nc) by (apply lt_0_INR; lia). assert (Hnf : 0 < INR nf) by (apply lt_0_INR; lia).
  assert (H := light_f_q s m Hs Hm). set (L := fc_quarks_internal (FieldConfig_new nc m l)).
  assert (Q : forall mq, fc_quarks_internal (c mq) = [QuarkInternal_new nc m nf mq] ++ L) by reflexivity.
  assert (Hr : 0 < INR nf / INR nc * (4 / 9)) by (apply Rmult_lt_0_compat; [now apply Rdiv_lt_0_compat|lra]).
  assert (LN := ln_right_0 m _ Hm Hr).
  split.
  - eapply (m_infty_intro _ _ (fun mq => gl_f s + f0 + qloops gl_f_q s L 0
       + INR nf / INR nc * (gl_f_q (s / (mq / m * (mq / m))) + 4 / 9 * ln (m / mq)))); [exact LN|tend|].
    intros mq. cbv beta. inv_eqs. numcbn; rewrite (qloops_shift_R _ _ _ (_ + _)), Q, qloops_app, qloops_one. numcbn. ring.
  - eapply (m_infty_intro _ _ (fun mq => gl_f s + f0 + gl_f_xi s * xi + qloops gl_f_q s L 0
       + INR nf / INR nc * (gl_f_q (s / (mq / m * (mq / m))) + 4 / 9 * ln (m / mq)))); [exact LN|tend|].
    intros mq. cbv beta. inv_eqs. numcbn; rewrite (qloops_shift_R _ _ _ (_ + _)), Q, qloops_app, qloops_one. numcbn. ring.
Qed.
