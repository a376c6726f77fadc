(** * Properties C18-C28: vacuum functions *)
From Coq Require Import Reals List Psatz Permutation Lia.
From Coquelicot Require Import Coquelicot.
From Verif Require Import Num CField MConsts MVacuum MTc SpecLim SpecVac PCplx PVac PVac2 PVac3 PLim PVacLim PVac4 PExVac.
Import List ListNotations.
Open Scope R_scope.

(** C18. *)
Theorem C18_real_complex : forall r g0 f0 xi mq nc m quarks, mq <> 0 -> m <> 0 -> Forall (fun q : nat * R => snd q <> 0) quarks ->
  Forall2 (fun (F : C -> C) (f : R -> R) => forall s, 0 < s -> F (RtoC s) = RtoC (f s))
    (vacuum_functions r g0 f0 xi mq (FieldConfig_new nc m quarks)) (vacuum_functions r g0 f0 xi mq (FieldConfig_new nc m quarks)).
Proof.
  exact (fun r g0 f0 xi mq nc m quarks Hq Hm Hl =>
    vacuum_real_complex r g0 f0 xi mq _ Hq (internal_pos nc m quarks Hm Hl)).
Qed.
Print Assumptions C18_real_complex.

Example C18_example : gl_f_q (RtoC (4 / 3)) = RtoC (4 / 9 * (ln 3 / 2 - 2 / 3)).
Proof. rewrite gl_f_q_RC by lra. now rewrite f_q_43. Qed.

(** C19. *)
Theorem C19_reflection : forall r g0 f0 xi mq nc m quarks, mq <> 0 -> m <> 0 -> Forall (fun q : nat * R => snd q <> 0) quarks ->
  Forall (fun F : C -> C => forall s, off_cut s -> F (Cconj s) = Cconj (F s))
    (vacuum_functions r g0 f0 xi mq (FieldConfig_new nc m quarks)).
Proof. exact vacuum_reflection_off_cut. Qed.
Print Assumptions C19_reflection.

Example C19_example : gh_g_xi Ci = (0, - PI / 24) /\ gh_g_xi (Cconj Ci) = (0, PI / 24).
Proof.
  split; [apply g_xi_Ci|]. rewrite gh_g_xi_conj by (left; simpl; lra). rewrite g_xi_Ci.
  apply Ceq; simpl; field.
Qed.

(** C20. *)
Theorem C20_dressing_propagator_real : forall r g0 f0 xi mq cfg,
  Forall (fun x : (R -> R) * (R -> R) * (R -> R) => let '(i, d, p) := x in
    forall s, s <> 0 -> i s <> 0 -> d s * i s = 1 /\ s * p s = d s) (dressing_families r g0 f0 xi mq cfg).
Proof. exact dressing_consistent_R. Qed.
Print Assumptions C20_dressing_propagator_real.

Theorem C20_dressing_propagator_complex : forall r g0 f0 xi mq cfg,
  Forall (fun x : (C -> C) * (C -> C) * (C -> C) => let '(i, d, p) := x in
    forall s, s <> RtoC 0 -> i s <> RtoC 0 -> (d s * i s)%C = RtoC 1 /\ (s * p s)%C = d s) (dressing_families r g0 f0 xi mq cfg).
Proof. exact dressing_consistent_C. Qed.
Print Assumptions C20_dressing_propagator_complex.

Theorem C20_gauge_real : forall r mq cfg,
  Forall (fun x : (R -> R -> R) * (R -> R -> R -> R) => let '(L, G) := x in
    forall s f0 f0' xi xi',
      G s f0 0 = L s f0 /\
      G s f0 (xi + xi') - G s f0 xi = G s 0 xi' - G s 0 0 /\
      L s f0' - L s f0 = f0' - f0 /\ G s f0' xi - G s f0 xi = f0' - f0 /\
      G s f0 xi = L s f0 + xi * (G s 0 1 - L s 0)) (inverse_dressings r mq cfg).
Proof. exact gauge_dependence_R. Qed.
Print Assumptions C20_gauge_real.

Theorem C20_gauge_complex : forall r mq cfg,
  Forall (fun x : (C -> R -> C) * (C -> R -> R -> C) => let '(L, G) := x in
    forall s f0 f0' xi xi',
      G s f0 0 = L s f0 /\
      (G s f0 (xi + xi')%R - G s f0 xi = G s 0 xi' - G s 0 0)%C /\
      (L s f0' - L s f0 = RtoC (f0' - f0))%C /\ (G s f0' xi - G s f0 xi = RtoC (f0' - f0))%C /\
      G s f0 xi = (L s f0 + RtoC xi * (G s 0%R 1%R - L s 0%R))%C) (inverse_dressings r mq cfg).
Proof. exact gauge_dependence_C. Qed.
Print Assumptions C20_gauge_complex.

Theorem C20_sep : forall (s : C) g0 f0 xi, let l := Cln s in let l1 := Cln (s + RtoC 1)%C in
  gh_g_sep s l l1 = gh_g s /\ gh_g_xi_sep l = gh_g_xi s /\ gl_f_sep s l l1 = gl_f s /\ gl_f_xi_sep s l l1 = gl_f_xi s /\
  gh_dressing_inv_landau_sep s l l1 g0 = ym_ghost_dressing_inv_landau s g0 /\
  gh_dressing_inv_sep s l l1 g0 xi = ym_ghost_dressing_inv s g0 xi /\
  gl_ym_dressing_inv_landau_sep s l l1 f0 = ym_gluon_dressing_inv_landau s f0 /\
  gl_ym_dressing_inv_sep s l l1 f0 xi = ym_gluon_dressing_inv s f0 xi.
Proof. exact (fun s g0 f0 xi => conj eq_refl (conj eq_refl (conj eq_refl (conj eq_refl (conj eq_refl (conj eq_refl (conj eq_refl eq_refl))))))). Qed.
Print Assumptions C20_sep.

Example C20_example : ym_ghost_dressing_landau 1 0 * ((4 * ln 2 + 3) / 12) = 1.
Proof.
  destruct g_1_inv as [E P]. rewrite <- E. pose proof (dressing_consistent_R 0 0 0 0 1 (FieldConfig_new 3 1 [])) as H.
  apply Forall_cons_iff in H as [H _]. apply H; lra.
Qed.

(** C21. *)
Theorem C21_quark_functions_vanish : tends (at_right 0) gl_f_q 0 /\ tends (at_right 0) gl_f_q_crossed 0.
Proof. exact (conj f_q_0 f_q_crossed_0). Qed.
Print Assumptions C21_quark_functions_vanish.

(** Away from zero the function is not zero. *)
Example C21_example : gl_f_q (4 / 3) < 0.
Proof. exact f_q_43_neg. Qed.

(** C22: the constant is 0. *)
Theorem C22_crossed_derivative : forall s, 0 < s -> exists d, is_derive gl_f_q s d /\ gl_f_q_crossed s = gl_f_q s + 2 * s * d.
Proof. exact f_q_crossed_derive. Qed.
Print Assumptions C22_crossed_derivative.

Example C22_example : gl_f_q_crossed (4 / 3) = 4 / 9 * (17 / 6 - 23 / 8 * ln 3) /\ gl_f_q (4 / 3) = 4 / 9 * (ln 3 / 2 - 2 / 3) /\
  is_derive gl_f_q (4 / 3) (4 / 9 * (21 / 16 - 81 / 64 * ln 3)).
Proof.
  split; [apply f_q_crossed_43|]. split; [apply f_q_43|].
  destruct (f_q_crossed_derive (4 / 3) ltac:(lra)) as (d & D & E). rewrite f_q_crossed_43, f_q_43 in E.
  replace (4 / 9 * (21 / 16 - 81 / 64 * ln 3)) with d; auto. lra.
Qed.

(** C23. *)
Theorem C23_gluon_infrared : forall r mq f0 xi nc m quarks, mq <> 0 -> m <> 0 -> Forall (fun q : nat * R => snd q <> 0) quarks ->
  let cfg := FieldConfig_new nc m quarks in
  Forall (fun I : R -> R => tends (at_right 0) (fun s => s * I s) (5 / 8))
    [ (fun s => ym_gluon_dressing_inv_landau s f0); (fun s => qcd_gluon_dressing_inv_landau r s mq f0);
      (fun s => qcd_gluon_dressing_crossed_inv_landau r s mq f0);
      (fun s => qcd_gluon_dressing_inv_landau_w_field_config s f0 cfg);
      (fun s => qcd_gluon_dressing_crossed_inv_landau_w_field_config s f0 cfg) ] /\
  Forall (fun I : R -> R => tends (at_right 0) (fun s => s * I s) (5 / 8 + xi / 4))
    [ (fun s => ym_gluon_dressing_inv s f0 xi); (fun s => qcd_gluon_dressing_inv r s mq f0 xi);
      (fun s => qcd_gluon_dressing_crossed_inv r s mq f0 xi);
      (fun s => qcd_gluon_dressing_inv_w_field_config s f0 xi cfg);
      (fun s => qcd_gluon_dressing_crossed_inv_w_field_config s f0 xi cfg) ].
Proof. exact (fun r mq f0 xi nc m quarks Hq Hm Hl => s_inv_ir r mq f0 xi _ Hq (internal_pos nc m quarks Hm Hl)). Qed.
Print Assumptions C23_gluon_infrared.

Theorem C23_gluon_propagator : forall r mq f0 xi nc m quarks, mq <> 0 -> m <> 0 -> Forall (fun q : nat * R => snd q <> 0) quarks ->
  let cfg := FieldConfig_new nc m quarks in
  Forall (fun P : R -> R => tends (at_right 0) P (8 / 5))
    [ (fun s => ym_gluon_propagator_landau s f0); (fun s => qcd_gluon_propagator_landau r s mq f0);
      (fun s => qcd_gluon_propagator_crossed_landau r s mq f0);
      (fun s => qcd_gluon_propagator_landau_w_field_config s f0 cfg);
      (fun s => qcd_gluon_propagator_crossed_landau_w_field_config s f0 cfg) ] /\
  (5 / 8 + xi / 4 <> 0 ->
   Forall (fun P : R -> R => tends (at_right 0) P (/ (5 / 8 + xi / 4)))
    [ (fun s => ym_gluon_propagator s f0 xi); (fun s => qcd_gluon_propagator r s mq f0 xi);
      (fun s => qcd_gluon_propagator_crossed r s mq f0 xi);
      (fun s => qcd_gluon_propagator_w_field_config s f0 xi cfg);
      (fun s => qcd_gluon_propagator_crossed_w_field_config s f0 xi cfg) ]).
Proof. exact (fun r mq f0 xi nc m quarks Hq Hm Hl => gluon_prop_ir r mq f0 xi _ Hq (internal_pos nc m quarks Hm Hl)). Qed.
Print Assumptions C23_gluon_propagator.

Theorem C23_ghost : forall g0,
  tends (at_right 0) (fun s => ym_ghost_dressing_inv_landau s g0) (5 / 24 + g0) /\
  (5 / 24 + g0 <> 0 -> tends (at_right 0) (fun s => ym_ghost_dressing_landau s g0) (/ (5 / 24 + g0))).
Proof. exact (fun g0 => conj (ghost_ir g0) (ghost_dressing_ir g0)). Qed.
Print Assumptions C23_ghost.

(** In Feynman gauge (xi = 1) with nf = 2 quarks, f0 = -1: the limit is 8/7. *)
Example C23_example : tends (at_right 0) (fun s => qcd_gluon_propagator (2 / 3) s (1 / 2) (-1) 1) (8 / 7).
Proof.
  destruct (gluon_prop_ir (2 / 3) (1 / 2) (-1) 1 (FieldConfig_new 3 1 []) ltac:(lra) (internal_pos 3 1 [] ltac:(lra) (Forall_nil _))) as [_ H].
  specialize (H ltac:(lra)). apply Forall_cons_iff in H as [_ H]. apply Forall_cons_iff in H as [H _].
  replace (8 / 7) with (/ (5 / 8 + 1 / 4)) by field. exact H.
Qed.

(** C24. *)
Theorem C24_low_level : tends INF (fun s => gl_f s / ln s) (13 / 18) /\ tends INF (fun s => gl_f_xi s / ln s) (- (1 / 6)) /\
  tends INF (fun s => gh_g s / ln s) (1 / 4) /\ tends INF (fun s => gh_g_xi s / ln s) (- (1 / 12)) /\
  tends INF (fun s => gl_f_q s / ln s) (- (2 / 9)) /\ tends INF (fun s => gl_f_q_crossed s / ln s) (- (2 / 9)).
Proof. exact (conj f_inf (conj f_xi_inf (conj g_inf (conj g_xi_inf (conj f_q_inf f_q_crossed_inf))))). Qed.
Print Assumptions C24_low_level.

Theorem C24_ultraviolet : forall r mq f0 g0 xi nc m quarks, mq <> 0 -> m <> 0 -> Forall (fun q : nat * R => snd q <> 0) quarks ->
  let cfg := FieldConfig_new nc m quarks in
  let w := INR (flavours quarks) / INR nc in
  Forall (fun x : (R -> R) * R => tends INF (fun s => fst x s / ln s) (snd x))
    [ (fun s => ym_ghost_dressing_inv_landau s g0, 1 / 4);
      (fun s => ym_ghost_dressing_inv s g0 xi, 1 / 4 - xi / 12);
      (fun s => ym_gluon_dressing_inv_landau s f0, 13 / 18);
      (fun s => ym_gluon_dressing_inv s f0 xi, 13 / 18 - xi / 6);
      (fun s => qcd_gluon_dressing_inv_landau r s mq f0, 13 / 18 - 2 / 9 * r);
      (fun s => qcd_gluon_dressing_inv r s mq f0 xi, 13 / 18 - xi / 6 - 2 / 9 * r);
      (fun s => qcd_gluon_dressing_crossed_inv_landau r s mq f0, 13 / 18 - 2 / 9 * r);
      (fun s => qcd_gluon_dressing_crossed_inv r s mq f0 xi, 13 / 18 - xi / 6 - 2 / 9 * r);
      (fun s => qcd_gluon_dressing_inv_landau_w_field_config s f0 cfg, 13 / 18 - 2 / 9 * w);
      (fun s => qcd_gluon_dressing_inv_w_field_config s f0 xi cfg, 13 / 18 - xi / 6 - 2 / 9 * w);
      (fun s => qcd_gluon_dressing_crossed_inv_landau_w_field_config s f0 cfg, 13 / 18 - 2 / 9 * w);
      (fun s => qcd_gluon_dressing_crossed_inv_w_field_config s f0 xi cfg, 13 / 18 - xi / 6 - 2 / 9 * w) ].
Proof. exact inv_uv_flavours. Qed.
Print Assumptions C24_ultraviolet.

(** The next order of the quark functions. *)
Theorem C24_quark_constant : tends INF (fun s => gl_f_q s + 2 / 9 * ln s) (10 / 27) /\
  tends INF (fun s => gl_f_q_crossed s + 2 / 9 * ln s) (- (2 / 27)).
Proof. exact (conj f_q_shift_inf f_q_crossed_shift_inf). Qed.
Print Assumptions C24_quark_constant.

(** Two light and one heavy flavour, three colours, Landau gauge: 13/18 - 2/9 = 1/2. *)
Example C24_example : forall f0, tends INF (fun s => qcd_gluon_dressing_inv_landau_w_field_config s f0
   (FieldConfig_new 3 (2 / 3) [(2%nat, 1 / 3); (1%nat, 2 / 5)]) / ln s) (1 / 2).
Proof.
  intros f0.
  pose proof (C24_ultraviolet 1 1 f0 0 0 3 (2 / 3) [(2%nat, 1 / 3); (1%nat, 2 / 5)] ltac:(lra) ltac:(lra)
    ltac:(repeat constructor; simpl; lra)) as H. cbv zeta in H.
  do 8 apply Forall_cons_iff in H as [_ H]. apply Forall_cons_iff in H as [H _]. cbn [fst snd] in H.
  replace (1 / 2) with (13 / 18 - 2 / 9 * (INR (flavours [(2%nat, 1 / 3); (1%nat, 2 / 5)]) / INR 3)); auto.
  unfold flavours; simpl. field.
Qed.

(** C25. *)
Theorem C25_sum_real : forall nc m l s f0 xi, (0 < nc)%nat -> m <> 0 -> Forall (fun q : nat * R => snd q <> 0) l ->
  let c := FieldConfig_new nc m l in
  qcd_gluon_dressing_inv_landau_w_field_config s f0 c = ym_gluon_dressing_inv_landau s f0 + quark_sum_R gl_f_q nc m s l /\
  qcd_gluon_dressing_inv_w_field_config s f0 xi c = ym_gluon_dressing_inv s f0 xi + quark_sum_R gl_f_q nc m s l /\
  qcd_gluon_dressing_crossed_inv_landau_w_field_config s f0 c = ym_gluon_dressing_inv_landau s f0 + quark_sum_R gl_f_q_crossed nc m s l /\
  qcd_gluon_dressing_crossed_inv_w_field_config s f0 xi c = ym_gluon_dressing_inv s f0 xi + quark_sum_R gl_f_q_crossed nc m s l.
Proof. exact field_config_sum_R. Qed.
Print Assumptions C25_sum_real.

Theorem C25_sum_complex : forall nc m l s f0 xi, (0 < nc)%nat -> m <> 0 -> Forall (fun q : nat * R => snd q <> 0) l ->
  let c := FieldConfig_new nc m l in
  qcd_gluon_dressing_inv_landau_w_field_config s f0 c = (ym_gluon_dressing_inv_landau s f0 + quark_sum_C gl_f_q nc m s l)%C /\
  qcd_gluon_dressing_inv_w_field_config s f0 xi c = (ym_gluon_dressing_inv s f0 xi + quark_sum_C gl_f_q nc m s l)%C /\
  qcd_gluon_dressing_crossed_inv_landau_w_field_config s f0 c = (ym_gluon_dressing_inv_landau s f0 + quark_sum_C gl_f_q_crossed nc m s l)%C /\
  qcd_gluon_dressing_crossed_inv_w_field_config s f0 xi c = (ym_gluon_dressing_inv s f0 xi + quark_sum_C gl_f_q_crossed nc m s l)%C.
Proof. exact field_config_sum_C. Qed.
Print Assumptions C25_sum_complex.

Theorem C25_order : forall f0 xi nc m l l', Permutation l l' ->
  Forall (fun F : R -> FieldConfig -> R => forall s, F s (FieldConfig_new nc m l) = F s (FieldConfig_new nc m l')) (field_config_functions f0 xi) /\
  Forall (fun F : C -> FieldConfig -> C => forall s, F s (FieldConfig_new nc m l) = F s (FieldConfig_new nc m l')) (field_config_functions f0 xi).
Proof.
  exact (fun f0 xi nc m l l' P => conj (same_loops_functions f0 xi _ _ (perm_loops_R _ _ (fc_perm nc m l l' P)))
    (same_loops_functions f0 xi _ _ (perm_loops_C _ _ (fc_perm nc m l l' P)))).
Qed.
Print Assumptions C25_order.

Theorem C25_merge : forall f0 xi nc m n1 n2 mq l1 l2,
  let c := FieldConfig_new nc m (l1 ++ (n1, mq) :: (n2, mq) :: l2) in
  let c' := FieldConfig_new nc m (l1 ++ ((n1 + n2)%nat, mq) :: l2) in
  Forall (fun F : R -> FieldConfig -> R => forall s, F s c = F s c') (field_config_functions f0 xi) /\
  Forall (fun F : C -> FieldConfig -> C => forall s, F s c = F s c') (field_config_functions f0 xi).
Proof.
  exact (fun f0 xi nc m n1 n2 mq l1 l2 => conj (same_loops_functions f0 xi _ _ (merge_loops_R nc m n1 n2 mq l1 l2))
    (same_loops_functions f0 xi _ _ (merge_loops_C nc m n1 n2 mq l1 l2))).
Qed.
Print Assumptions C25_merge.

Theorem C25_zero_flavours : forall f0 xi nc m mq l1 l2,
  let c := FieldConfig_new nc m (l1 ++ (0%nat, mq) :: l2) in
  let c' := FieldConfig_new nc m (l1 ++ l2) in
  Forall (fun F : R -> FieldConfig -> R => forall s, F s c = F s c') (field_config_functions f0 xi) /\
  Forall (fun F : C -> FieldConfig -> C => forall s, F s c = F s c') (field_config_functions f0 xi).
Proof.
  exact (fun f0 xi nc m mq l1 l2 => conj (same_loops_functions f0 xi _ _ (zero_loops_R nc m mq l1 l2))
    (same_loops_functions f0 xi _ _ (zero_loops_C nc m mq l1 l2))).
Qed.
Print Assumptions C25_zero_flavours.

Theorem C25_no_quarks : forall f0 xi nc m,
  Forall2 (fun (F : R -> FieldConfig -> R) (Y : R -> R) => forall s, F s (FieldConfig_new nc m []) = Y s)
    (field_config_functions f0 xi) (yang_mills_functions f0 xi) /\
  Forall2 (fun (F : C -> FieldConfig -> C) (Y : C -> C) => forall s, F s (FieldConfig_new nc m []) = Y s)
    (field_config_functions f0 xi) (yang_mills_functions f0 xi).
Proof. exact (fun f0 xi nc m => conj (empty_config_R f0 xi nc m) (empty_config_C f0 xi nc m)). Qed.
Print Assumptions C25_no_quarks.

Theorem C25_single_is_global : forall f0 xi nc m nf mq,
  Forall2 (fun (F : R -> FieldConfig -> R) (G : R -> R -> R -> R) =>
      forall s, F s (FieldConfig_new nc m [(nf, mq)]) = G (INR nf / INR nc) s (mq / m))
    (field_config_functions f0 xi) (global_functions f0 xi) /\
  Forall2 (fun (F : C -> FieldConfig -> C) (G : R -> C -> R -> C) =>
      forall s, F s (FieldConfig_new nc m [(nf, mq)]) = G (INR nf / INR nc) s (mq / m))
    (field_config_functions f0 xi) (global_functions f0 xi).
Proof. exact (fun f0 xi nc m nf mq => conj (single_config_R f0 xi nc m nf mq) (single_config_C f0 xi nc m nf mq)). Qed.
Print Assumptions C25_single_is_global.

(** Quark mass 1/2, gluon mass 1, s = 1/3: the argument of f_q is 4/3. *)
Example C25_example : forall f0, qcd_gluon_dressing_inv_landau_w_field_config (1 / 3) f0 (FieldConfig_new 3 1 [(2%nat, 1 / 2)]) =
  ym_gluon_dressing_inv_landau (1 / 3) f0 + 2 / 3 * (4 / 9 * (ln 3 / 2 - 2 / 3)).
Proof.
  intros f0. destruct (C25_sum_real 3 1 [(2%nat, 1 / 2)] (1 / 3) f0 0) as [E _]; [lia|lra|repeat constructor; simpl; lra|].
  rewrite E. unfold quark_sum_R. cbn [fold_right fst snd]. replace (1 / 3 * (1 * 1) / (1 / 2 * (1 / 2))) with (4 / 3) by field.
  rewrite f_q_43. simpl INR. field.
Qed.

(** C26. *)
Theorem C26_decoupling_global : forall r s f0 xi, 0 < s ->
  tends INF (fun mq => qcd_gluon_dressing_inv_landau r s mq f0) (ym_gluon_dressing_inv_landau s f0) /\
  tends INF (fun mq => qcd_gluon_dressing_inv r s mq f0 xi) (ym_gluon_dressing_inv s f0 xi) /\
  tends INF (fun mq => qcd_gluon_dressing_crossed_inv_landau r s mq f0) (ym_gluon_dressing_inv_landau s f0) /\
  tends INF (fun mq => qcd_gluon_dressing_crossed_inv r s mq f0 xi) (ym_gluon_dressing_inv s f0 xi).
Proof. exact heavy_global. Qed.
Print Assumptions C26_decoupling_global.

(** In a configuration only the heavy flavour disappears. *)
Theorem C26_decoupling_config : forall nc m nf l s f0 xi, 0 < s -> 0 < m ->
  Forall (fun F : R -> FieldConfig -> R => tends INF (fun mq => F s (FieldConfig_new nc m (l ++ [(nf, mq)]))) (F s (FieldConfig_new nc m l)))
    [ (fun s c => qcd_gluon_dressing_inv_landau_w_field_config s f0 c); (fun s c => qcd_gluon_dressing_inv_w_field_config s f0 xi c);
      (fun s c => qcd_gluon_dressing_crossed_inv_landau_w_field_config s f0 c); (fun s c => qcd_gluon_dressing_crossed_inv_w_field_config s f0 xi c) ].
Proof. exact heavy_config. Qed.
Print Assumptions C26_decoupling_config.

(** At a finite mass the quark does contribute: s = 4/3, mq = 1. *)
Example C26_example : forall f0, qcd_gluon_dressing_inv_landau 1 (4 / 3) 1 f0 < ym_gluon_dressing_inv_landau (4 / 3) f0.
Proof.
  intros f0. inv_eqs. numcbn. replace (4 / 3 / (1 * 1)) with (4 / 3) by field. pose proof f_q_43_neg. lra.
Qed.

(** C27. *)
Theorem C27_massless_limit : forall temps chempots momenta om renpoint nc m nf l s f0 xi, (0 < nc)%nat -> 0 < s -> 0 < m ->
  let f0_of c := cfg_f0 (Config_new temps chempots momenta om renpoint f0 c) in
  let c mq := FieldConfig_new nc m ((nf, mq) :: l) in
  let c0 := FieldConfig_new nc m l in
  tends (at_right 0) (fun mq => qcd_gluon_dressing_inv_landau_w_field_config s (f0_of (c mq)) (c mq))
    (qcd_gluon_dressing_inv_landau_w_field_config s (f0_of c0) c0 + INR nf / INR nc * (10 / 27 - 2 / 9 * ln s)) /\
  tends (at_right 0) (fun mq => qcd_gluon_dressing_inv_w_field_config s (f0_of (c mq)) xi (c mq))
    (qcd_gluon_dressing_inv_w_field_config s (f0_of c0) xi c0 + INR nf / INR nc * (10 / 27 - 2 / 9 * ln s)).
Proof. exact (fun _ _ _ _ _ => massless_limit). Qed.
Print Assumptions C27_massless_limit.

Theorem C27_divergence_without_shift : forall nc m nf l s f0 xi, (0 < nc)%nat -> (0 < nf)%nat -> 0 < s -> 0 < m ->
  let c mq := FieldConfig_new nc m ((nf, mq) :: l) in
  filterlim (fun mq => qcd_gluon_dressing_inv_landau_w_field_config s f0 (c mq)) (at_right 0) (Rbar_locally m_infty) /\
  filterlim (fun mq => qcd_gluon_dressing_inv_w_field_config s f0 xi (c mq)) (at_right 0) (Rbar_locally m_infty).
Proof. exact massless_divergence. Qed.
Print Assumptions C27_divergence_without_shift.

(** One flavour, s = 1: the quark part of the limit is (1/3)(10/27). *)
Example C27_example : forall f0,
  tends (at_right 0) (fun mq => qcd_gluon_dressing_inv_landau_w_field_config 1 (config_f0 f0 (FieldConfig_new 3 2 [(1%nat, mq)])) (FieldConfig_new 3 2 [(1%nat, mq)]))
    (ym_gluon_dressing_inv_landau 1 f0 + 10 / 81).
Proof.
  intros f0. destruct (massless_limit 3 2 1 [] 1 f0 0 ltac:(lia) ltac:(lra) ltac:(lra)) as [H _]. cbv zeta in H.
  replace (ym_gluon_dressing_inv_landau 1 f0 + 10 / 81) with (qcd_gluon_dressing_inv_landau_w_field_config 1 (config_f0 f0 (FieldConfig_new 3 2 [])) (FieldConfig_new 3 2 []) + INR 1 / INR 3 * (10 / 27 - 2 / 9 * ln 1)); [exact H|].
  rewrite ln_1. unfold config_f0, FieldConfig_new. cbn [fc_quarks fc_nc fc_gluon map fold_left].
  inv_eqs. unfold qloops; cbn [fc_quarks_internal fold_left]. numcbn. simpl INR. field.
Qed.

(** C28: false of the code; the derived data is computed once, in the constructor. *)
Theorem C28_config_fields_refuted : exists (c : FieldConfig) (q : list (nat * R)) (s f0 : R),
  c = FieldConfig_new 3 1 [(1%nat, 1)] /\ 0 < s /\
  let c' := fc_write_quarks c q in
  qcd_gluon_dressing_inv_landau_w_field_config s f0 c' <>
  qcd_gluon_dressing_inv_landau_w_field_config s f0 (FieldConfig_new (fc_nc c') (fc_gluon c') (fc_quarks c')).
Proof. exact config_fields_refuted. Qed.
Print Assumptions C28_config_fields_refuted.

Theorem C28_public_writes_ignored : forall f0 xi c nc m q,
  Forall (fun F : C -> FieldConfig -> C => forall s,
      F s (fc_write_nc c nc) = F s c /\ F s (fc_write_gluon c m) = F s c /\ F s (fc_write_quarks c q) = F s c)
    (field_config_functions f0 xi).
Proof. exact public_writes_ignored. Qed.
Print Assumptions C28_public_writes_ignored.

Example C28_example : fc_quarks (fc_write_quarks (FieldConfig_new 3 1 [(1%nat, 1)]) []) = [] /\
  length (fc_quarks_internal (fc_write_quarks (FieldConfig_new 3 1 [(1%nat, 1)]) [])) = 1%nat.
Proof. split; reflexivity. Qed.
