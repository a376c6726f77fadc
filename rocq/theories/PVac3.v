(** * Vacuum functions: gauge dependence and field configurations *)
From Coq Require Import Reals List Psatz Permutation Lia.
From Coquelicot Require Import Coquelicot.
From Verif Require Import Num CField MConsts MVacuum SpecVac PCplx PVac PVac2.
Import List ListNotations.
Open Scope R_scope.

(** ** Gauge and additive constants *)
Lemma qloops_shift_R F s l : forall x, qloops (T := R) F s l x = x + qloops F s l 0.
Proof.
  unfold qloops. induction l as [|q l IH]; intros x; cbn [fold_left]; numcbn; [ring|].
  rewrite (IH (x + _)), (IH (0 + _)). ring.
Qed.
Lemma qloops_shift_C F s l : forall x, qloops (T := C) F s l x = (x + qloops F s l (RtoC 0))%C.
Proof.
  unfold qloops. induction l as [|q l IH]; intros x; cbn [fold_left]; numcbn; [ring|].
  rewrite (IH (x + _)%C), (IH (RtoC 0 + _)%C). ring.
Qed.

Ltac inv_eqs := rewrite ?ym_ghost_inv_landau_eq, ?ym_ghost_inv_eq, ?ym_gluon_inv_landau_eq, ?ym_gluon_inv_eq,
  ?qcd_inv_landau_eq, ?qcd_inv_eq, ?qcdx_inv_landau_eq, ?qcdx_inv_eq, ?fc_inv_landau_eq, ?fc_inv_eq,
  ?fcx_inv_landau_eq, ?fcx_inv_eq.

Lemma gauge_dependence_R r mq cfg :
  Forall (fun x : (R -> R -> R) * (R -> R -> R -> R) => let '(L, G) := x in
    forall s f0 f0' xi xi',
      G s f0 0 = L s f0 /\
      G s f0 (xi + xi') - G s f0 xi = G s 0 xi' - G s 0 0 /\
      L s f0' - L s f0 = f0' - f0 /\ G s f0' xi - G s f0 xi = f0' - f0 /\
      G s f0 xi = L s f0 + xi * (G s 0 1 - L s 0)) (inverse_dressings r mq cfg).
Proof.
  unfold inverse_dressings. repeat constructor; inv_eqs; numcbn;
  try (rewrite !(qloops_shift_R _ _ _ (_ + _)));
  try match goal with |- context [qloops ?F ?s ?l 0] => generalize (qloops F s l 0); intro end; ring.
Qed.

Lemma gauge_dependence_C r mq cfg :
  Forall (fun x : (C -> R -> C) * (C -> R -> R -> C) => let '(L, G) := x in
    forall s f0 f0' xi xi',
      G s f0 0 = L s f0 /\
      (G s f0 (xi + xi')%R - G s f0 xi = G s 0 xi' - G s 0 0)%C /\
      (L s f0' - L s f0 = RtoC (f0' - f0))%C /\ (G s f0' xi - G s f0 xi = RtoC (f0' - f0))%C /\
      G s f0 xi = (L s f0 + RtoC xi * (G s 0%R 1%R - L s 0%R))%C) (inverse_dressings r mq cfg).
Proof.
  unfold inverse_dressings. repeat constructor; inv_eqs; numcbn; rewrite ?RtoC_plus, ?RtoC_minus;
  try (rewrite !(qloops_shift_C _ _ _ (_ + _)%C));
  try match goal with |- context [qloops ?F ?s ?l (RtoC 0)] => generalize (qloops F s l (RtoC 0)); intro end; ring.
Qed.

(** ** Field configurations *)
Lemma qloops_sum_R F nc m s l : (0 < nc)%nat -> m <> 0 -> Forall (fun q : nat * R => snd q <> 0) l -> forall x,
  qloops F s (map (fun nm => QuarkInternal_new nc m (fst nm) (snd nm)) l) x = x + quark_sum_R F nc m s l.
Proof.
  intros Hc Hm Hl. induction Hl as [|[nf mq] l Hq Hl IH]; intros x.
  - unfold qloops, quark_sum_R; cbn. ring.
  - cbn [map]. unfold qloops in *. cbn [fold_left]. rewrite IH. unfold quark_sum_R. cbn [fold_right fst snd]. cbn [snd] in Hq.
    unfold QuarkInternal_new. cbn [qi_nf_div_nc qi_mq_div_m_2 fst snd]. numcbn.
    replace (s / (mq / m * (mq / m))) with (s * (m * m) / (mq * mq)) by (field; auto). ring.
Qed.
Lemma qloops_sum_C F nc m s l : (0 < nc)%nat -> m <> 0 -> Forall (fun q : nat * R => snd q <> 0) l -> forall x,
  qloops F s (map (fun nm => QuarkInternal_new nc m (fst nm) (snd nm)) l) x = (x + quark_sum_C F nc m s l)%C.
Proof.
  intros Hc Hm Hl. induction Hl as [|[nf mq] l Hq Hl IH]; intros x.
  - unfold qloops, quark_sum_C; cbn. ring.
  - cbn [map]. unfold qloops in *. cbn [fold_left]. rewrite IH. unfold quark_sum_C. cbn [fold_right fst snd]. cbn [snd] in Hq.
    unfold QuarkInternal_new. cbn [qi_nf_div_nc qi_mq_div_m_2 fst snd]. numcbn.
    replace (s / RtoC (mq / m * (mq / m)))%C with (s * RtoC (m * m) / RtoC (mq * mq))%C.
    2:{ rewrite ?RtoC_mult, ?RtoC_div', ?RtoC_mult. field. split; apply RtoC_neq; auto. } ring.
Qed.

Lemma field_config_sum_R nc m l s f0 xi : (0 < nc)%nat -> m <> 0 -> Forall (fun q : nat * R => snd q <> 0) l ->
  let c := FieldConfig_new nc m l in
  qcd_gluon_dressing_inv_landau_w_field_config s f0 c = ym_gluon_dressing_inv_landau s f0 + quark_sum_R gl_f_q nc m s l /\
  qcd_gluon_dressing_inv_w_field_config s f0 xi c = ym_gluon_dressing_inv s f0 xi + quark_sum_R gl_f_q nc m s l /\
  qcd_gluon_dressing_crossed_inv_landau_w_field_config s f0 c = ym_gluon_dressing_inv_landau s f0 + quark_sum_R gl_f_q_crossed nc m s l /\
  qcd_gluon_dressing_crossed_inv_w_field_config s f0 xi c = ym_gluon_dressing_inv s f0 xi + quark_sum_R gl_f_q_crossed nc m s l.
Proof.
  intros Hc Hm Hl c. unfold c. inv_eqs. unfold FieldConfig_new; cbn [fc_quarks_internal].
  rewrite !qloops_sum_R by auto. repeat split.
Qed.
Lemma field_config_sum_C nc m l s f0 xi : (0 < nc)%nat -> m <> 0 -> Forall (fun q : nat * R => snd q <> 0) l ->
  let c := FieldConfig_new nc m l in
  qcd_gluon_dressing_inv_landau_w_field_config s f0 c = (ym_gluon_dressing_inv_landau s f0 + quark_sum_C gl_f_q nc m s l)%C /\
  qcd_gluon_dressing_inv_w_field_config s f0 xi c = (ym_gluon_dressing_inv s f0 xi + quark_sum_C gl_f_q nc m s l)%C /\
  qcd_gluon_dressing_crossed_inv_landau_w_field_config s f0 c = (ym_gluon_dressing_inv_landau s f0 + quark_sum_C gl_f_q_crossed nc m s l)%C /\
  qcd_gluon_dressing_crossed_inv_w_field_config s f0 xi c = (ym_gluon_dressing_inv s f0 xi + quark_sum_C gl_f_q_crossed nc m s l)%C.
Proof.
  intros Hc Hm Hl c. unfold c. inv_eqs. unfold FieldConfig_new; cbn [fc_quarks_internal].
  rewrite !qloops_sum_C by auto. repeat split.
Qed.

(** Two internal lists giving the same sums give the same functions. *)
Definition same_loops {T} {NT : Num T} (c c' : FieldConfig) : Prop :=
  forall (F : T -> T) s x, qloops F s (fc_quarks_internal c) x = qloops F s (fc_quarks_internal c') x.

Ltac fc_unfold := unfold qcd_gluon_propagator_w_field_config, qcd_gluon_propagator_landau_w_field_config,
    qcd_gluon_propagator_crossed_w_field_config, qcd_gluon_propagator_crossed_landau_w_field_config,
    qcd_gluon_dressing_w_field_config, qcd_gluon_dressing_landau_w_field_config,
    qcd_gluon_dressing_crossed_w_field_config, qcd_gluon_dressing_crossed_landau_w_field_config.

Lemma same_loops_functions {T} {NT : Num T} f0 xi c c' : same_loops (T := T) c c' ->
  Forall (fun F : T -> FieldConfig -> T => forall s, F s c = F s c') (field_config_functions f0 xi).
Proof.
  intros H. unfold field_config_functions. repeat constructor; intros s; fc_unfold; inv_eqs; now rewrite H.
Qed.

Lemma perm_loops_R c c' : Permutation (fc_quarks_internal c) (fc_quarks_internal c') -> same_loops (T := R) c c'.
Proof.
  intros P F s. induction P; intros z; unfold qloops in *; cbn [fold_left]; auto.
  - f_equal. numcbn. ring.
  - now rewrite IHP1.
Qed.
Lemma perm_loops_C c c' : Permutation (fc_quarks_internal c) (fc_quarks_internal c') -> same_loops (T := C) c c'.
Proof.
  intros P F s. induction P; intros z; unfold qloops in *; cbn [fold_left]; auto.
  - f_equal. numcbn. ring.
  - now rewrite IHP1.
Qed.

Lemma fc_perm nc m l l' : Permutation l l' ->
  Permutation (fc_quarks_internal (FieldConfig_new nc m l)) (fc_quarks_internal (FieldConfig_new nc m l')).
Proof. intros P. unfold FieldConfig_new; cbn [fc_quarks_internal]. now apply Permutation_map. Qed.

Lemma merge_loops_R nc m n1 n2 mq l1 l2 : same_loops (T := R)
  (FieldConfig_new nc m (l1 ++ (n1, mq) :: (n2, mq) :: l2)) (FieldConfig_new nc m (l1 ++ ((n1 + n2)%nat, mq) :: l2)).
Proof.
  intros F s x. unfold FieldConfig_new, qloops; cbn [fc_quarks_internal]. rewrite !map_app, !fold_left_app. cbn [map fold_left fst snd].
  f_equal. unfold QuarkInternal_new; cbn [qi_nf_div_nc qi_mq_div_m_2]. numcbn. rewrite plus_INR. unfold Rdiv. ring.
Qed.
Lemma merge_loops_C nc m n1 n2 mq l1 l2 : same_loops (T := C)
  (FieldConfig_new nc m (l1 ++ (n1, mq) :: (n2, mq) :: l2)) (FieldConfig_new nc m (l1 ++ ((n1 + n2)%nat, mq) :: l2)).
Proof.
  intros F s x. unfold FieldConfig_new, qloops; cbn [fc_quarks_internal]. rewrite !map_app, !fold_left_app. cbn [map fold_left fst snd].
  f_equal. unfold QuarkInternal_new; cbn [qi_nf_div_nc qi_mq_div_m_2]. numcbn. rewrite plus_INR. unfold Rdiv. rewrite !RtoC_mult, RtoC_plus. ring.
Qed.

Lemma zero_loops_R nc m mq l1 l2 : same_loops (T := R)
  (FieldConfig_new nc m (l1 ++ (0%nat, mq) :: l2)) (FieldConfig_new nc m (l1 ++ l2)).
Proof.
  intros F s x. unfold FieldConfig_new, qloops; cbn [fc_quarks_internal]. rewrite !map_app, !fold_left_app. cbn [map fold_left fst snd].
  f_equal. unfold QuarkInternal_new; cbn [qi_nf_div_nc qi_mq_div_m_2 INR]. numcbn. unfold Rdiv. ring.
Qed.
Lemma zero_loops_C nc m mq l1 l2 : same_loops (T := C)
  (FieldConfig_new nc m (l1 ++ (0%nat, mq) :: l2)) (FieldConfig_new nc m (l1 ++ l2)).
Proof.
  intros F s x. unfold FieldConfig_new, qloops; cbn [fc_quarks_internal]. rewrite !map_app, !fold_left_app. cbn [map fold_left fst snd].
  f_equal. unfold QuarkInternal_new; cbn [qi_nf_div_nc qi_mq_div_m_2 INR]. numcbn. unfold Rdiv. rewrite !RtoC_mult. ring.
Qed.

Lemma empty_config_R f0 xi nc m :
  Forall2 (fun (F : R -> FieldConfig -> R) (Y : R -> R) => forall s, F s (FieldConfig_new nc m []) = Y s)
    (field_config_functions f0 xi) (yang_mills_functions f0 xi).
Proof. repeat constructor. Qed.
Lemma empty_config_C f0 xi nc m :
  Forall2 (fun (F : C -> FieldConfig -> C) (Y : C -> C) => forall s, F s (FieldConfig_new nc m []) = Y s)
    (field_config_functions f0 xi) (yang_mills_functions f0 xi).
Proof. repeat constructor. Qed.

Lemma single_config_R f0 xi nc m nf mq :
  Forall2 (fun (F : R -> FieldConfig -> R) (G : R -> R -> R -> R) =>
      forall s, F s (FieldConfig_new nc m [(nf, mq)]) = G (INR nf / INR nc) s (mq / m))
    (field_config_functions f0 xi) (global_functions f0 xi).
Proof. repeat constructor. Qed.
Lemma single_config_C f0 xi nc m nf mq :
  Forall2 (fun (F : C -> FieldConfig -> C) (G : R -> C -> R -> C) =>
      forall s, F s (FieldConfig_new nc m [(nf, mq)]) = G (INR nf / INR nc) s (mq / m))
    (field_config_functions f0 xi) (global_functions f0 xi).
Proof. repeat constructor. Qed.

(** ** Public writes are ignored *)
Lemma public_writes_ignored {T} {NT : Num T} f0 xi c nc m q :
  Forall (fun F : T -> FieldConfig -> T => forall s,
      F s (fc_write_nc c nc) = F s c /\ F s (fc_write_gluon c m) = F s c /\ F s (fc_write_quarks c q) = F s c)
    (field_config_functions f0 xi).
Proof. repeat constructor. Qed.

Lemma ln_3_lt : ln 3 < 4 / 3.
Proof.
  rewrite <- (ln_exp (4 / 3)). apply ln_increasing; [lra|].
  replace (4 / 3) with (1 / 3 + 1 / 3 + 1 / 3 + 1 / 3) by field. rewrite !exp_plus.
  assert (1 + 1 / 3 < exp (1 / 3)) by (apply exp_ineq1; lra). set (e := exp (1 / 3)) in *. clearbody e.
  assert (16 / 9 < e * e) by nra. replace (e * e * e * e) with ((e * e) * (e * e)) by ring. nra.
Qed.

Lemma f_q_43 : gl_f_q (4 / 3) = 4 / 9 * (ln 3 / 2 - 2 / 3).
Proof.
  unfold gl_f_q. numcbn. replace (/ (4 / 3) * 4 + 1) with (2 * 2) by field. rewrite sqrt_square by lra.
  replace ((2 - 1) / (2 + 1)) with (/ 3) by field. rewrite ln_Rinv by lra. field.
Qed.

Lemma config_fields_refuted : exists (c : FieldConfig) (q : list (nat * R)) (s f0 : R),
  c = FieldConfig_new 3 1 [(1%nat, 1)] /\ 0 < s /\
  let c' := fc_write_quarks c q in
  qcd_gluon_dressing_inv_landau_w_field_config s f0 c' <>
  qcd_gluon_dressing_inv_landau_w_field_config s f0 (FieldConfig_new (fc_nc c') (fc_gluon c') (fc_quarks c')).
Proof.
  exists (FieldConfig_new 3 1 [(1%nat, 1)]), [], (4 / 3), 0. repeat split; [lra|].
  cbv zeta. inv_eqs. unfold fc_write_quarks, FieldConfig_new, qloops, QuarkInternal_new.
  cbn [fc_quarks_internal fc_nc fc_gluon fc_quarks map fold_left fst snd qi_nf_div_nc qi_mq_div_m_2]. numcbn.
  replace (4 / 3 / (1 / 1 * (1 / 1))) with (4 / 3) by field. rewrite f_q_43. intros E.
  pose proof ln_3_lt. simpl INR in E. lra.
Qed.
