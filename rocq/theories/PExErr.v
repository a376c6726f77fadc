(** * Quadrature errors: sharpness and concrete cases *)
From Coq Require Import Reals Lra Lia List Psatz.
From Coquelicot Require Import Coquelicot.
From Verif Require Import Num CField MConsts MVacuum MThermal MPolar MDress MUtils MTc MPhase SpecInt SpecDress SpecTc SpecErr PCplx PVac PDress PInt PTc PCfg PPhase PColdLim PExTherm PErr PErr2 PErr3 PErr4.
Import List ListNotations.
Open Scope R_scope.

(** ** The integrals themselves *)
Lemma integrals_close {T} {NT : Num T} J g (om : T) p m mq beta mu I : Forall (fun x : C * (R -> C) * Integral R => let '(v, f, _) := x in
  forall eps u, accurate eps J (compact_C f) 0 1 -> is_RInt (V := C_R_NormedModule) (compact_C f) 0 1 u -> Cmod (v - u) <= eps) (half_line_integrals_C J g om p m mq beta mu I).
Proof.
  eapply Forall_impl; [|apply half_line_C]. intros [[v f] d] E eps u A H. cbv beta iota in E. rewrite E. now apply A.
Qed.

(** ** The bound is attained *)
Definition shiftJ (K : Integrator) (eps : R) : Integrator := {|
  integrateC := fun f a b I => (integrateC K f a b I + RtoC eps)%C;
  integrateR := fun f a b I => integrateR K f a b I + eps |}.
Lemma shift_accurate K eps f a b : exact_integrator K -> 0 <= eps -> accurate eps (shiftJ K eps) f a b.
Proof.
  intros HK He I v H. cbn [integrateC shiftJ]. rewrite (proj2 HK _ _ _ _ _ H). replace (v + RtoC eps - v)%C with (RtoC eps) by ring.
  rewrite Cmod_R, Rabs_pos_eq; lra.
Qed.
Lemma wsum_shift (F G : R -> C) quarks eps : (forall mq, F mq = (G mq + RtoC eps)%C) ->
  wsum_C (map (fun q : nat * R => (INR (fst q), F (snd q))) quarks) = (wsum_C (map (fun q : nat * R => (INR (fst q), G (snd q))) quarks) + RtoC (flavours quarks * eps))%C.
Proof.
  intros H. induction quarks as [|q l IH]; cbn [map flavours fold_right].
  - rewrite !wsum_C_nil, Rmult_0_l. ring.
  - fold (flavours l). rewrite !wsum_C_cons. cbn [fst snd]. rewrite IH, H, !RtoC_mult, RtoC_plus. ring.
Qed.
Lemma attained K g (om p m : R) nc quarks beta mu f0 eps : 0 <= eps -> om * om + p * p <> 0 ->
  Cmod (qcd_gluon_dressing_l_inv_w_field_config (shiftJ K eps) g om p beta mu f0 (FieldConfig_new nc m quarks)
        - qcd_gluon_dressing_l_inv_w_field_config K g om p beta mu f0 (FieldConfig_new nc m quarks))
  = 16 * PI * PI / 3 / (om * om + p * p) * (1 + flavours quarks) * eps.
Proof.
  intros He Hs.
  pose proof (nth_Forall _ _ 7%nat _ (gen_reductions_R (shiftJ K eps) g om p nc m 0 beta mu 0 f0 quarks Hs) eq_refl) as E1. cbv beta iota in E1.
  pose proof (nth_Forall _ _ 7%nat _ (gen_reductions_R K g om p nc m 0 beta mu 0 f0 quarks Hs) eq_refl) as E2. cbv beta iota in E2.
  rewrite E1, E2, !wsum_C_cons. cbn [fst snd].
  assert (G : polarization_glue_l_thermal_part_landau (shiftJ K eps) g om p m beta = (polarization_glue_l_thermal_part_landau K g om p m beta + RtoC eps)%C).
  { pose proof (nth_Forall _ _ 5%nat _ (half_line_C (shiftJ K eps) g om p m 0 beta mu (G7K15 0 0)) eq_refl) as A. pose proof (nth_Forall _ _ 5%nat _ (half_line_C K g om p m 0 beta mu (G7K15 0 0)) eq_refl) as B.
    cbv beta iota in A, B. rewrite A, B. reflexivity. }
  assert (Q : forall mq, polarization_quark_l_thermal_part_landau (shiftJ K eps) g om p mq beta mu = (polarization_quark_l_thermal_part_landau K g om p mq beta mu + RtoC eps)%C).
  { intros mq. pose proof (nth_Forall _ _ 9%nat _ (half_line_C (shiftJ K eps) g om p m mq beta mu (G7K15 0 0)) eq_refl) as A. pose proof (nth_Forall _ _ 9%nat _ (half_line_C K g om p m mq beta mu (G7K15 0 0)) eq_refl) as B.
    cbv beta iota in A, B. rewrite A, B. reflexivity. }
  rewrite G, (wsum_shift _ _ quarks eps Q). clear G Q E1 E2.
  set (v := toC _). set (a := polarization_glue_l_thermal_part_landau K g om p m beta). set (w := wsum_C _).
  replace (_ - _)%C with (RtoC (-1 * c0) / RtoC (om * om + p * p) * (RtoC eps + RtoC (flavours quarks * eps)))%C by ring.
  pose proof c0_pos as C0. pose proof (flavours_nonneg quarks) as F. set (k := c0) in *. assert (0 < om * om + p * p) by nra.
  set (s := om * om + p * p) in *. rewrite <- RtoC_plus, <- RtoC_div by auto. rewrite <- RtoC_mult, Cmod_R.
  replace (-1 * k / s * (eps + flavours quarks * eps)) with (- (k / s * (1 + flavours quarks) * eps)) by (field; auto). rewrite Rabs_Ropp.
  apply Rabs_pos_eq. assert (0 < k / s) by now apply Rdiv_lt_0_compat. apply Rmult_le_pos; [apply Rmult_le_pos; lra|auto].
Qed.

(** ** A large additive constant keeps the propagators away from their poles *)
Lemma fold_shift {A} (h : A -> R) l x y : fold_left (fun r q => r + h q) l (x + y) = fold_left (fun r q => r + h q) l x + y.
Proof. revert x. induction l as [|q l IH]; intros x; cbn [fold_left]; [reflexivity|]. rewrite <- IH. f_equal. ring. Qed.
Lemma vac_f0 (s : R) f0 cfg : qcd_gluon_dressing_inv_landau_w_field_config s f0 cfg = qcd_gluon_dressing_inv_landau_w_field_config s 0 cfg + f0.
Proof.
  unfold qcd_gluon_dressing_inv_landau_w_field_config, gl_ym_dressing_inv_landau_sep. cbv zeta. rewrite <- (fold_shift (fun qi => (gl_f_q (s / ofR (qi_mq_div_m_2 qi)) * ofR (qi_nf_div_nc qi))%num)).
  f_equal. numcbn. ring.
Qed.
Lemma Re_inv_pos (z : C) (k : R) : 0 < k -> 0 < Re z -> 0 < Re (RtoC k * / z)%C.
Proof.
  intros Hk Hz. destruct z as [x y]. cbn in *. assert (0 < x * (x * 1) + y * (y * 1)) by nra.
  replace (k * (x / (x * (x * 1) + y * (y * 1))) - 0 * (- y / (x * (x * 1) + y * (y * 1)))) with (k * (x / (x * (x * 1) + y * (y * 1)))) by ring.
  apply Rmult_lt_0_compat; [auto|]. now apply Rdiv_lt_0_compat.
Qed.
Definition safe (z : C) : Prop := 0 < Re z.
Lemma safe_nz z : safe z -> z <> RtoC 0.
Proof. intros H E. unfold safe in H. rewrite E in H. cbn in H. lra. Qed.

(** mass 2, a quark of mass 3, normalisation at 4, smallest momentum 2 *)
Definition err_fc : FieldConfig := FieldConfig_new 3 2 [(1%nat, 3)].
Definition err_c (temps chempots : list R) (f0 : R) : Config :=
  mkConfig 1 1 err_fc None 4 f0 temps chempots [1; 2] 16 None None.
Lemma err_sensible temps chempots f0 : Forall (fun t => 0 < t) (skipn 1 temps) -> sensible (err_c temps chempots f0).
Proof.
  intros H. unfold sensible, err_c. cbn [cfg_om cfg_renpoint cfg_pbase cfg_fieldconfig cfg_temps cfg_momenta fc_gluon err_fc FieldConfig_new maybe_corrected_data cfg_correctedfieldconfig cfg_correctedf0 cfg_phase_boundary].
  split; [lra|]. split; [lra|]. split; [lra|]. split; [lra|]. split; [exact H|]. split; [repeat constructor; lra|].
  intros mu t fc f E. injection E as <- <-. exists 3%nat, 2, [(1%nat, 3)]. split; [lra|reflexivity].
Qed.
Lemma big {X} (f : X -> R) l : exists F, forall x, In x l -> - F < f x.
Proof.
  induction l as [|x l (F & H)]; [exists 0; intros x []|]. exists (Rmax F (1 - f x)). pose proof (Rmax_l F (1 - f x)). pose proof (Rmax_r F (1 - f x)).
  intros y [<-|Hy]; [lra|]. specialize (H y Hy). lra.
Qed.
Lemma err_inv0 K g p mu f0 : Re (qcd_gluon_dressing_l_inv_zero_temp_w_field_config K g 1 p mu f0 err_fc) = Re (qcd_gluon_dressing_l_inv_zero_temp_w_field_config K g 1 p mu 0 err_fc) + f0.
Proof.
  unfold qcd_gluon_dressing_l_inv_zero_temp_w_field_config. cbv zeta. rewrite vac_f0. change (@toC R NumR) with RtoC. rewrite RtoC_plus.
  set (a := RtoC (qcd_gluon_dressing_inv_landau_w_field_config _ 0 _)). set (b := (_ * _)%num). change ((a + RtoC f0 - b)%num) with ((a + RtoC f0 - b)%C). change ((a - b)%num) with ((a - b)%C). unfold Re. cbn. ring.
Qed.
Lemma err_inv K g p beta mu f0 : Re (qcd_gluon_dressing_l_inv_w_field_config K g 1 p beta mu f0 err_fc) = Re (qcd_gluon_dressing_l_inv_w_field_config K g 1 p beta mu 0 err_fc) + f0.
Proof.
  unfold qcd_gluon_dressing_l_inv_w_field_config. cbv zeta. rewrite vac_f0. change (@toC R NumR) with RtoC. rewrite RtoC_plus.
  set (a := RtoC (qcd_gluon_dressing_inv_landau_w_field_config _ 0 _)). set (b := (_ * _)%num). change ((a + RtoC f0 - b)%num) with ((a + RtoC f0 - b)%C). change ((a - b)%num) with ((a - b)%C). unfold Re. cbn. ring.
Qed.
Lemma err_prop0 K g p mu f0 : safe (qcd_gluon_dressing_l_inv_zero_temp_w_field_config K g 1 p mu f0 err_fc) -> 0 < Re (prop_l0 K g 1 p mu f0 err_fc).
Proof.
  intros H. unfold prop_l0, qcd_gluon_propagator_l_zero_temp_w_field_config, qcd_gluon_dressing_l_zero_temp_w_field_config.
  apply (Re_inv_pos _ (/ (1 * 1 + p * p))); [apply Rinv_0_lt_compat; nra|exact H].
Qed.
Lemma err_prop K g p beta mu f0 : safe (qcd_gluon_dressing_l_inv_w_field_config K g 1 p beta mu f0 err_fc) -> 0 < Re (prop_l K g 1 p beta mu f0 err_fc).
Proof.
  intros H. unfold prop_l, qcd_gluon_propagator_l_w_field_config, qcd_gluon_dressing_l_w_field_config.
  apply (Re_inv_pos _ (/ (1 * 1 + p * p))); [apply Rinv_0_lt_compat; nra|exact H].
Qed.
Lemma err_pole_free K g temps chempots ps : exists F, forall f0, F <= f0 -> pole_free_l K g (err_c temps chempots f0) ps.
Proof.
  set (P := 4 :: ps).
  destruct (big (fun x : R * R => Re (qcd_gluon_dressing_l_inv_zero_temp_w_field_config K g 1 (fst x) (snd x) 0 err_fc)) (list_prod P chempots)) as (F1 & H1).
  destruct (big (fun x : R * (R * R) => Re (qcd_gluon_dressing_l_inv_w_field_config K g 1 (fst x) (1 / (fst (snd x) * 2)) (snd (snd x)) 0 err_fc)) (list_prod P (list_prod (skipn 1 temps) chempots))) as (F2 & H2).
  exists (Rmax F1 F2). intros f0 Hf. pose proof (Rmax_l F1 F2). pose proof (Rmax_r F1 F2).
  assert (rf : 0 < renfac (err_c temps chempots f0)) by (unfold renfac, err_c; cbn [cfg_renpoint2 fc_gluon cfg_fieldconfig err_fc FieldConfig_new]; lra).
  assert (Z : forall p mu, In p P -> In mu chempots -> safe (qcd_gluon_dressing_l_inv_zero_temp_w_field_config K g 1 p mu f0 err_fc)).
  { intros p mu Hp Hmu. unfold safe. rewrite err_inv0. pose proof (H1 (p, mu) (in_prod _ _ _ _ Hp Hmu)) as A. cbn [fst snd] in A. lra. }
  assert (T : forall p t mu, In p P -> In t (skipn 1 temps) -> In mu chempots -> safe (qcd_gluon_dressing_l_inv_w_field_config K g 1 p (1 / (t * 2)) mu f0 err_fc)).
  { intros p t mu Hp Ht Hmu. unfold safe. rewrite err_inv. pose proof (H2 (p, (t, mu)) (in_prod _ _ _ _ Hp (in_prod _ _ _ _ Ht Hmu))) as A. cbn [fst snd] in A. lra. }
  intros mu p Hmu Hp. cbn [cfg_chempots err_c] in Hmu. split.
  - intros fc f E. injection E as <- <-. cbn [cfg_om err_c cfg_renpoint]. split; [apply safe_nz, Z; auto; now right|].
    apply Rgt_not_eq, Rmult_lt_0_compat; [|exact rf]. apply err_prop0, Z; auto. now left.
  - intros t fc f Ht E. injection E as <- <-. cbn [cfg_om err_c cfg_renpoint cfg_fieldconfig fc_gluon err_fc FieldConfig_new]. cbn [cfg_temps err_c] in Ht. split; [apply safe_nz, T; auto; now right|].
    apply Rgt_not_eq, Rmult_lt_0_compat; [|exact rf]. apply err_prop, T; auto. now left.
Qed.

(** ** Concrete cases *)
Lemma ex_tc_error : (forall ds, Forall2 (fun a b => Rabs (a - b) <= 2 / 5) ds [1; 3; 2] -> find_critical_temperature [0; 1; 2] ds = Ret 1) /\
  Forall2 (fun a b => Rabs (a - b) <= 3 / 5) [1; 12 / 5; 13 / 5] [1; 3; 2] /\ find_critical_temperature [0; 1; 2] [1; 12 / 5; 13 / 5] = Ret 2.
Proof.
  split; [|split].
  - intros ds H. eapply fct_clear; [exact H|]. exists 1%nat, 3. split; [reflexivity|]. split; [reflexivity|].
    intros [|[|[|j]]] tj w E1 E2 N; cbn in E1, E2; try congruence; try (injection E2 as <-; lra). destruct j; discriminate.
  - repeat constructor; unfold Rabs; match goal with |- context [Rcase_abs ?x] => destruct (Rcase_abs x) end; lra.
  - unfold find_critical_temperature, find_critical_temperature_gen. cbn [combine skipn fct_loop]. unfold Rgtb.
    repeat match goal with |- context [Rlt_dec ?x ?y] => destruct (Rlt_dec x y) end; first [reflexivity|lra].
Qed.
Lemma shift_run K g c ps eps : exact_integrator K -> 0 <= eps -> accurate_run eps (shiftJ K eps) g c ps.
Proof.
  intros HK He mu p _ _. split.
  - intros fc f0 _ n mq _ _. split; now apply shift_accurate.
  - intros t fc f0 _ _. split; [now apply shift_accurate|]. split; [now apply shift_accurate|]. intros n mq _. split; now apply shift_accurate.
Qed.
Lemma ex_err_run : exists f0, let c := err_c [0; 1; 2] [0; 5] f0 in sensible c /\ pole_free_l RInt_J g0 c (ir_momenta c) /\
  forall eps, 0 <= eps -> accurate_run eps (shiftJ RInt_J eps) g0 c (ir_momenta c).
Proof.
  destruct (err_pole_free RInt_J g0 [0; 1; 2] [0; 5] [4; 1 * 2]) as (F & H). exists F. cbv zeta. split; [|split].
  - apply err_sensible. repeat constructor; lra.
  - apply H. lra.
  - intros eps He. apply shift_run; auto using RInt_J_exact.
Qed.
Lemma ex_err_unique : exists f0, let c := err_c [0] [0; 1; 2; 5] f0 in sensible c /\ pole_free_l RInt_J g0 c (ir_momenta c) /\
  (forall mu vs, In mu (cfg_chempots c) -> ir_values (prop_l0 RInt_J g0) (prop_l RInt_J g0) c mu = Ret vs -> exists t, clear_maximum 0 (cfg_temps c) vs t) /\
  compute_phase_diagram (prop_l0 RInt_J g0) (prop_l RInt_J g0) c = Ret ([(0, 0); (1, 0); (2, 0); (5, 0)], []).
Proof.
  destruct (err_pole_free RInt_J g0 [0] [0; 1; 2; 5] [4; 1 * 2]) as (F & H). exists F. cbv zeta. split; [|split; [|split]].
  - apply err_sensible. constructor.
  - apply H. lra.
  - intros mu vs _ E. exists 0. unfold ir_values in E. cbn in E. injection E as <-. exists 0%nat. eexists. split; [reflexivity|]. split; [reflexivity|].
    intros [|j] tj w E1 _ N; [congruence|]. destruct j; discriminate.
  - reflexivity.
Qed.
