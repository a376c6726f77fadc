(** * Quadrature errors in the phase-diagram program *)
From Coq Require Import Reals Lra Lia List Psatz.
From Coquelicot Require Import Coquelicot.
From Verif Require Import Num CField MConsts MVacuum MThermal MPolar MDress MUtils MTc MPhase SpecInt SpecDress SpecTc SpecErr PCplx PVac PDress PTc PPhase PErr PErr2 PErr3.
Import List ListNotations.
Open Scope R_scope.

(** ** The critical temperature *)
Lemma Forall2_nth {A B} (Q : A -> B -> Prop) X Y n x : Forall2 Q X Y -> nth_error X n = Some x -> exists y, nth_error Y n = Some y /\ Q x y.
Proof.
  intros H. revert n. induction H as [|a b X Y H1 H2 IH]; intros [|n] E; try discriminate; cbn [nth_error] in *; [|eauto].
  injection E as <-. eauto.
Qed.
Lemma Forall2_nth' {A B} (Q : A -> B -> Prop) X Y n y : Forall2 Q X Y -> nth_error Y n = Some y -> exists x, nth_error X n = Some x /\ Q x y.
Proof.
  intros H. revert n. induction H as [|a b X Y H1 H2 IH]; intros [|n] E; try discriminate; cbn [nth_error] in *; [|eauto].
  injection E as <-. eauto.
Qed.
Lemma fct_first ts ds t : find_critical_temperature ts ds = Ret t -> first_argmax ts ds t.
Proof.
  intros H. destruct (fct_correct ts ds) as (t' & H1 & H2); [intros ->; discriminate|intros ->; destruct ts; discriminate|].
  rewrite H in H1. injection H1 as <-. exact H2.
Qed.
Lemma fct_near ts ds ds' d t : Forall2 (fun a b => Rabs (a - b) <= d) ds ds' -> find_critical_temperature ts ds = Ret t -> near_maximum (2 * d) ts ds' t.
Proof.
  intros F H. destruct (fct_first _ _ _ H) as (i & v & H1 & H2 & H3 & _).
  destruct (Forall2_nth _ _ _ _ _ F H2) as (v' & E & D). exists i, v'. split; [auto|]. split; [auto|]. intros j tj w Hj Hw.
  destruct (Forall2_nth' _ _ _ _ _ F Hw) as (u & Hu & D'). pose proof (H3 j tj u Hj Hu).
  revert D D'. unfold Rabs. destruct (Rcase_abs (v - v')), (Rcase_abs (u - w)); lra.
Qed.
Lemma fct_clear ts ds ds' d t : Forall2 (fun a b => Rabs (a - b) <= d) ds ds' -> clear_maximum (2 * d) ts ds' t -> find_critical_temperature ts ds = Ret t.
Proof.
  intros F (i & v & H1 & H2 & H3). destruct (Forall2_nth' _ _ _ _ _ F H2) as (v' & E & D).
  destruct (fct_correct ts ds) as (t' & C1 & C2); [intros ->; destruct i; discriminate|intros ->; destruct i; discriminate|].
  rewrite C1. destruct C2 as (j & u & K1 & K2 & K3 & _). destruct (Nat.eq_dec j i) as [->|N]; [congruence|]. exfalso.
  destruct (Forall2_nth _ _ _ _ _ F K2) as (u' & E' & D'). pose proof (H3 j t' u' K1 E' N). pose proof (K3 i t v' H1 E).
  revert D D'. unfold Rabs. destruct (Rcase_abs (v' - v)), (Rcase_abs (u - u')); lra.
Qed.
Lemma gap ts vs t : clear_maximum 0 ts vs t -> exists d, 0 < d /\ clear_maximum d ts vs t.
Proof.
  intros (i & v & H1 & H2 & H3).
  assert (G : forall n, exists d, 0 < d /\ forall j tj w, (j < n)%nat -> nth_error ts j = Some tj -> nth_error vs j = Some w -> j <> i -> w + d < v).
  { induction n as [|n (d & Hd & IH)]; [exists 1; split; [lra|]; intros; lia|].
    destruct (Nat.eq_dec n i) as [->|N].
    - exists d. split; [auto|]. intros j tj w Hj. destruct (Nat.eq_dec j i) as [->|]; [congruence|]. apply (IH j tj w). lia.
    - destruct (nth_error ts n) as [tn|] eqn:En; [destruct (nth_error vs n) as [wn|] eqn:Ew|].
      + pose proof (H3 n tn wn En Ew N). exists (Rmin d ((v - wn) / 2)). split; [apply Rmin_glb_lt; lra|].
        pose proof (Rmin_l d ((v - wn) / 2)). pose proof (Rmin_r d ((v - wn) / 2)).
        intros j tj w Hj A B Nj. destruct (Nat.eq_dec j n) as [->|]; [rewrite Ew in B; injection B as <-; lra|].
        assert (j < n)%nat by lia. pose proof (IH j tj w H5 A B Nj). lra.
      + exists d. split; [auto|]. intros j tj w Hj A B Nj. destruct (Nat.eq_dec j n) as [->|]; [congruence|]. apply (IH j tj w); auto. lia.
      + exists d. split; [auto|]. intros j tj w Hj A B Nj. destruct (Nat.eq_dec j n) as [->|]; [congruence|]. apply (IH j tj w); auto. lia. }
  destruct (G (length vs)) as (d & Hd & Hg). exists d. split; [auto|]. exists i, v. split; [auto|]. split; [auto|].
  intros j tj w A B. apply Hg with tj; auto. apply nth_error_Some. congruence.
Qed.

(** ** Propagators of a run *)
Lemma accurate_mono e e' J f a b : e <= e' -> accurate e J f a b -> accurate e' J f a b.
Proof. intros L H I v Hv. specialize (H I v Hv). lra. Qed.
Lemma accurate_run_mono g c ps e e' J : e <= e' -> accurate_run e J g c ps -> accurate_run e' J g c ps.
Proof.
  intros L H mu p Hmu Hp. destruct (H mu p Hmu Hp) as [H1 H2]. split.
  - intros fc f0 E n mq Hq Hl. destruct (H1 fc f0 E n mq Hq Hl). split; eapply accurate_mono; eauto.
  - intros t fc f0 Ht E. destruct (H2 t fc f0 Ht E) as (A & B & C). split; [eapply accurate_mono; eauto|]. split; [eapply accurate_mono; eauto|].
    intros n mq Hq. destruct (C n mq Hq). split; eapply accurate_mono; eauto.
Qed.

Section Run.
Variables (K : Integrator) (g : globals R) (c : Config) (ps : list R).
Hypothesis HK : exact_integrator K.
Hypothesis Hnc : (0 < g_nc g)%nat.
Hypothesis HS : sensible c.
Hypothesis Hps : forall p, In p ps -> 0 < p.
Let A eps J := accurate_run eps J g c ps.
Let Amono : forall e e' J, e <= e' -> A e J -> A e' J := accurate_run_mono g c ps.

Lemma dev_ev (i d pr : Integrator -> C) s W : s <> RtoC 0 -> 0 <= W -> i K <> RtoC 0 ->
  (forall J, dev3_C s (i J, d J, pr J) (i K, d K, pr K)) -> (forall J eps, 0 < eps -> A eps J -> Cmod (i J - i K) <= W * eps) ->
  forall e, 0 < e -> ev A (fun J => Rabs (Re (pr J) - Re (pr K)) <= e).
Proof.
  intros Hs HW Hi HD HA e He.
  destruct (small_eps (Cmod (i K)) (Cmod s) W e) as (eps & E1 & E2 & E3); [now apply Cmod_gt_0|now apply Cmod_gt_0|auto|auto|].
  exists eps. split; [auto|]. intros J HJ. eapply Rle_trans; [apply Re_dev|]. eapply Rle_trans; [|exact E3].
  exact (proj2 (proj2 (HD J (W * eps) (HA J eps E1 HJ) E2))).
Qed.
Lemma s_pos p : In p ps -> 0 < cfg_om c * cfg_om c + p * p.
Proof. intros H. specialize (Hps p H). nra. Qed.
Lemma W_pos p x : In p ps -> 0 <= x -> 0 <= c0 / (cfg_om c * cfg_om c + p * p) * x.
Proof. intros H Hx. apply Rmult_le_pos; [|auto]. left. apply Rdiv_lt_0_compat; [apply c0_pos|now apply s_pos]. Qed.
Lemma sC p : In p ps -> RtoC (cfg_om c * cfg_om c + p * p) <> RtoC 0.
Proof. intros H E. apply RtoC_inj in E. pose proof (s_pos p H). lra. Qed.
Lemma beta_pos t : In t (skipn 1 (cfg_temps c)) -> 0 < 1 / (t * fc_gluon (cfg_fieldconfig c)).
Proof.
  intros H. destruct HS as (_ & _ & _ & Hm & Ht & _). rewrite Forall_forall in Ht. specialize (Ht t H).
  apply Rdiv_lt_0_compat; [lra|nra].
Qed.
Lemma l0_ev mu p fc f0 : In mu (cfg_chempots c) -> In p ps -> maybe_corrected_data c mu 0 = Ret (fc, f0) ->
  qcd_gluon_dressing_l_inv_zero_temp_w_field_config K g (cfg_om c) p mu f0 fc <> RtoC 0 ->
  forall d, 0 < d -> ev A (fun J => Rabs (Re (prop_l0 J g (cfg_om c) p mu f0 fc) - Re (prop_l0 K g (cfg_om c) p mu f0 fc)) <= d).
Proof.
  intros Hmu Hp E Hi. destruct HS as (Hom & _ & _ & _ & _ & _ & Hfc). destruct (Hfc _ _ _ _ E) as (nc & m & quarks & Hm & ->).
  unfold prop_l0. apply (dev_ev (fun J => qcd_gluon_dressing_l_inv_zero_temp_w_field_config J g (cfg_om c) p mu f0 (FieldConfig_new nc m quarks))
    (fun J => qcd_gluon_dressing_l_zero_temp_w_field_config J g (cfg_om c) p mu f0 (FieldConfig_new nc m quarks)) (fun J => qcd_gluon_propagator_l_zero_temp_w_field_config J g (cfg_om c) p mu f0 (FieldConfig_new nc m quarks))
    (RtoC (cfg_om c * cfg_om c + p * p)) (c0 / (cfg_om c * cfg_om c + p * p) * flavours quarks)); auto using sC, W_pos, flavours_nonneg.
  - intros J. apply (nth_Forall2 _ _ _ 9%nat _ _ (proj1 (fam_err J K g 1 1 1 mu 0 f0 (FieldConfig_new nc m quarks)) (cfg_om c) p (not_eq_sym (Rlt_not_eq _ _ (s_pos p Hp)))) eq_refl eq_refl).
  - intros J eps He HA. apply cfg_l0_err; auto; [lra|]. exact (proj1 (HA mu p Hmu Hp) _ _ E).
Qed.
Lemma t0_ev mu p fc f0 : In mu (cfg_chempots c) -> In p ps -> maybe_corrected_data c mu 0 = Ret (fc, f0) ->
  qcd_gluon_dressing_t_inv_zero_temp_w_field_config K g (cfg_om c) p mu f0 fc <> RtoC 0 ->
  forall d, 0 < d -> ev A (fun J => Rabs (Re (prop_t0 J g (cfg_om c) p mu f0 fc) - Re (prop_t0 K g (cfg_om c) p mu f0 fc)) <= d).
Proof.
  intros Hmu Hp E Hi. destruct HS as (Hom & _ & _ & _ & _ & _ & Hfc). destruct (Hfc _ _ _ _ E) as (nc & m & quarks & Hm & ->).
  unfold prop_t0. apply (dev_ev (fun J => qcd_gluon_dressing_t_inv_zero_temp_w_field_config J g (cfg_om c) p mu f0 (FieldConfig_new nc m quarks))
    (fun J => qcd_gluon_dressing_t_zero_temp_w_field_config J g (cfg_om c) p mu f0 (FieldConfig_new nc m quarks)) (fun J => qcd_gluon_propagator_t_zero_temp_w_field_config J g (cfg_om c) p mu f0 (FieldConfig_new nc m quarks))
    (RtoC (cfg_om c * cfg_om c + p * p)) (c0 / (cfg_om c * cfg_om c + p * p) * flavours quarks)); auto using sC, W_pos, flavours_nonneg.
  - intros J. apply (nth_Forall2 _ _ _ 10%nat _ _ (proj1 (fam_err J K g 1 1 1 mu 0 f0 (FieldConfig_new nc m quarks)) (cfg_om c) p (not_eq_sym (Rlt_not_eq _ _ (s_pos p Hp)))) eq_refl eq_refl).
  - intros J eps He HA. apply cfg_t0_err; auto; [lra|]. exact (proj1 (HA mu p Hmu Hp) _ _ E).
Qed.
Lemma l_ev mu t p fc f0 : In mu (cfg_chempots c) -> In t (skipn 1 (cfg_temps c)) -> In p ps -> maybe_corrected_data c mu t = Ret (fc, f0) ->
  let beta := 1 / (t * fc_gluon (cfg_fieldconfig c)) in
  qcd_gluon_dressing_l_inv_w_field_config K g (cfg_om c) p beta mu f0 fc <> RtoC 0 ->
  forall d, 0 < d -> ev A (fun J => Rabs (Re (prop_l J g (cfg_om c) p beta mu f0 fc) - Re (prop_l K g (cfg_om c) p beta mu f0 fc)) <= d).
Proof.
  intros Hmu Ht Hp E beta Hi. pose proof HS as (Hom & _ & _ & _ & _ & _ & Hfc). destruct (Hfc _ _ _ _ E) as (nc & m & quarks & Hm & ->).
  pose proof (flavours_nonneg quarks) as Hf.
  unfold prop_l. apply (dev_ev (fun J => qcd_gluon_dressing_l_inv_w_field_config J g (cfg_om c) p beta mu f0 (FieldConfig_new nc m quarks))
    (fun J => qcd_gluon_dressing_l_w_field_config J g (cfg_om c) p beta mu f0 (FieldConfig_new nc m quarks)) (fun J => qcd_gluon_propagator_l_w_field_config J g (cfg_om c) p beta mu f0 (FieldConfig_new nc m quarks))
    (RtoC (cfg_om c * cfg_om c + p * p)) (c0 / (cfg_om c * cfg_om c + p * p) * (1 + flavours quarks))); auto using sC.
  - apply W_pos; [auto|lra].
  - intros J. apply (nth_Forall2 _ _ _ 7%nat _ _ (proj1 (fam_err J K g 1 1 beta mu 0 f0 (FieldConfig_new nc m quarks)) (cfg_om c) p (not_eq_sym (Rlt_not_eq _ _ (s_pos p Hp)))) eq_refl eq_refl).
  - intros J eps He HA. apply cfg_l_err; auto; [now apply beta_pos|]. exact (proj2 (HA mu p Hmu Hp) t _ _ Ht E).
Qed.
Lemma t_ev mu t p fc f0 : In mu (cfg_chempots c) -> In t (skipn 1 (cfg_temps c)) -> In p ps -> maybe_corrected_data c mu t = Ret (fc, f0) ->
  let beta := 1 / (t * fc_gluon (cfg_fieldconfig c)) in
  qcd_gluon_dressing_t_inv_w_field_config K g (cfg_om c) p beta mu f0 fc <> RtoC 0 ->
  forall d, 0 < d -> ev A (fun J => Rabs (Re (prop_t J g (cfg_om c) p beta mu f0 fc) - Re (prop_t K g (cfg_om c) p beta mu f0 fc)) <= d).
Proof.
  intros Hmu Ht Hp E beta Hi. pose proof HS as (Hom & _ & _ & _ & _ & _ & Hfc). destruct (Hfc _ _ _ _ E) as (nc & m & quarks & Hm & ->).
  pose proof (flavours_nonneg quarks) as Hf.
  unfold prop_t. apply (dev_ev (fun J => qcd_gluon_dressing_t_inv_w_field_config J g (cfg_om c) p beta mu f0 (FieldConfig_new nc m quarks))
    (fun J => qcd_gluon_dressing_t_w_field_config J g (cfg_om c) p beta mu f0 (FieldConfig_new nc m quarks)) (fun J => qcd_gluon_propagator_t_w_field_config J g (cfg_om c) p beta mu f0 (FieldConfig_new nc m quarks))
    (RtoC (cfg_om c * cfg_om c + p * p)) (c0 / (cfg_om c * cfg_om c + p * p) * (1 + flavours quarks))); auto using sC.
  - apply W_pos; [auto|lra].
  - intros J. apply (nth_Forall2 _ _ _ 8%nat _ _ (proj1 (fam_err J K g 1 1 beta mu 0 f0 (FieldConfig_new nc m quarks)) (cfg_om c) p (not_eq_sym (Rlt_not_eq _ _ (s_pos p Hp)))) eq_refl eq_refl).
  - intros J eps He HA. apply cfg_t_err; auto; [now apply beta_pos|]. exact (proj2 (HA mu p Hmu Hp) t _ _ Ht E).
Qed.
End Run.

Section Results.
Variables (K : Integrator) (g : globals R) (c : Config).
Hypothesis HK : exact_integrator K.
Hypothesis Hnc : (0 < g_nc g)%nat.
Hypothesis HS : sensible c.
Let irpos : forall p, In p (ir_momenta c) -> 0 < p.
Proof. destruct HS as (_ & Hr & Hp & Hm & _). intros p [<-|[<-|[]]]; nra. Qed.
Let cvpos : forall p, In p (curve_momenta c) -> 0 < p.
Proof.
  destruct HS as (_ & Hr & Hp & Hm & _ & Hmo & _). rewrite Forall_forall in Hmo. intros p [<-|H]; [auto|]. apply in_map_iff in H as (q & <- & Hq).
  specialize (Hmo q Hq). nra.
Qed.
Lemma curves_l_close mu d : pole_free_l K g c (curve_momenta c) -> In mu (cfg_chempots c) -> 0 < d ->
  exists eps, 0 < eps /\ forall J, accurate_run eps J g c (curve_momenta c) ->
    within d (curve_zero (prop_l0 J g) c mu) (curve_zero (prop_l0 K g) c mu) /\
    forall t, In t (skipn 1 (cfg_temps c)) -> within d (curve (prop_l J g) c mu t) (curve (prop_l K g) c mu t).
Proof.
  intros HP Hmu Hd. set (A := fun eps J => accurate_run eps J g c (curve_momenta c)).
  assert (Am : forall e e' J, e <= e' -> A e J -> A e' J) by (intros; eapply accurate_run_mono; eauto).
  assert (M : forall p, In p (cfg_momenta c) -> In (p * fc_gluon (cfg_fieldconfig c)) (curve_momenta c)) by (intros p Hp; right; apply in_map_iff; eauto).
  assert (S0 : forall mu p fc f0, In mu (cfg_chempots c) -> In p (curve_momenta c) -> maybe_corrected_data c mu 0 = Ret (fc, f0) ->
    Re (prop_l0 K g (cfg_om c) (cfg_renpoint c) mu f0 fc) * renfac c <> 0 /\ forall d, 0 < d -> ev A (fun J => Rabs (Re (prop_l0 J g (cfg_om c) p mu f0 fc) - Re (prop_l0 K g (cfg_om c) p mu f0 fc)) <= d)).
  { intros mu' p fc f0 H1 H2 H3. destruct (proj1 (HP mu' p H1 H2) fc f0 H3) as [N1 N2]. split; [exact N2|]. now apply l0_ev. }
  assert (S1 : forall mu t p fc f0, In mu (cfg_chempots c) -> In t (skipn 1 (cfg_temps c)) -> In p (curve_momenta c) -> maybe_corrected_data c mu t = Ret (fc, f0) ->
    Re (prop_l K g (cfg_om c) (cfg_renpoint c) (1 / (t * fc_gluon (cfg_fieldconfig c))) mu f0 fc) * renfac c <> 0 /\ forall d, 0 < d ->
      ev A (fun J => Rabs (Re (prop_l J g (cfg_om c) p (1 / (t * fc_gluon (cfg_fieldconfig c))) mu f0 fc) - Re (prop_l K g (cfg_om c) p (1 / (t * fc_gluon (cfg_fieldconfig c))) mu f0 fc)) <= d)).
  { intros mu' t p fc f0 H1 Ht H2 H3. destruct (proj2 (HP mu' p H1 H2) t fc f0 Ht H3) as [N1 N2]. split; [exact N2|]. now apply l_ev. }
  apply (ev_and A Am); [apply (curve_zero_ev A Am (fun J => prop_l0 J g) K c (curve_momenta c)); auto; now left|].
  apply (ev_all A Am (fun t J => within d (curve (prop_l J g) c mu t) (curve (prop_l K g) c mu t))). intros t Ht.
  apply (curve_ev A Am (fun J => prop_l J g) K c (curve_momenta c)); auto. now left.
Qed.
Lemma curves_t_close mu d : pole_free_t K g c (curve_momenta c) -> In mu (cfg_chempots c) -> 0 < d ->
  exists eps, 0 < eps /\ forall J, accurate_run eps J g c (curve_momenta c) ->
    within d (curve_zero (prop_t0 J g) c mu) (curve_zero (prop_t0 K g) c mu) /\
    forall t, In t (skipn 1 (cfg_temps c)) -> within d (curve (prop_t J g) c mu t) (curve (prop_t K g) c mu t).
Proof.
  intros HP Hmu Hd. set (A := fun eps J => accurate_run eps J g c (curve_momenta c)).
  assert (Am : forall e e' J, e <= e' -> A e J -> A e' J) by (intros; eapply accurate_run_mono; eauto).
  assert (M : forall p, In p (cfg_momenta c) -> In (p * fc_gluon (cfg_fieldconfig c)) (curve_momenta c)) by (intros p Hp; right; apply in_map_iff; eauto).
  assert (S0 : forall mu p fc f0, In mu (cfg_chempots c) -> In p (curve_momenta c) -> maybe_corrected_data c mu 0 = Ret (fc, f0) ->
    Re (prop_t0 K g (cfg_om c) (cfg_renpoint c) mu f0 fc) * renfac c <> 0 /\ forall d, 0 < d -> ev A (fun J => Rabs (Re (prop_t0 J g (cfg_om c) p mu f0 fc) - Re (prop_t0 K g (cfg_om c) p mu f0 fc)) <= d)).
  { intros mu' p fc f0 H1 H2 H3. destruct (proj1 (HP mu' p H1 H2) fc f0 H3) as [N1 N2]. split; [exact N2|]. now apply t0_ev. }
  assert (S1 : forall mu t p fc f0, In mu (cfg_chempots c) -> In t (skipn 1 (cfg_temps c)) -> In p (curve_momenta c) -> maybe_corrected_data c mu t = Ret (fc, f0) ->
    Re (prop_t K g (cfg_om c) (cfg_renpoint c) (1 / (t * fc_gluon (cfg_fieldconfig c))) mu f0 fc) * renfac c <> 0 /\ forall d, 0 < d ->
      ev A (fun J => Rabs (Re (prop_t J g (cfg_om c) p (1 / (t * fc_gluon (cfg_fieldconfig c))) mu f0 fc) - Re (prop_t K g (cfg_om c) p (1 / (t * fc_gluon (cfg_fieldconfig c))) mu f0 fc)) <= d)).
  { intros mu' t p fc f0 H1 Ht H2 H3. destruct (proj2 (HP mu' p H1 H2) t fc f0 Ht H3) as [N1 N2]. split; [exact N2|]. now apply t_ev. }
  apply (ev_and A Am); [apply (curve_zero_ev A Am (fun J => prop_t0 J g) K c (curve_momenta c)); auto; now left|].
  apply (ev_all A Am (fun t J => within d (curve (prop_t J g) c mu t) (curve (prop_t K g) c mu t))). intros t Ht.
  apply (curve_ev A Am (fun J => prop_t J g) K c (curve_momenta c)); auto. now left.
Qed.
Lemma ir_close d : pole_free_l K g c (ir_momenta c) -> 0 < d ->
  exists eps, 0 < eps /\ forall J, accurate_run eps J g c (ir_momenta c) -> forall mu, In mu (cfg_chempots c) ->
    within d (ir_values (prop_l0 J g) (prop_l J g) c mu) (ir_values (prop_l0 K g) (prop_l K g) c mu).
Proof.
  intros HP Hd. set (A := fun eps J => accurate_run eps J g c (ir_momenta c)).
  assert (Am : forall e e' J, e <= e' -> A e J -> A e' J) by (intros; eapply accurate_run_mono; eauto).
  apply (ev_all A Am (fun mu J => within d (ir_values (prop_l0 J g) (prop_l J g) c mu) (ir_values (prop_l0 K g) (prop_l K g) c mu))). intros mu Hmu.
  apply (ir_ev A Am (fun J => prop_l0 J g) (fun J => prop_l J g) K c (ir_momenta c)); auto.
  - now left.
  - intros mu' p fc f0 H1 H2 H3. destruct (proj1 (HP mu' p H1 H2) fc f0 H3) as [N1 N2]. split; [exact N2|]. now apply l0_ev.
  - intros mu' t p fc f0 H1 Ht H2 H3. destruct (proj2 (HP mu' p H1 H2) t fc f0 Ht H3) as [N1 N2]. split; [exact N2|]. now apply l_ev.
  - right. now left.
Qed.
Lemma tc_close d : pole_free_l K g c (ir_momenta c) -> 0 < d ->
  exists eps, 0 < eps /\ forall J, accurate_run eps J g c (ir_momenta c) -> forall tcs, critical_temperatures (prop_l0 J g) (prop_l J g) c = Ret tcs ->
    Forall2 (fun mu t => exists vs, ir_values (prop_l0 K g) (prop_l K g) c mu = Ret vs /\ near_maximum d (cfg_temps c) vs t) (cfg_chempots c) tcs.
Proof.
  intros HP Hd. destruct (ir_close (d / 2) HP) as (eps & He & H); [lra|]. exists eps. split; [auto|]. intros J HJ tcs.
  specialize (H J HJ). unfold critical_temperatures. revert tcs H. generalize (cfg_chempots c). intros l.
  induction l as [|mu l IH]; intros tcs H E; cbn [omap] in E; [injection E as <-; constructor|].
  specialize (IH). pose proof (H mu (or_introl eq_refl)) as Hm.
  destruct (ir_values (prop_l0 J g) (prop_l J g) c mu) as [|vs] eqn:EJ; [discriminate|]. cbn [obind] in E.
  destruct (find_critical_temperature (cfg_temps c) vs) as [|t] eqn:Et; [discriminate|]. cbn [obind] in E.
  destruct (omap _ l) as [|ts] eqn:Es; [discriminate|]. cbn [obind] in E. injection E as <-. constructor.
  - destruct (ir_values (prop_l0 K g) (prop_l K g) c mu) as [|vs'] eqn:EK; [contradiction|]. cbn [within] in Hm. exists vs'. split; [auto|].
    replace d with (2 * (d / 2)) by field. eapply fct_near; eauto.
  - apply IH; [intros mu' Hmu'; apply H; now right|reflexivity].
Qed.
Lemma pd_same : pole_free_l K g c (ir_momenta c) ->
  (forall mu vs, In mu (cfg_chempots c) -> ir_values (prop_l0 K g) (prop_l K g) c mu = Ret vs -> exists t, clear_maximum 0 (cfg_temps c) vs t) ->
  exists eps, 0 < eps /\ forall J, accurate_run eps J g c (ir_momenta c) ->
    compute_phase_diagram (prop_l0 J g) (prop_l J g) c = compute_phase_diagram (prop_l0 K g) (prop_l K g) c.
Proof.
  intros HP HC.
  assert (G : exists d, 0 < d /\ forall mu vs, In mu (cfg_chempots c) -> ir_values (prop_l0 K g) (prop_l K g) c mu = Ret vs -> exists t, clear_maximum (2 * d) (cfg_temps c) vs t).
  { revert HC. generalize (cfg_chempots c). intros l. induction l as [|mu l IH]; intros HC; [exists 1; split; [lra|]; intros mu vs []|].
    destruct IH as (d & Hd & Hl); [intros mu' vs' H; apply HC; now right|].
    destruct (ir_values (prop_l0 K g) (prop_l K g) c mu) as [|vs] eqn:E.
    - exists d. split; [auto|]. intros mu' vs' [<-|H]; [congruence|now apply Hl].
    - destruct (HC mu vs (or_introl eq_refl) E) as (t & Ht). destruct (gap _ _ _ Ht) as (d' & Hd' & (i & v & G1 & G2 & G3)).
      exists (Rmin d (d' / 2)). pose proof (Rmin_l d (d' / 2)). pose proof (Rmin_r d (d' / 2)). split; [apply Rmin_glb_lt; lra|].
      intros mu' vs' [<-|H'] E'.
      + rewrite E in E'. injection E' as <-. exists t, i, v. split; [auto|]. split; [auto|]. intros j tj w A1 A2 A3. pose proof (G3 j tj w A1 A2 A3). lra.
      + destruct (Hl mu' vs' H' E') as (t' & i' & v' & B1 & B2 & B3). exists t', i', v'. split; [auto|]. split; [auto|].
        intros j tj w A1 A2 A3. pose proof (B3 j tj w A1 A2 A3). lra. }
  destruct G as (d & Hd & Hmax). destruct (ir_close d HP Hd) as (eps & He & H). exists eps. split; [auto|]. intros J HJ. specialize (H J HJ).
  unfold compute_phase_diagram. enough (E : critical_temperatures (prop_l0 J g) (prop_l J g) c = critical_temperatures (prop_l0 K g) (prop_l K g) c) by now rewrite E.
  unfold critical_temperatures. revert H Hmax. generalize (cfg_chempots c). intros l H Hmax. induction l as [|mu l IH]; [reflexivity|]. cbn [omap].
  rewrite IH; [|intros mu' Hmu'; apply H; now right|intros mu' vs' Hmu'; apply Hmax; now right]. f_equal.
  pose proof (H mu (or_introl eq_refl)) as Hm. pose proof (Hmax mu) as Hx.
  destruct (ir_values (prop_l0 J g) (prop_l J g) c mu) as [|vs], (ir_values (prop_l0 K g) (prop_l K g) c mu) as [|vs'] eqn:EK; cbn [within obind] in *; try contradiction; [reflexivity|].
  destruct (Hx vs' (or_introl eq_refl) eq_refl) as (t & Ht). rewrite (fct_clear _ _ _ _ _ Hm Ht). symmetry. eapply fct_clear; [|exact Ht].
  clear - Hd. induction vs' as [|v l IH]; constructor; auto. rewrite Rminus_diag_eq, Rabs_R0; lra.
Qed.
End Results.
