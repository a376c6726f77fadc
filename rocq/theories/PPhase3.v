(** * Proofs about one_mass_overall.rs and two_masses_overall.rs *)
From Coq Require Import Reals List ZArith Lra Lia Permutation.
From Coquelicot Require Import Coquelicot.
From Verif Require Import Num CField MCommon MConsts MVacuum MUtils MDress MTc MPhase SpecDress SpecTc SpecPhase PVac PDress PDress2 PCfg PTc PPhase PPhase2.
Import List ListNotations.
Open Scope R_scope.

Section Rows.
Context {X : Type} (key : X -> list R) (F : X -> R -> outcome R) (nf : nat).
Definition rows_of (xs : list X) (mus : list R) : outcome (list TcRow) :=
  obind (omap (fun x => omap (fun mu => obind (F x mu) (fun tc => Ret (nf, key x, mu, tc))) mus) xs)
    (fun l => Ret (concat l)).

Lemma row_line x mus l : omap (fun mu => obind (F x mu) (fun tc => Ret (nf, key x, mu, tc))) mus = Ret l ->
  map fst l = map (fun mu => (nf, key x, mu)) mus /\
  forall r, In r l -> exists mu tc, In mu mus /\ F x mu = Ret tc /\ r = (nf, key x, mu, tc).
Proof.
  revert l. induction mus as [|mu mus IH]; cbn [omap map]; intros l H.
  - inversion H; subst. split; [reflexivity|]. intros r [].
  - apply obind_ret in H. destruct H as (y & Hy & H). apply obind_ret in Hy. destruct Hy as (tc & Htc & Hy). inversion Hy; subst y; clear Hy.
    apply obind_ret in H. destruct H as (ys & Hys & H). inversion H; subst l; clear H.
    destruct (IH ys Hys) as [I1 I2]. split.
    + cbn [map fst]. rewrite I1. reflexivity.
    + intros r [<-|Hr].
      * exists mu, tc. repeat split; auto. left; reflexivity.
      * destruct (I2 r Hr) as (mu' & tc' & A & B & E). exists mu', tc'. repeat split; auto. right; exact A.
Qed.
Lemma rows_spec xs mus rows : rows_of xs mus = Ret rows ->
  map fst rows = table_keys nf (map key xs) mus /\
  forall r, In r rows -> exists x mu tc, In x xs /\ In mu mus /\ F x mu = Ret tc /\ r = (nf, key x, mu, tc).
Proof.
  unfold rows_of, table_keys. intros H. apply obind_ret in H. destruct H as (l & Hl & H). inversion H; subst rows; clear H.
  revert l Hl. induction xs as [|x xs IH]; cbn [omap map]; intros l Hl.
  - inversion Hl; subst. split; [reflexivity|]. intros r [].
  - apply obind_ret in Hl. destruct Hl as (y & Hy & Hl). apply obind_ret in Hl. destruct Hl as (ys & Hys & Hl). inversion Hl; subst l; clear Hl.
    destruct (row_line _ _ _ Hy) as [L1 L2]. destruct (IH ys Hys) as [I1 I2]. split.
    + cbn [concat flat_map]. rewrite map_app, L1, I1. reflexivity.
    + intros r Hr. cbn [concat] in Hr. apply in_app_or in Hr. destruct Hr as [Hr|Hr].
      * destruct (L2 r Hr) as (mu & tc & A & B & E). exists x, mu, tc. repeat split; auto. left; reflexivity.
      * destruct (I2 r Hr) as (x' & mu & tc & A & B & E). exists x', mu, tc. split; [right; exact A|]. auto.
Qed.
Lemma rows_total xs mus : (forall x mu, exists tc, F x mu = Ret tc) -> exists rows, rows_of xs mus = Ret rows.
Proof.
  intros H. unfold rows_of.
  destruct (omap_total (fun x => omap (fun mu => obind (F x mu) (fun tc => Ret (nf, key x, mu, tc))) mus) xs) as (ys & E).
  - intros x _. destruct (omap_total (fun mu => obind (F x mu) (fun tc => Ret (nf, key x, mu, tc))) mus) as (ys & E).
    + intros mu _. destruct (H x mu) as (tc & ->). cbn. discriminate.
    + rewrite E. discriminate.
  - rewrite E. cbn. eexists. reflexivity.
Qed.
End Rows.

(** ** The critical temperature of one column *)
Lemma ov_tc_ret m r pbase ts D0 D : exists tc, ov_tc m r pbase ts D0 D = Ret tc.
Proof. unfold ov_tc, ov_ir, find_critical_temperature, find_critical_temperature_gen. eexists. reflexivity. Qed.

Lemma ov_tc_spec m r pbase ts (D0 : R -> R) (D : R -> R -> R) tc : m <> 0 -> r <> 0 ->
  D0 r <> 0 -> (forall t, In t ts -> D (1 / (t * m)) r <> 0) ->
  ov_tc m r pbase ts D0 D = Ret tc -> critical_at m r pbase ts D0 (fun t => D (/ (t * m))) tc.
Proof.
  intros Hm Hr H0 H H1. unfold ov_tc in H1.
  destruct (fct_correct (0 :: ts) (ov_ir m r pbase ts D0 D)) as (t' & E & A); try discriminate.
  rewrite H1 in E. inversion E; subst t'. unfold critical_at.
  replace (normalised m r D0 pbase :: map (fun t => normalised m r (D (/ (t * m))) pbase) ts) with (ov_ir m r pbase ts D0 D); [exact A|].
  unfold ov_ir, ov_renf, normalised. f_equal.
  - apply norm_eq; auto.
  - apply map_ext_in. intros t Ht. cbv zeta. specialize (H t Ht).
    assert (Q : 1 / (t * m) = / (t * m)) by (unfold Rdiv; ring). rewrite Q in *. apply norm_eq; auto.
Qed.

(** ** Propagators of the two programs *)
Lemma single_l J g nc m nf mq om p beta mu f0 : g_nf g = nf -> g_nf_div_nc g = INR nf / INR nc ->
  qcd_gluon_propagator_l_zero_temp J g (om : R) p m mq mu f0 =
    qcd_gluon_propagator_l_zero_temp_w_field_config J g om p mu f0 (FieldConfig_new nc m [(nf, mq)]) /\
  qcd_gluon_propagator_l J g om p m mq beta mu f0 =
    qcd_gluon_propagator_l_w_field_config J g om p beta mu f0 (FieldConfig_new nc m [(nf, mq)]).
Proof.
  intros H1 H2. pose proof (single_R J g om p nc m nf mq beta mu f0 H1 H2) as E.
  unfold thermal_cfg_values_C, thermal_values_C, gen_qcd_cfg_l, gen_qcd_l, gen_qcd_zt_cfg_l, gen_qcd_zt_l,
    gen_qcd_cfg_t, gen_qcd_t, gen_qcd_zt_cfg_t, gen_qcd_zt_t in E. cbn [app] in E.
  split; symmetry; [exact (f_equal (fun l => nth 8 l (RtoC 0)) E)|exact (f_equal (fun l => nth 2 l (RtoC 0)) E)].
Qed.
Lemma globals_l J g g' om p beta mu f0 cfg : g_nc g = g_nc g' -> g_tol_integral g = g_tol_integral g' ->
  g_max_iter_integral g = g_max_iter_integral g' -> g_matsubara_reg g = g_matsubara_reg g' ->
  qcd_gluon_propagator_l_zero_temp_w_field_config J g (om : R) p mu f0 cfg =
    qcd_gluon_propagator_l_zero_temp_w_field_config J g' om p mu f0 cfg /\
  qcd_gluon_propagator_l_w_field_config J g om p beta mu f0 cfg =
    qcd_gluon_propagator_l_w_field_config J g' om p beta mu f0 cfg.
Proof.
  intros H1 H2 H3 H4. destruct (cfg_globals J g g' H1 H2 H3 H4) as [E _]. specialize (E om p beta mu f0 cfg).
  unfold thermal_cfg_values_C, gen_qcd_cfg_l, gen_qcd_zt_cfg_l, gen_qcd_cfg_t, gen_qcd_zt_cfg_t in E. cbn [app] in E.
  split; [exact (f_equal (fun l => nth 8 l (RtoC 0)) E)|exact (f_equal (fun l => nth 2 l (RtoC 0)) E)].
Qed.
Lemma equiv_l J g om p beta mu f0 c c' : cfg_equiv c c' ->
  qcd_gluon_propagator_l_zero_temp_w_field_config J g (om : R) p mu f0 c =
    qcd_gluon_propagator_l_zero_temp_w_field_config J g om p mu f0 c' /\
  qcd_gluon_propagator_l_w_field_config J g om p beta mu f0 c =
    qcd_gluon_propagator_l_w_field_config J g om p beta mu f0 c'.
Proof.
  intros H. pose proof (cfg_equiv_R J g om p c c' beta mu f0 H) as E.
  unfold thermal_cfg_values_C, gen_qcd_cfg_l, gen_qcd_zt_cfg_l, gen_qcd_cfg_t, gen_qcd_zt_cfg_t in E. cbn [app] in E.
  split; [exact (f_equal (fun l => nth 8 l (RtoC 0)) E)|exact (f_equal (fun l => nth 2 l (RtoC 0)) E)].
Qed.
Lemma empty_l J g om p beta mu f0 nc m quarks : Forall (fun q : nat * R => fst q = 0%nat) quarks ->
  qcd_gluon_propagator_l_zero_temp_w_field_config J g (om : R) p mu f0 (FieldConfig_new nc m quarks) =
    (RtoC (/ (om * om + p * p)%R) * RtoC (ym_gluon_dressing_landau (((om * om + p * p) / (m * m))%R) f0))%C /\
  qcd_gluon_propagator_l_w_field_config J g om p beta mu f0 (FieldConfig_new nc m quarks) =
    ym_gluon_propagator_l J g om p m beta f0.
Proof.
  intros H. pose proof (empty_cfg_R J g om p nc m quarks beta mu f0 H) as E.
  unfold thermal_cfg_values_C, thermal_ym_values_C, gen_qcd_cfg_l, gen_qcd_zt_cfg_l, gen_qcd_cfg_t, gen_qcd_zt_cfg_t, gen_ym_l, gen_ym_t, gen_ym_vac in E. cbn [app] in E.
  split; [exact (f_equal (fun l => nth 8 l (RtoC 0)) E)|exact (f_equal (fun l => nth 2 l (RtoC 0)) E)].
Qed.

(** The one-mass program, seen as acting on field configurations. *)
Lemma one_prop J g om p m mq beta mu f0 nf :
  let g' := set_number_of_fermions OpsR nf g in
  let c := FieldConfig_new (g_nc g) m [(nf, mq)] in
  qcd_gluon_propagator_l_zero_temp J g' (om : R) p m mq mu f0 = qcd_gluon_propagator_l_zero_temp_w_field_config J g om p mu f0 c /\
  qcd_gluon_propagator_l J g' om p m mq beta mu f0 = qcd_gluon_propagator_l_w_field_config J g om p beta mu f0 c.
Proof.
  cbv zeta. destruct (single_l J (set_number_of_fermions OpsR nf g) (g_nc g) m nf mq om p beta mu f0) as [E1 E2]; [reflexivity|reflexivity|].
  rewrite E1, E2. apply globals_l; reflexivity.
Qed.

Lemma ov_tc_ext m r pbase ts D0 D D0' D' : (forall p, D0 p = D0' p) -> (forall b p, D b p = D' b p) ->
  ov_tc m r pbase ts D0 D = ov_tc m r pbase ts D0' D'.
Proof.
  intros E1 E2. unfold ov_tc, ov_ir. rewrite !E1. do 2 f_equal. apply map_ext. intros t. cbv zeta. rewrite !E2. reflexivity.
Qed.

Lemma one_mass_spec J g m renpoint om f0 pbase masses mus ts nf rows : m <> 0 -> renpoint <> 0 ->
  one_mass_rows J g m renpoint om f0 pbase masses mus ts nf = Ret rows ->
  map fst rows = table_keys nf (map (fun mq => [mq]) masses) mus /\
  forall mq mu tc, In (nf, [mq], mu, tc) rows ->
    let c := FieldConfig_new (g_nc g) m [(nf, mq)] in
    prop_l_zero J g om mu f0 c renpoint <> 0 -> (forall t, In t ts -> prop_l_at J g om mu f0 c t renpoint <> 0) ->
    critical_at m renpoint pbase ts (prop_l_zero J g om mu f0 c) (prop_l_at J g om mu f0 c) tc.
Proof.
  intros Hm Hr H. unfold one_mass_rows in H.
  destruct (rows_spec (fun mq => [mq]) _ nf masses mus rows H) as [A B]. split; [exact A|].
  intros mq mu tc Hin c H0 Ht. destruct (B _ Hin) as (x & mu' & tc' & _ & _ & E & K). injection K as K1 K2 K3. subst x mu' tc'.
  rewrite (ov_tc_ext _ _ _ _ _ _ (prop_l_zero J g om mu f0 c) (fun b p => Re (qcd_gluon_propagator_l_w_field_config J g om p b mu f0 c))) in E;
    [|intros p; unfold prop_l_zero; f_equal; apply (one_prop J g om p m mq 0 mu f0 nf)|intros b p; f_equal; apply (one_prop J g om p m mq b mu f0 nf)].
  apply ov_tc_spec in E; auto. intros t Hin'. specialize (Ht t Hin'). unfold prop_l_at in Ht.
  replace (1 / (t * m)) with (/ (t * fc_gluon c)) by (unfold c; rewrite fc_gluon_new; unfold Rdiv; ring). exact Ht.
Qed.

Lemma two_masses_spec J g nc m renpoint om f0 pbase masses mus ts nf rows : m <> 0 -> renpoint <> 0 ->
  two_masses_rows J g nc m renpoint om f0 pbase masses mus ts nf = Ret rows ->
  map fst rows = table_keys nf (map (fun mq => [fst mq; snd mq]) masses) mus /\
  forall mq1 mq2 mu tc, In (nf, [mq1; mq2], mu, tc) rows ->
    let c := FieldConfig_new nc m [(nf, mq1); (nf, mq2)] in
    prop_l_zero J g om mu f0 c renpoint <> 0 -> (forall t, In t ts -> prop_l_at J g om mu f0 c t renpoint <> 0) ->
    critical_at m renpoint pbase ts (prop_l_zero J g om mu f0 c) (prop_l_at J g om mu f0 c) tc.
Proof.
  intros Hm Hr H. unfold two_masses_rows in H.
  destruct (rows_spec (fun mq => [fst mq; snd mq]) _ nf masses mus rows H) as [A B]. split; [exact A|].
  intros mq1 mq2 mu tc Hin c H0 Ht. destruct (B _ Hin) as (x & mu' & tc' & _ & _ & E & K). injection K as K1 K2 K3 K4. subst mu' tc'.
  rewrite <- K1, <- K2 in E. fold c in E.
  apply ov_tc_spec in E; auto. intros t Hin'. specialize (Ht t Hin'). unfold prop_l_at in Ht.
  replace (1 / (t * m)) with (/ (t * fc_gluon c)) by (unfold c; rewrite fc_gluon_new; unfold Rdiv; ring). exact Ht.
Qed.

(** The programs agree where they overlap. *)
Lemma rows_ext2 {X Y} (key : X -> list R) (key' : Y -> list R) (h : Y -> X) F F' nf nf' ys mus rows :
  (forall y mu, F (h y) mu = F' y mu) -> (forall y, key' y = [hd 0 (key (h y))]) ->
  rows_of key F nf (map h ys) mus = Ret rows ->
  rows_of key' F' nf' ys mus = Ret (map (fun r : TcRow => let '(n, ms, mu, tc) := r in (nf', [hd 0 ms], mu, tc)) rows).
Proof.
  intros E K H. unfold rows_of in *. apply obind_ret in H. destruct H as (l & Hl & H). inversion H; subst rows; clear H.
  set (ch := fun r : TcRow => _).
  assert (A : omap (fun y => omap (fun mu => obind (F' y mu) (fun tc => Ret (nf', key' y, mu, tc))) mus) ys = Ret (map (map ch) l)).
  { revert l Hl. induction ys as [|x xs IH]; cbn [omap map]; intros l Hl.
    - inversion Hl; subst. reflexivity.
    - apply obind_ret in Hl. destruct Hl as (y & Hy & Hl). apply obind_ret in Hl. destruct Hl as (rs & Hys & Hl). inversion Hl; subst l; clear Hl.
      rewrite (IH rs Hys). clear IH Hys.
      assert (B : omap (fun mu => obind (F' x mu) (fun tc => Ret (nf', key' x, mu, tc))) mus = Ret (map ch y)).
      { revert y Hy. induction mus as [|mu mus IH]; cbn [omap map]; intros y Hy.
        - inversion Hy; subst. reflexivity.
        - apply obind_ret in Hy. destruct Hy as (r & Hr & Hy). apply obind_ret in Hy. destruct Hy as (rs' & Hrs & Hy). inversion Hy; subst y; clear Hy.
          apply obind_ret in Hr. destruct Hr as (tc & Htc & Hr). inversion Hr; subst r; clear Hr.
          rewrite <- E, Htc, (IH rs' Hrs). cbn [obind map]. unfold ch at 2. rewrite K. reflexivity. }
      rewrite B. reflexivity. }
  rewrite A. cbn [obind]. rewrite concat_map. reflexivity.
Qed.
Lemma programs_agree J g m renpoint om f0 pbase masses mus ts n rows :
  two_masses_rows J g (g_nc g) m renpoint om f0 pbase (map (fun mq => (mq, mq)) masses) mus ts n = Ret rows ->
  one_mass_rows J g m renpoint om f0 pbase masses mus ts (n + n) =
    Ret (map (fun r : TcRow => let '(_, ms, mu, tc) := r in ((n + n)%nat, [hd 0 ms], mu, tc)) rows).
Proof.
  intros H. unfold two_masses_rows in H. unfold one_mass_rows. cbv zeta.
  refine (rows_ext2 (fun mq => [fst mq; snd mq]) (fun mq => [mq]) (fun mq => (mq, mq))
    (fun mq mu => ov_tc m renpoint pbase ts
        (fun p => Re (qcd_gluon_propagator_l_zero_temp_w_field_config J g om p mu f0 (FieldConfig_new (g_nc g) m [(n, fst mq); (n, snd mq)])))
        (fun beta p => Re (qcd_gluon_propagator_l_w_field_config J g om p beta mu f0 (FieldConfig_new (g_nc g) m [(n, fst mq); (n, snd mq)]))))
    (fun mq mu => ov_tc m renpoint pbase ts
        (fun p => Re (qcd_gluon_propagator_l_zero_temp J (set_number_of_fermions OpsR (n + n) g) om p m mq mu f0))
        (fun beta p => Re (qcd_gluon_propagator_l J (set_number_of_fermions OpsR (n + n) g) om p m mq beta mu f0)))
    n (n + n) masses mus rows _ _ H); [|reflexivity].
  intros mq mu. cbv beta. cbn [fst snd]. apply ov_tc_ext.
  - intros p. apply f_equal. rewrite (proj1 (one_prop J g om p m mq 0 mu f0 (n + n))).
    exact (proj1 (equiv_l J g om p 0 mu f0 _ _ (merge_equiv (g_nc g) m n n mq [] []))).
  - intros b p. apply f_equal. rewrite (proj2 (one_prop J g om p m mq b mu f0 (n + n))).
    exact (proj2 (equiv_l J g om p b mu f0 _ _ (merge_equiv (g_nc g) m n n mq [] []))).
Qed.

(** For nf = 0 the program switches to the Yang-Mills functions, the one at zero
    temperature being given in units of m: same critical temperature. *)
Lemma ym_vac_scale m om p f0 : m <> 0 ->
  ym_gluon_propagator_landau ((om * om + p * p) / (m * m)) f0 =
  m * m * Re (RtoC (/ (om * om + p * p)%R) * RtoC (ym_gluon_dressing_landau (((om * om + p * p) / (m * m))%R) f0))%C.
Proof.
  intros Hm. rewrite <- RtoC_mult. unfold ym_gluon_propagator_landau. cbn [Re RtoC fst].
  set (d := ym_gluon_dressing_landau _ f0). set (x := om * om + p * p). change (d * / (x / (m * m)) = m * m * (/ x * d)).
  unfold Rdiv. rewrite Rinv_mult, Rinv_inv. ring.
Qed.
Lemma ratio_scale k a b r : k <> 0 -> k * a / (k * b * r) = a / (b * r).
Proof. intros H. unfold Rdiv. rewrite !Rinv_mult. transitivity (k * / k * (a * (/ b * / r))); [ring|]. rewrite Rinv_r by exact H. ring. Qed.
Lemma ym_ir_agree J g m renpoint om f0 pbase ts nc quarks mu : m <> 0 -> Forall (fun q : nat * R => fst q = 0%nat) quarks ->
  let c := FieldConfig_new nc m quarks in
  ov_ym_ir J g m renpoint om f0 pbase ts =
  ov_ir m renpoint pbase ts (fun p => Re (qcd_gluon_propagator_l_zero_temp_w_field_config J g om p mu f0 c))
    (fun beta p => Re (qcd_gluon_propagator_l_w_field_config J g om p beta mu f0 c)).
Proof.
  intros Hm Hq c. unfold ov_ym_ir, ov_ir, c. f_equal.
  - cbv zeta. replace (om * om / (m * m) + pbase * pbase) with ((om * om + (pbase * m) * (pbase * m)) / (m * m)) by (field; exact Hm).
    rewrite !ym_vac_scale by exact Hm.
    rewrite (proj1 (empty_l J g om (pbase * m) 0 mu f0 nc m quarks Hq)), (proj1 (empty_l J g om renpoint 0 mu f0 nc m quarks Hq)).
    apply ratio_scale. apply Rmult_integral_contrapositive_currified; exact Hm.
  - apply map_ext. intros t. cbv zeta.
    rewrite (proj2 (empty_l J g om (pbase * m) (1 / (t * m)) mu f0 nc m quarks Hq)), (proj2 (empty_l J g om renpoint (1 / (t * m)) mu f0 nc m quarks Hq)).
    reflexivity.
Qed.

Lemma ym_tc_agree J g m renpoint om f0 pbase ts nc quarks mu : m <> 0 -> Forall (fun q : nat * R => fst q = 0%nat) quarks ->
  let c := FieldConfig_new nc m quarks in
  ov_ym_tc J g m renpoint om f0 pbase ts =
  ov_tc m renpoint pbase ts (fun p => Re (qcd_gluon_propagator_l_zero_temp_w_field_config J g om p mu f0 c))
    (fun beta p => Re (qcd_gluon_propagator_l_w_field_config J g om p beta mu f0 c)).
Proof. intros Hm Hq c. unfold ov_ym_tc, ov_tc. rewrite (ym_ir_agree J g m renpoint om f0 pbase ts nc quarks mu Hm Hq). reflexivity. Qed.

Lemma ym_tc_spec J g m renpoint om f0 pbase ts nc quarks mu tc : m <> 0 -> renpoint <> 0 ->
  Forall (fun q : nat * R => fst q = 0%nat) quarks ->
  let c := FieldConfig_new nc m quarks in
  prop_l_zero J g om mu f0 c renpoint <> 0 -> (forall t, In t ts -> prop_l_at J g om mu f0 c t renpoint <> 0) ->
  ov_ym_tc J g m renpoint om f0 pbase ts = Ret tc ->
  critical_at m renpoint pbase ts (prop_l_zero J g om mu f0 c) (prop_l_at J g om mu f0 c) tc.
Proof.
  intros Hm Hr Hq c H0 Ht E. rewrite (ym_tc_agree J g m renpoint om f0 pbase ts nc quarks mu Hm Hq) in E.
  apply ov_tc_spec in E; auto. intros t Hin'. specialize (Ht t Hin'). unfold prop_l_at in Ht.
  replace (1 / (t * m)) with (/ (t * fc_gluon c)) by (unfold c; rewrite fc_gluon_new; unfold Rdiv; ring). exact Ht.
Qed.

(** The nf = 0 curve at zero temperature is the normalised vacuum propagator. *)
Lemma ym_curve_spec J g m renpoint om f0 momenta nc quarks mu : m <> 0 -> renpoint <> 0 ->
  Forall (fun q : nat * R => fst q = 0%nat) quarks ->
  let c := FieldConfig_new nc m quarks in
  prop_l_zero J g om mu f0 c renpoint <> 0 ->
  ov_ym_curve_zero m renpoint om f0 momenta = map (normalised m renpoint (prop_l_zero J g om mu f0 c)) momenta.
Proof.
  intros Hm Hr Hq c H0. unfold ov_ym_curve_zero. apply map_ext. intros p. cbv zeta.
  replace (om * om / (m * m) + p * p) with ((om * om + (p * m) * (p * m)) / (m * m)) by (field; exact Hm).
  rewrite !ym_vac_scale by exact Hm.
  rewrite <- (proj1 (empty_l J g om (p * m) 0 mu f0 nc m quarks Hq)), <- (proj1 (empty_l J g om renpoint 0 mu f0 nc m quarks Hq)).
  rewrite ratio_scale by (apply Rmult_integral_contrapositive_currified; exact Hm).
  unfold normalised, prop_l_zero, c. apply norm_eq; auto.
Qed.
Lemma ov_curve_spec m renpoint momenta (D : R -> R) : m <> 0 -> renpoint <> 0 -> D renpoint <> 0 ->
  ov_curve m renpoint momenta D = map (normalised m renpoint D) momenta.
Proof. intros Hm Hr H. unfold ov_curve, ov_renf, normalised. apply map_ext. intros p. cbv zeta. apply norm_eq; auto. Qed.

(** ** The whole programs *)
Lemma one_mass_rows_total J g m renpoint om f0 pbase masses mus ts nf :
  exists rows, one_mass_rows J g m renpoint om f0 pbase masses mus ts nf = Ret rows.
Proof.
  unfold one_mass_rows. cbv zeta.
  apply (rows_total (fun mq => [mq]) (fun mq mu => ov_tc m renpoint pbase ts
        (fun p => Re (qcd_gluon_propagator_l_zero_temp J (set_number_of_fermions OpsR nf g) om p m mq mu f0))
        (fun beta p => Re (qcd_gluon_propagator_l J (set_number_of_fermions OpsR nf g) om p m mq beta mu f0))) nf masses mus).
  intros x mu. apply ov_tc_ret.
Qed.
Lemma two_masses_rows_total J g nc m renpoint om f0 pbase masses mus ts nf :
  exists rows, two_masses_rows J g nc m renpoint om f0 pbase masses mus ts nf = Ret rows.
Proof.
  unfold two_masses_rows.
  apply (rows_total (fun mq => [fst mq; snd mq]) (fun mq mu => ov_tc m renpoint pbase ts
        (fun p => Re (qcd_gluon_propagator_l_zero_temp_w_field_config J g om p mu f0 (FieldConfig_new nc m [(nf, fst mq); (nf, snd mq)])))
        (fun beta p => Re (qcd_gluon_propagator_l_w_field_config J g om p beta mu f0 (FieldConfig_new nc m [(nf, fst mq); (nf, snd mq)])))) nf masses mus).
  intros x mu. apply ov_tc_ret.
Qed.

Lemma omap_rows {A} (f : A -> outcome (list TcRow)) (k : A -> list (nat * list R * R)) l ls :
  (forall a rows, f a = Ret rows -> map fst rows = k a) -> omap f l = Ret ls -> map fst (concat ls) = flat_map k l.
Proof.
  intros K. revert ls. induction l as [|a l IH]; cbn [omap flat_map]; intros ls H.
  - inversion H; subst. reflexivity.
  - apply obind_ret in H. destruct H as (y & Hy & H). apply obind_ret in H. destruct H as (ys & Hys & H). inversion H; subst ls; clear H.
    cbn [concat]. rewrite map_app. f_equal; [exact (K _ _ Hy)|exact (IH _ Hys)].
Qed.
Lemma one_mass_reset J g n m renpoint om f0 pbase masses mus ts nf :
  one_mass_rows J (set_number_of_fermions OpsR n g) m renpoint om f0 pbase masses mus ts nf =
  one_mass_rows J g m renpoint om f0 pbase masses mus ts nf.
Proof. reflexivity. Qed.
Lemma one_mass_loop_spec J m renpoint om f0 pbase masses mus ts nfs : m <> 0 -> renpoint <> 0 -> forall g,
  exists rows, one_mass_loop J g m renpoint om f0 pbase masses mus ts nfs = Ret rows /\
    map fst rows = flat_map (fun nf => table_keys nf (map (fun mq => [mq]) masses) mus) nfs /\
    forall nf mq mu tc, In (nf, [mq], mu, tc) rows ->
      let c := FieldConfig_new (g_nc g) m [(nf, mq)] in
      prop_l_zero J g om mu f0 c renpoint <> 0 -> (forall t, In t ts -> prop_l_at J g om mu f0 c t renpoint <> 0) ->
      critical_at m renpoint pbase ts (prop_l_zero J g om mu f0 c) (prop_l_at J g om mu f0 c) tc.
Proof.
  intros Hm Hr. induction nfs as [|nf nfs IH]; intros g.
  - exists []. split; [reflexivity|]. split; [reflexivity|]. intros ? ? ? ? [].
  - cbn [one_mass_loop flat_map].
    destruct (one_mass_rows_total J g m renpoint om f0 pbase masses mus ts nf) as (l & El).
    destruct (IH (set_number_of_fermions OpsR nf g)) as (ls & Els & K & V).
    rewrite El, Els. cbn [obind]. exists (l ++ ls). split; [reflexivity|].
    pose proof (one_mass_spec J g m renpoint om f0 pbase masses mus ts nf l Hm Hr El) as (K1 & V1). split.
    + rewrite map_app. f_equal; [exact K1|exact K].
    + intros nf' mq mu tc Hin. set (c := FieldConfig_new (g_nc g) m [(nf', mq)]). intros H0 Ht. apply in_app_or in Hin. destruct Hin as [Hin|Hin].
      * assert (nf' = nf).
        { assert (A : In (nf', [mq], mu) (map fst l)) by (apply (in_map fst) in Hin; exact Hin). rewrite K1 in A.
          unfold table_keys in A. apply in_flat_map in A. destruct A as (x & _ & A). apply in_map_iff in A. destruct A as (y & A & _). congruence. }
        subst nf'. exact (V1 mq mu tc Hin H0 Ht).
      * assert (Q : forall p, prop_l_zero J (set_number_of_fermions OpsR nf g) om mu f0 c p = prop_l_zero J g om mu f0 c p)
          by (intros p; unfold prop_l_zero; apply f_equal; refine (proj1 (globals_l J _ g om p 0 mu f0 c _ _ _ _)); reflexivity).
        assert (Q' : forall t p, prop_l_at J (set_number_of_fermions OpsR nf g) om mu f0 c t p = prop_l_at J g om mu f0 c t p)
          by (intros t p; unfold prop_l_at; apply f_equal; refine (proj2 (globals_l J _ g om p _ mu f0 c _ _ _ _)); reflexivity).
        specialize (V nf' mq mu tc Hin). cbv zeta in V. change (g_nc (set_number_of_fermions OpsR nf g)) with (g_nc g) in V. fold c in V.
        rewrite Q in V. specialize (V H0). assert (Ht' : forall t, In t ts -> prop_l_at J (set_number_of_fermions OpsR nf g) om mu f0 c t renpoint <> 0)
          by (intros t Hi; rewrite Q'; apply Ht, Hi). specialize (V Ht').
        unfold critical_at, normalised in *. rewrite !Q in V.
        erewrite map_ext in V; [exact V|]. intros t. cbv beta. rewrite !Q'. reflexivity.
Qed.

Lemma one_mass_main_spec J g : exists rows, one_mass_main J g = Ret rows /\ length rows = 133%nat /\
  map fst rows = (0%nat, [0], 0) :: flat_map (fun nf => table_keys nf [[8/100]; [4/10]; [8/10]] [0; 1/10; 2/10; 3/10; 4/10; 5/10; 6/10; 7/10; 8/10; 9/10; 1]) [1; 2; 4; 6]%nat /\
  let '(m, renpoint, om, f0, pbase, ts) := (656 / 1000, 4, / 100000, - (876 / 1000), / 100, trunc_vec (/ 100) (2 / 10) (5 / 1000)) in
  forall nf mq mu tc, In (nf, [mq], mu, tc) rows ->
    let c := FieldConfig_new (g_nc g) m [(nf, mq)] in
    prop_l_zero J g om mu f0 c renpoint <> 0 -> (forall t, In t ts -> prop_l_at J g om mu f0 c t renpoint <> 0) ->
    critical_at m renpoint pbase ts (prop_l_zero J g om mu f0 c) (prop_l_at J g om mu f0 c) tc.
Proof.
  unfold one_mass_main. set (ts := trunc_vec _ _ _).
  assert (T : exists tc, ov_ym_tc J g (656 / 1000) 4 (/ 100000) (- (876 / 1000)) (/ 100) ts = Ret tc) by (unfold ov_ym_tc, ov_ym_ir; cbv zeta; eexists; reflexivity).
  destruct T as (tc0 & T). rewrite T. cbn [obind].
  destruct (one_mass_loop_spec J (656 / 1000) 4 (/ 100000) (- (876 / 1000)) (/ 100) [8 / 100; 4 / 10; 8 / 10]
        [0; 1/10; 2/10; 3/10; 4/10; 5/10; 6/10; 7/10; 8/10; 9/10; 1] ts [1; 2; 4; 6]%nat ltac:(lra) ltac:(lra) g) as (rows & E & K & V).
  rewrite E. cbn [obind]. eexists. split; [reflexivity|].
  assert (K' : map fst ((0%nat, [0], 0, tc0) :: rows) = (0%nat, [0], 0) :: flat_map (fun nf => table_keys nf [[8/100]; [4/10]; [8/10]] [0; 1/10; 2/10; 3/10; 4/10; 5/10; 6/10; 7/10; 8/10; 9/10; 1]) [1; 2; 4; 6]%nat)
    by (cbn [map fst]; f_equal; exact K).
  split; [|split; [exact K'|]].
  - apply (f_equal (@length _)) in K'. rewrite map_length in K'. exact K'.
  - intros nf mq mu tc [Hin|Hin]; [|exact (V nf mq mu tc Hin)].
    injection Hin as <- <- <- <-. intros H0 Ht.
    apply (ym_tc_spec J g _ _ _ _ _ _ (g_nc g) [(0%nat, 0)] 0 tc0); [lra|lra|repeat constructor|exact H0|exact Ht|exact T].
Qed.

Lemma two_masses_main_spec J g : exists rows, two_masses_main J g = Ret rows /\ length rows = 105%nat /\
  map fst rows = (0%nat, [0; 0], 0) :: flat_map (fun nf => table_keys nf [[3/10; 4/10]; [3/10; 6/10]; [8/10; 1]; [3/10; 1]]
      [0; 1/10; 2/10; 3/10; 4/10; 5/10; 6/10; 7/10; 8/10; 9/10; 1; 11/10; 12/10]) [1; 4]%nat /\
  let '(m, renpoint, om, f0, pbase, ts) := (656 / 1000, 4, / 100000, - (876 / 1000), / 100, trunc_vec (/ 100) (2 / 10) (5 / 1000)) in
  forall nf mq1 mq2 mu tc, In (nf, [mq1; mq2], mu, tc) rows ->
    let c := FieldConfig_new 3 m [(nf, mq1); (nf, mq2)] in
    prop_l_zero J g om mu f0 c renpoint <> 0 -> (forall t, In t ts -> prop_l_at J g om mu f0 c t renpoint <> 0) ->
    critical_at m renpoint pbase ts (prop_l_zero J g om mu f0 c) (prop_l_at J g om mu f0 c) tc.
Proof.
  unfold two_masses_main. set (ts := trunc_vec _ _ _).
  assert (T : exists tc, ov_ym_tc J g (656 / 1000) 4 (/ 100000) (- (876 / 1000)) (/ 100) ts = Ret tc) by (unfold ov_ym_tc, ov_ym_ir; cbv zeta; eexists; reflexivity).
  destruct T as (tc0 & T). rewrite T. cbn [obind].
  set (masses := [(3/10, 4/10); (3/10, 6/10); (8/10, 1); (3/10, 1)]).
  set (mus := [0; 1/10; 2/10; 3/10; 4/10; 5/10; 6/10; 7/10; 8/10; 9/10; 1; 11/10; 12/10]).
  match goal with |- context [omap ?f ?l] => destruct (omap_total f l) as (ls & E) end.
  { intros nf _. destruct (two_masses_rows_total J g 3 (656 / 1000) 4 (/ 100000) (- (876 / 1000)) (/ 100) masses mus ts nf) as (rows & ->). discriminate. }
  rewrite E. cbn [obind]. eexists. split; [reflexivity|].
  assert (P : forall nf rows, two_masses_rows J g 3 (656 / 1000) 4 (/ 100000) (- (876 / 1000)) (/ 100) masses mus ts nf = Ret rows ->
    map fst rows = table_keys nf (map (fun mq => [fst mq; snd mq]) masses) mus) by
    (intros nf rows Hr; apply (two_masses_spec J g) in Hr; [|lra|lra]; exact (proj1 Hr)).
  assert (K : map fst ((0%nat, [0; 0], 0, tc0) :: concat ls) = (0%nat, [0; 0], 0) :: flat_map (fun nf => table_keys nf [[3/10; 4/10]; [3/10; 6/10]; [8/10; 1]; [3/10; 1]] mus) [1; 4]%nat).
  { cbn [map fst]. f_equal. exact (omap_rows _ _ _ _ P E). }
  split; [|split; [exact K|]].
  - apply (f_equal (@length _)) in K. rewrite map_length in K. exact K.
  - intros nf mq1 mq2 mu tc [Hin|Hin].
    + injection Hin as <- <- <- <- <-. intros H0 Ht.
      apply (ym_tc_spec J g _ _ _ _ _ _ 3%nat [(0%nat, 0); (0%nat, 0)] 0 tc0); [lra|lra|repeat constructor|exact H0|exact Ht|exact T].
    + apply in_concat in Hin. destruct Hin as (rows & Hr & Hin).
      apply omap_ret in E. destruct E as [EL EN]. apply In_nth_error in Hr. destruct Hr as (i & Hi).
      assert (X : exists n, nth_error [1; 4]%nat i = Some n).
      { destruct (nth_error [1; 4]%nat i) eqn:Q; [eexists; reflexivity|]. apply nth_error_None in Q. rewrite <- EL in Q.
        assert (i < length ls)%nat by (apply nth_error_Some; congruence). lia. }
      destruct X as (n & Hn). specialize (EN i n rows Hn Hi).
      pose proof (P _ _ EN) as KK.
      assert (nf = n).
      { assert (A : In (nf, [mq1; mq2], mu) (map fst rows)) by (apply (in_map fst) in Hin; exact Hin). rewrite KK in A.
        unfold table_keys in A. apply in_flat_map in A. destruct A as (x & _ & A). apply in_map_iff in A. destruct A as (y & A & _). congruence. }
      subst n. apply (two_masses_spec J g) in EN; [|lra|lra]. exact (proj2 EN mq1 mq2 mu tc Hin).
Qed.

(** ** Truncated grids *)
Lemma trunc_grid v0 v1 dv : 0 < dv -> v0 <= v1 ->
  let l := trunc_vec v0 v1 dv in
  (forall k x, nth_error l k = Some x -> x = v0 + dv * INR k /\ v0 <= x <= v1) /\
  hd_error l = Some v0 /\ exists last, nth_error l (length l - 1) = Some last /\ v1 - dv < last.
Proof.
  intros Hd Hv l. unfold l, trunc_vec. set (x := (v1 - v0) / dv). cbv zeta.
  assert (Hx : 0 <= x) by (unfold x; apply Rmult_le_pos; [lra|left; apply Rinv_0_lt_compat; exact Hd]).
  destruct (archimed x) as [A1 A2]. unfold Int_part. set (n := (up x - 1)%Z).
  assert (Hn : (0 <= n)%Z). { unfold n. apply Z.lt_succ_r. apply lt_IZR. rewrite <- Z.add_1_r, plus_IZR. unfold n. rewrite minus_IZR. lra. }
  assert (N : INR (Z.to_nat n) <= x < INR (Z.to_nat n) + 1).
  { rewrite INR_IZR_INZ, Z2Nat.id by exact Hn. unfold n. rewrite minus_IZR. lra. }
  assert (X : dv * x = v1 - v0) by (unfold x; field; lra).
  set (k := Z.to_nat n) in *. repeat split.
  - intros. apply nth_error_In in H as Hi. rewrite nth_error_map in H. destruct (nth_error (seq 0 (S k)) k0) eqn:E; [|discriminate].
    assert (Q : n0 = k0). { assert (k0 < length (seq 0 (S k)))%nat by (apply nth_error_Some; congruence). rewrite seq_length in H0.
      rewrite (nth_error_nth' _ 0%nat) in E by (rewrite seq_length; lia). rewrite seq_nth in E by lia. cbn in E. congruence. }
    subst n0. inversion H; subst. reflexivity.
  - rewrite nth_error_map in H. destruct (nth_error (seq 0 (S k)) k0) eqn:E; [|discriminate]. inversion H; subst. pose proof (pos_INR n0). nra.
  - rewrite nth_error_map in H. destruct (nth_error (seq 0 (S k)) k0) eqn:E; [|discriminate]. inversion H; subst.
    apply nth_error_In, in_seq in E. assert (INR n0 <= INR k) by (apply le_INR; lia). nra.
  - cbn. f_equal. ring.
  - exists (v0 + dv * INR k). rewrite map_length, seq_length, nth_error_map. split.
    + replace (S k - 1)%nat with k by lia. rewrite (nth_error_nth' _ 0%nat) by (rewrite seq_length; lia). rewrite seq_nth by lia. reflexivity.
    + nra.
Qed.
Lemma trunc_exact v0 n dv : 0 < dv -> trunc_vec v0 (v0 + dv * INR n) dv = compute_vec (v0, v0 + dv * INR n, dv) /\
  length (trunc_vec v0 (v0 + dv * INR n) dv) = S n.
Proof.
  intros Hd. assert (E : (v0 + dv * INR n - v0) / dv = INR n) by (field; lra).
  assert (I : Int_part (INR n) = Z.of_nat n) by (apply Int_part_eq; rewrite <- INR_IZR_INZ; lra).
  assert (F : fround (INR n) = Z.of_nat n).
  { unfold fround. destruct (Rle_dec 0 (INR n)) as [_|H]; [|pose proof (pos_INR n); lra]. apply Int_part_eq. rewrite <- INR_IZR_INZ. lra. }
  unfold trunc_vec, compute_vec. cbv zeta. rewrite E, I, F, Nat2Z.id. split; [reflexivity|]. rewrite map_length, seq_length. reflexivity.
Qed.
(** An arbitrarily small defect of the quotient costs the truncated grid its last point, not the rounded one. *)
Lemma trunc_fragile v0 n dv e : 0 < dv -> 0 < e <= dv / 2 -> 
  length (trunc_vec v0 (v0 + dv * INR (S n) - e) dv) = S n /\ length (compute_vec (v0, v0 + dv * INR (S n) - e, dv)) = S (S n).
Proof.
  intros Hd He.
  assert (Q : 0 < e / dv <= / 2). { split; [apply Rdiv_lt_0_compat; lra|]. apply Rmult_le_reg_r with dv; [exact Hd|]. replace (e / dv * dv) with e by (field; lra). lra. }
  assert (E : (v0 + dv * INR (S n) - e - v0) / dv = INR n + 1 - e / dv) by (rewrite S_INR; field; lra).
  assert (I : Int_part (INR n + 1 - e / dv) = Z.of_nat n) by (apply Int_part_eq; rewrite <- INR_IZR_INZ; lra).
  assert (F : fround (INR n + 1 - e / dv) = Z.of_nat (S n)).
  { pose proof (pos_INR n). unfold fround. destruct (Rle_dec 0 (INR n + 1 - e / dv)) as [_|H']; [|lra]. apply Int_part_eq. rewrite <- INR_IZR_INZ, S_INR. lra. }
  unfold trunc_vec, compute_vec. cbv zeta. rewrite E, I, F, !Nat2Z.id, !map_length, !seq_length. auto.
Qed.
