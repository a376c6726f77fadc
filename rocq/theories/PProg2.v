(** * Proofs about the plotting programs: the propagator programs *)
From Coq Require Import Reals List Lra Lia ZArith.
From Coquelicot Require Import Coquelicot.
From Verif Require Import Num MCommon MConsts MUtils MVacuum MDress MQuark MPhase MProg SpecLim SpecInt SpecCold SpecProg PLim PVac PVacLim PColdFin PColdDr PProg.
Import List ListNotations.
Open Scope R_scope.

(** ** qcd_gluon_propagator_compare.rs *)
Lemma compare_value_eq g m mq f0 z nf p2 : m <> 0 -> mq <> 0 -> g_nf_div_nc g = INR nf / INR (g_nc g) ->
  compare_value g m mq f0 z nf p2 = dressing_model (g_nc g) nf m mq f0 z p2.
Proof.
  intros Hm Hq E. unfold compare_value, dressing_model, get_number_of_colors, nf_div_nc. cbv zeta. rewrite qcdx_inv_landau_eq, E. numcbn.
  replace (p2 / (m * m) / (mq / m * (mq / m))) with (p2 / mq ^ 2) by (field; auto).
  replace (p2 / (m * m)) with (p2 / m ^ 2) by (field; auto). unfold Rdiv. ring.
Qed.
Lemma do_dressing_eq momenta m mq f0 z nf g i fs ims : m <> 0 -> mq <> 0 ->
  do_dressing momenta m mq f0 z nf (mkCompare g i fs ims) =
  mkCompare (set_number_of_fermions OpsR nf g) (S i)
    (filter (fun f => negb (Nat.eqb (fst f) i)) fs ++ [(i, combine momenta (run_curve (g_nc g) (mkRun m mq f0 z nf) momenta))])
    (ims ++ [run_curve (g_nc g) (mkRun m mq f0 z nf) momenta]).
Proof.
  intros Hm Hq. unfold do_dressing, run_curve. cbv zeta. cbn [r_m r_mq r_f0 r_z r_nf cs_g cs_index cs_files cs_images].
  assert (E : map (compare_value (set_number_of_fermions OpsR nf g) m mq f0 z nf) momenta = map (dressing_model (g_nc g) nf m mq f0 z) momenta).
  { apply map_ext. intros p. rewrite compare_value_eq; auto. }
  now rewrite E.
Qed.
Lemma compare_main_eq g momenta :
  let s := compare_main g momenta in
  cs_index s = 6%nat /\ map fst (cs_files s) = [0; 1; 2; 3; 4; 5]%nat /\
  cs_images s = map (fun r => run_curve (g_nc g) r momenta) compare_runs /\
  map snd (cs_files s) = map (fun r => combine momenta (run_curve (g_nc g) r momenta)) compare_runs /\
  g_nf (cs_g s) = 0%nat /\ g_nf_div_nc (cs_g s) = 0 /\ g_nc (cs_g s) = g_nc g.
Proof.
  unfold compare_main. cbv zeta. do 6 (rewrite do_dressing_eq by lra; cbn [set_number_of_fermions g_nc g_nf app filter fst negb Nat.eqb]).
  cbn [cs_g cs_index cs_files cs_images g_nc g_nf g_nf_div_nc map fst snd compare_runs].
  replace (- (65 / 100)) with (- 0.65) by lra. replace (- (105 / 100)) with (- 1.05) by lra. replace (- (6 / 10)) with (- 0.6) by lra.
  replace (8 / 10) with 0.8 by lra. replace (65 / 100) with 0.65 by lra. replace (73 / 100) with 0.73 by lra.
  replace (4 / 10) with 0.4 by lra. replace (5 / 10) with 0.5 by lra.
  repeat (split; [reflexivity|]). split; [|reflexivity]. simpl. unfold Rdiv. ring.
Qed.
Lemma no_flavours nc m mq mq' f0 z p2 : dressing_model nc 0 m mq f0 z p2 = dressing_model nc 0 m mq' f0 z p2.
Proof. unfold dressing_model. simpl. unfold Rdiv. ring. Qed.
Lemma compare_same g momenta : nth_error (cs_images (compare_main g momenta)) 2 = nth_error (cs_images (compare_main g momenta)) 5.
Proof.
  destruct (compare_main_eq g momenta) as [_ [_ [E _]]]. rewrite E. cbn [compare_runs map nth_error]. f_equal. unfold run_curve. cbn [r_m r_mq r_f0 r_z r_nf].
  apply map_ext. intros p. apply no_flavours.
Qed.
Lemma dressing_uv nc nf m mq f0 z : mq <> 0 -> z <> 0 ->
  tends INF (fun p2 => z * dressing_model nc nf m mq f0 z p2 - (ym_gluon_dressing_inv_landau (p2 / m ^ 2) f0 - INR nf / INR nc * (2 / 9 * ln (p2 / mq ^ 2)))) 0.
Proof.
  intros Hq Hz. assert (Q : 0 < mq ^ 2) by (apply pow2_gt_0; auto).
  assert (H : tends INF (fun p2 => gl_f_q_crossed (p2 / mq ^ 2) + 2 / 9 * ln (p2 / mq ^ 2)) (- (2 / 27))).
  { apply (filterlim_comp _ _ _ (fun p2 => p2 / mq ^ 2) (fun s => gl_f_q_crossed s + 2 / 9 * ln s) INF INF); [|exact f_q_crossed_shift_inf].
    intros P [M HM]. exists (M * mq ^ 2). intros x Hx. apply HM. apply Rlt_div_r; auto. }
  assert (K : tends INF (fun p2 => INR nf / INR nc * (gl_f_q_crossed (p2 / mq ^ 2) + 2 / 9 * ln (p2 / mq ^ 2) + 2 / 27)) (INR nf / INR nc * (- (2 / 27) + 2 / 27))).
  { eapply tends_mult; [apply tends_const|]. eapply tends_plus; [exact H|apply tends_const]. }
  replace (INR nf / INR nc * (- (2 / 27) + 2 / 27)) with 0 in K by ring. eapply tends_ext; [|exact K]. apply filter_forall. intros p2.
  unfold dressing_model. rewrite ym_gluon_inv_landau_eq. numcbn. generalize (INR nf / INR nc) (gl_f (p2 / m ^ 2)) (gl_f_q_crossed (p2 / mq ^ 2)) (ln (p2 / mq ^ 2)). intros r a b c. field. auto.
Qed.
Lemma dressing_ir nc nf m mq f0 z : mq <> 0 -> z <> 0 ->
  tends (at_right 0) (fun p2 => z * dressing_model nc nf m mq f0 z p2 - ym_gluon_dressing_inv_landau (p2 / m ^ 2) (f0 + 2 / 27 * (INR nf / INR nc))) 0.
Proof.
  intros Hq Hz. assert (Q : 0 < mq ^ 2) by (apply pow2_gt_0; auto).
  assert (H : tends (at_right 0) (fun p2 => gl_f_q_crossed (p2 / mq ^ 2)) 0).
  { apply (filterlim_comp _ _ _ (fun p2 => p2 / mq ^ 2) gl_f_q_crossed (at_right 0) (at_right 0)); [|exact f_q_crossed_0].
    intros P [e He]. exists (mkposreal _ (Rmult_lt_0_compat _ _ (cond_pos e) Q)). intros x Hx Hx0. apply He.
    - revert Hx. unfold ball; simpl; unfold AbsRing_ball, abs, minus, plus, opp; simpl. rewrite !Ropp_0, !Rplus_0_r. rewrite (Rabs_pos_eq x) by lra. rewrite (Rabs_pos_eq (x / _)) by (apply Rlt_le, Rdiv_lt_0_compat; auto).
      intros Hx. apply Rlt_div_l; auto.
    - apply Rdiv_lt_0_compat; auto. }
  assert (K : tends (at_right 0) (fun p2 => INR nf / INR nc * gl_f_q_crossed (p2 / mq ^ 2)) (INR nf / INR nc * 0)) by (eapply tends_mult; [apply tends_const|exact H]).
  rewrite Rmult_0_r in K. eapply tends_ext; [|exact K]. apply filter_forall. intros p2.
  unfold dressing_model. rewrite ym_gluon_inv_landau_eq. numcbn. generalize (INR nf / INR nc) (gl_f (p2 / m ^ 2)) (gl_f_q_crossed (p2 / mq ^ 2)). intros r a b. field. auto.
Qed.

(** ** qcd_gluon_propagator.rs *)
Lemma propagator_program_eq J g momenta :
  let '(pt, pl) := propagator_program J g momenta in
  pl_domain pt = momenta /\ pl_domain pl = momenta /\ pl_legends pt = gp_temperatures ++ [0] /\ pl_legends pl = gp_temperatures ++ [0] /\
  firstn 6 (pl_images pt) = map (gp_curve J g momenta false) gp_temperatures /\ firstn 6 (pl_images pl) = map (gp_curve J g momenta true) gp_temperatures /\
  length (pl_images pt) = 7%nat /\ length (pl_images pl) = 7%nat.
Proof.
  unfold propagator_program. cbv zeta. cbn [pl_domain pl_legends pl_images map app firstn length gp_temperatures].
  replace (656 / 1000) with 0.656 by lra. replace (- (876 / 1000)) with (- 0.876) by lra. replace (12 / 10) with 1.2 by lra.
  replace (100 / 1000) with 0.1 by lra. replace (75 / 1000) with 0.075 by lra. replace (50 / 1000) with 0.05 by lra.
  replace (25 / 1000) with 0.025 by lra. replace (10 / 1000) with 0.01 by lra. replace (5 / 1000) with 0.005 by lra.
  unfold gp_curve, get_matsubara_reg, get_default_quark_mass, Rdiv. rewrite !Rmult_1_l. repeat split.
Qed.
Lemma T_to_0 (f : R -> R) l : tends INF f l -> tends (at_right 0) (fun t => f (/ t)) l.
Proof.
  intros H. apply (filterlim_comp _ _ _ (fun t => / t) f (at_right 0) INF); [|exact H].
  intros P [M HM]. set (N := Rmax M 1). assert (N0 : 0 < N) by (unfold N; pose proof (Rmax_r M 1); lra).
  exists (mkposreal _ (Rinv_0_lt_compat _ N0)). intros x Hx Hx0. apply HM.
  revert Hx. unfold ball; simpl; unfold AbsRing_ball, abs, minus, plus, opp; simpl. rewrite Ropp_0, Rplus_0_r, Rabs_pos_eq by lra. intros Hx.
  apply Rle_lt_trans with N; [apply Rmax_l|]. rewrite <- (Rinv_inv N). apply Rinv_lt_contravar; auto. apply Rmult_lt_0_compat; auto. now apply Rinv_0_lt_compat.
Qed.
(** the last image is the limit of the images at low temperature *)
Lemma propagator_limit J g momenta : exact_integrator J -> (0 < g_nc g)%nat -> g_matsubara_reg g <> 0 -> Forall (fun p => 0 < p /\ qcd_gluon_dressing_l_inv_zero_temp J g (g_matsubara_reg g) p 0.656 (g_m_quark g) 1.2 (- 0.876) <> RtoC 0 /\
    qcd_gluon_dressing_t_inv_zero_temp J g (g_matsubara_reg g) p 0.656 (g_m_quark g) 1.2 (- 0.876) <> RtoC 0) momenta ->
  let '(pt, pl) := propagator_program J g momenta in
  forall i, (i < length momenta)%nat ->
  tends (at_right 0) (fun t => nth i (gp_curve J g momenta false t) 0) (nth i (nth 6 (pl_images pt) []) 0) /\
  tends (at_right 0) (fun t => nth i (gp_curve J g momenta true t) 0) (nth i (nth 6 (pl_images pl) []) 0).
Proof.
  intros HJ Hn Hr Hp. unfold propagator_program. cbv zeta. cbn [pl_images map app nth].
  replace (656 / 1000) with 0.656 by lra. replace (- (876 / 1000)) with (- 0.876) by lra. replace (12 / 10) with 1.2 by lra.
  intros i Hi. unfold gp_curve, get_matsubara_reg, get_default_quark_mass.
  destruct (proj1 (Forall_forall _ _) Hp (nth i momenta 0) (nth_In _ _ Hi)) as [P0 [NL NT]].
  assert (N : forall F : R -> R, nth i (map F momenta) 0 = F (nth i momenta 0)).
  { intros F. rewrite (nth_indep _ 0 (F 0)) by (rewrite map_length; auto). apply map_nth. }
  rewrite !N. pose proof (cold_gen_ok J g 1.2 HJ Hn 0.656 0 (- 0.876) 1 [] ltac:(lra) (g_matsubara_reg g) (nth i momenta 0) (g_m_quark g) Hr P0) as H.
  do 3 apply Forall_cons_iff in H as [_ H]. apply Forall_cons_iff in H as [HL H]. apply Forall_cons_iff in H as [HT _].
  destruct HL as [_ HL]. destruct (HL NL) as [_ [HL' _]]. destruct HT as [_ HT]. destruct (HT NT) as [_ [HT' _]]. clear HL HT. rename HL' into HL, HT' into HT. cbn [fst snd] in HL, HT. apply T_to_0 in HL, HT.
  split; (eapply tends_ext; [|first [exact HT|exact HL]]; apply filter_forall; intros t; rewrite N; reflexivity).
Qed.

(** ** ym_thermal_gluon_propagator.rs *)
Definition file_name (y : YmRun) : ym_file := if y_long y then Long (y_T y) else Trans (y_T y).
Lemma ym_vals_eq D E momenta : (forall p, Re (D p) = E p) -> ym_vals D momenta = norm4 E momenta.
Proof. intros H. unfold ym_vals, norm4, ym_renpoint. apply map_ext. intros p. rewrite !H. f_equal. ring. Qed.
Lemma ym_vacuum_eq momenta : ym_vacuum_vals momenta = norm4 ym_vacuum_prop momenta.
Proof.
  unfold ym_vacuum_vals, norm4, ym_renpoint, ym_vacuum_prop. cbv zeta. apply map_ext. intros p.
  replace (656 / 1000) with 0.656 by lra. replace (- (876 / 1000)) with (- 0.876) by lra.
  replace (p * p / (0.656 * 0.656)) with (p ^ 2 / 0.656 ^ 2) by (simpl; f_equal; ring).
  replace (4 * 4 / (0.656 * 0.656)) with (4 ^ 2 / 0.656 ^ 2) by (simpl; f_equal; ring). f_equal. ring.
Qed.
Lemma ym_files_eq J g momenta :
  ym_files J g momenta = (Vacuum, combine momenta (norm4 ym_vacuum_prop momenta)) ::
    map (fun y => (file_name y, combine momenta (norm4 (ym_run_prop J g y) momenta))) ym_runs.
Proof.
  unfold ym_files. rewrite ym_vacuum_eq. f_equal. cbn [map seq app ym_runs].
  assert (X : forall (a b : ym_file) D E, a = b -> (forall p, Re (D p) = E p) -> (a, combine momenta (ym_vals D momenta)) = (b, combine momenta (norm4 E momenta))).
  { intros a b D E -> H. now rewrite (ym_vals_eq D E momenta H). }
  repeat (apply f_equal2; [apply X; [reflexivity|]; intros p; unfold ym_prop_l, ym_prop_t, ym_run_prop, ym_temperatures, ym_ms_l, ym_ms_t, ym_f0s_l, ym_f0s_t; cbn [nth y_long y_T y_om y_m y_f0 Nat.eqb]; f_equal; f_equal; try lra; unfold Rdiv; ring|]).
  reflexivity.
Qed.
Lemma ym_names_distinct J g momenta : length (ym_files J g momenta) = 13%nat /\ NoDup (map fst (ym_files J g momenta)).
Proof.
  rewrite ym_files_eq. split; [reflexivity|]. cbn [map fst ym_runs file_name y_long y_T].
  repeat constructor; simpl; intros H; repeat (destruct H as [H|H]; [try discriminate; injection H; lia|]); auto.
Qed.
Lemma normalised_at (D : R -> R) momenta i : D 4 <> 0 -> nth_error momenta i = Some 4 -> nth_error (norm4 D momenta) i = Some (/ 4 ^ 2).
Proof. intros H E. unfold norm4. rewrite nth_error_map, E. simpl. f_equal. field. auto. Qed.
Lemma normalised_ratio (D : R -> R) momenta i j p q : D 4 <> 0 -> nth_error momenta i = Some p -> nth_error momenta j = Some q -> D q <> 0 ->
  exists x y, nth_error (norm4 D momenta) i = Some x /\ nth_error (norm4 D momenta) j = Some y /\ x / y = D p / D q.
Proof. intros H Hp Hq N. unfold norm4. rewrite !nth_error_map, Hp, Hq. simpl. do 2 eexists. repeat split. field. auto. Qed.
(** the plots show the tables *)
Lemma ym_plots_eq J g momenta :
  let v i := norm4 (ym_run_prop J g (nth i ym_runs (mkYm true 0 0 0 0))) momenta in
  let T i := y_T (nth i ym_runs (mkYm true 0 0 0 0)) in
  let vac := norm4 ym_vacuum_prop momenta in
  ym_plots J g momenta = [ ([vac; v 0%nat; v 1%nat; v 2%nat], [0%nat; T 0%nat; T 1%nat; T 2%nat]); ([v 3%nat; v 4%nat; v 5%nat], [T 3%nat; T 4%nat; T 5%nat]);
    ([vac; v 6%nat; v 7%nat; v 8%nat], [0%nat; T 6%nat; T 7%nat; T 8%nat]); ([v 9%nat; v 10%nat; v 11%nat], [T 9%nat; T 10%nat; T 11%nat]) ].
Proof.
  cbv zeta. unfold ym_plots. rewrite ym_vacuum_eq.
  assert (X : map (fun f => snd f) (ym_files J g momenta) = map snd (ym_files J g momenta)) by reflexivity.
  assert (L : forall i, (i < 6)%nat -> ym_vals (ym_prop_l J g i) momenta = norm4 (ym_run_prop J g (nth i ym_runs (mkYm true 0 0 0 0))) momenta).
  { intros i Hi. apply ym_vals_eq. intros p. do 6 (destruct i as [|i]; [unfold ym_prop_l, ym_run_prop, ym_temperatures, ym_ms_l, ym_f0s_l; cbn [nth y_long y_T y_om y_m y_f0 Nat.eqb ym_runs]; f_equal; f_equal; try lra; unfold Rdiv; ring|]). lia. }
  assert (T : forall i, (i < 6)%nat -> ym_vals (ym_prop_t J g i) momenta = norm4 (ym_run_prop J g (nth (6 + i) ym_runs (mkYm true 0 0 0 0))) momenta).
  { intros i Hi. apply ym_vals_eq. intros p. do 6 (destruct i as [|i]; [unfold ym_prop_t, ym_run_prop, ym_temperatures, ym_ms_t, ym_f0s_t; cbn [nth y_long y_T y_om y_m y_f0 Nat.eqb ym_runs Nat.add]; f_equal; f_equal; try lra; unfold Rdiv; ring|]). lia. }
  cbn [map]. rewrite !L, !T by lia. reflexivity.
Qed.
