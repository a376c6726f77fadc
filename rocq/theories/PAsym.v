(** * The program of MAsym: limits, the constant, the globals *)
From Coq Require Import Reals Lra Lia List Psatz Ratan.
From Coquelicot Require Import Coquelicot.
From Verif Require Import Num CField MCommon MConsts MVacuum MThermal MPolar MDress MQuark MHtl MAsym SpecInteg SpecInt SpecLim SpecHtl SpecHot SpecScale PCplx PVac PLim PLimC PHot2 PHotB6 PScale2 PScale3 PScale4.
Import List ListNotations.
Open Scope R_scope.

(** ** Numerical bounds *)
Lemma PI_bounds : 31415 / 10000 < PI < 31416 / 10000.
Proof.
  pose proof (PI_2_3_7_ineq 3) as [A B]. cbn [Nat.mul Nat.add sum_f_R0 tg_alt] in A, B. unfold tg_alt, PI_2_3_7_tg, Ratan_seq in A, B. cbn [INR pow Nat.mul Nat.add] in A, B.
  split; lra.
Qed.
Lemma exp_low x : 0 < x -> 1 + x + x * x / 2 < exp x.
Proof.
  intros Hx. assert (H := incr0 (fun x => exp x - (1 + x + x * x / 2)) (fun x => exp x - (1 + x)) x Hx). cbv beta in H. rewrite exp_0 in H.
  assert (exp x - (1 + x + x * x / 2) > 0); [|lra]. eapply Rle_lt_trans; [|apply H]; [lra| |].
  - intros y. auto_derive; auto. field.
  - intros y Hy. pose proof (exp_ineq1 y ltac:(lra)). lra.
Qed.
Lemma exp_high x : 0 < x < 2 -> (2 - x) * exp x < 2 + x.
Proof.
  intros [Hx Hx2]. assert (H := incr0 (fun x => 2 + x - (2 - x) * exp x) (fun x => 1 - (1 - x) * exp x) x Hx). cbv beta in H. rewrite exp_0 in H.
  assert (2 + x - (2 - x) * exp x > 0); [|lra]. eapply Rle_lt_trans; [|apply H]; [lra| |].
  - intros y. auto_derive; auto. ring.
  - intros y Hy. pose proof (exp_pos y) as P. pose proof (exp_ineq1 (- y) ltac:(lra)) as Q. rewrite exp_Ropp in Q. apply (Rmult_lt_compat_r (exp y)) in Q; auto. rewrite Rinv_l in Q by lra. lra.
Qed.
Lemma exp_pow n x : exp (INR n * x) = exp x ^ n.
Proof. induction n as [|n IH]; [cbn; rewrite Rmult_0_l; apply exp_0|]. rewrite S_INR, Rmult_plus_distr_r, exp_plus, IH, Rmult_1_l. cbn [pow]. ring. Qed.

Definition asym_constant : R := ln (32 * (PI * PI) / 9 * (1 - PI / 4)).
Lemma asym_constant_bounds : 2015 / 1000 < asym_constant < 2025 / 1000.
Proof.
  pose proof PI_bounds as [A B]. set (c := 32 * (PI * PI) / 9 * (1 - PI / 4)).
  assert (C1 : 752 / 100 < c < 754 / 100) by (unfold c; split; nra).
  split.
  - apply exp_lt_inv. unfold asym_constant. fold c. rewrite exp_ln by lra.
    replace (2015 / 1000) with (INR 32 * (2015 / 32000)) by (cbn [INR]; lra). rewrite exp_pow.
    pose proof (exp_high (2015 / 32000) ltac:(lra)) as H. assert (H' : exp (2015 / 32000) < 106502 / 100000) by lra. pose proof (exp_pos (2015 / 32000)) as P.
    apply Rle_lt_trans with ((106502 / 100000) ^ 32); [apply pow_incr; lra|]. apply Rlt_trans with (752 / 100); [|lra]. lra.
  - apply exp_lt_inv. unfold asym_constant. fold c. rewrite exp_ln by lra.
    replace (2025 / 1000) with (INR 32 * (2025 / 32000)) by (cbn [INR]; lra). rewrite exp_pow.
    pose proof (exp_low (2025 / 32000) ltac:(lra)) as H.
    apply Rlt_le_trans with ((10652 / 10000) ^ 32); [|apply pow_incr; lra]. apply Rlt_trans with (754 / 100); [lra|]. lra.
Qed.

(** ** The limit *)
Lemma htl_L_diag om : 0 < om -> htl_L om om = 2 / 3 * (1 - PI / 4).
Proof.
  intros H. unfold htl_L, htl_phase. replace ((om * om - om * om) / (2 * om * om)) with 0 by (field; lra). rewrite atan_0. destruct (Rlt_dec 0 om); [|lra]. field. lra.
Qed.
Definition asym_globals (nc nf : nat) (g : globals R) : globals R := set_number_of_fermions OpsR nf (set_number_of_colors OpsR nc g).
Definition asym_prop (J : Integrator) (t mu : R) (nc nf : nat) (g : globals R) : C :=
  qcd_gluon_propagator_l J (asym_globals nc nf g) (1 / 1000) (1 / 1000) (3 / 10) (g_m_quark g) (1 / t) mu (3 / 2).
Lemma asym_test_eq J t mu nc nf g : fst (asymptotics_test J t mu nc nf g) = - ln (fst (asym_prop J t mu nc nf g) / INR nc).
Proof. reflexivity. Qed.
Lemma known_eq t mu nc nf rem : asymptotics_known t mu nc nf rem = ln (gluon_scale nc nf t mu) + rem.
Proof. unfold asymptotics_known, gluon_scale. f_equal. f_equal. pose proof PI_neq0. field. auto. Qed.
Lemma asym_limit J F {FF : Filter F} T mu nc nf g rem : exact_integrator J -> (0 < nc)%nat -> F (fun x => 0 < T x) -> filterlim (fun x => gluon_scale nc nf (T x) (mu x)) F (Rbar_locally p_infty) ->
  F (fun x => 0 < fst (asym_prop J (T x) (mu x) nc nf g)) /\
  tends F (fun x => fst (asymptotics_test J (T x) (mu x) nc nf g) - asymptotics_known (T x) (mu x) nc nf rem) (asym_constant - rem).
Proof.
  intros HJ Hnc HT HD.
  pose proof (scale_gen_ok J (asym_globals nc nf g) (3 / 10) (3 / 2) 3 [] HJ Hnc F T mu HT (g_m_quark g) (1 / 1000) (1 / 1000) ltac:(lra) ltac:(lra) ltac:(lra)) as H.
  do 2 apply Forall_inv_tail in H. apply Forall_inv in H. cbn [fst snd] in H. change (g_nc (asym_globals nc nf g)) with nc in H. change (g_nf (asym_globals nc nf g)) with nf in H.
  destruct (H HD) as (_ & _ & [L _]). clear H. cbn [fst snd] in L. rewrite htl_L_diag in L by lra.
  set (l := lam nc (2 / 3 * (1 - PI / 4))) in *. pose proof PI_bounds as [PA PB]. assert (Hn : 0 < INR nc) by (apply lt_0_INR; lia).
  assert (El : l * INR nc = 32 * (PI * PI) / 9 * (1 - PI / 4)) by (unfold l, lam; field; lra).
  assert (Pl : 0 < l * INR nc) by (rewrite El; nra). assert (Hl : 0 < l) by nra.
  assert (L' : tends F (fun x => gluon_scale nc nf (T x) (mu x) * fst (asym_prop J (T x) (mu x) nc nf g) / INR nc) (/ (l * INR nc))).
  { eapply tends_ext; [|eapply tends_eq; [|apply (tends_mult _ _ _ _ L (tends_const (/ INR nc)))]].
    - apply filter_forall. intros x. unfold asym_prop. replace (1 / T x) with (/ T x) by (unfold Rdiv; ring). cbn [fst snd Cmult RtoC]. unfold Rdiv. ring.
    - cbn. field. lra. }
  assert (EV : F (fun x => 0 < gluon_scale nc nf (T x) (mu x))) by (apply (HD (fun y => 0 < y)); exists 0; auto).
  assert (Pi : 0 < / (l * INR nc)) by now apply Rinv_0_lt_compat.
  assert (P : F (fun x => 0 < gluon_scale nc nf (T x) (mu x) * fst (asym_prop J (T x) (mu x) nc nf g) / INR nc)).
  { apply (L' (fun y => 0 < y)). exists (mkposreal _ Pi). intros y Hy. change (Rabs (y - / (l * INR nc)) < / (l * INR nc)) in Hy. apply Rabs_def2 in Hy. lra. }
  assert (P' : F (fun x => 0 < fst (asym_prop J (T x) (mu x) nc nf g))).
  { generalize (filter_and _ _ EV P). apply filter_imp. intros x [X1 X2]. apply (Rmult_lt_compat_r (INR nc)) in X2; auto. unfold Rdiv in X2. rewrite Rmult_assoc, Rinv_l, Rmult_0_l, Rmult_1_r in X2 by lra. apply (Rmult_lt_reg_l (gluon_scale nc nf (T x) (mu x))); auto. lra. }
  split; [exact P'|].
  assert (Q := tends_comp ln _ _ (continuous_ln _ Pi) L'). cbv beta in Q.
  eapply tends_ext; [|eapply tends_eq; [|apply (tends_minus _ _ _ _ (tends_opp _ _ Q) (tends_const rem))]].
  - generalize (filter_and _ _ EV P'). apply filter_imp. intros x [X1 X2]. rewrite asym_test_eq, known_eq.
    assert (0 < fst (asym_prop J (T x) (mu x) nc nf g) / INR nc) by now apply Rdiv_lt_0_compat.
    replace (gluon_scale nc nf (T x) (mu x) * fst (asym_prop J (T x) (mu x) nc nf g) / INR nc) with (gluon_scale nc nf (T x) (mu x) * (fst (asym_prop J (T x) (mu x) nc nf g) / INR nc)) by (unfold Rdiv; ring).
    rewrite ln_mult by auto. ring.
  - rewrite ln_Rinv by auto. unfold asym_constant. rewrite <- El. ring.
Qed.
(** The two limits of the comment in the program. *)
Lemma scale_T nc nf mu : (0 < nc)%nat -> filterlim (fun x => gluon_scale nc nf x mu) INF INF.
Proof.
  intros Hnc P [M HM]. assert (Hc : 1 <= INR nc) by (apply (le_INR 1); lia). pose proof (pos_INR nf) as Hf. exists (Rmax M 1). intros x Hx. pose proof (Rmax_l M 1). pose proof (Rmax_r M 1). apply HM.
  unfold gluon_scale. pose proof PI_RGT_0. assert (0 <= 3 * INR nf * (mu * mu) / (2 * (PI * PI))) by (apply Rmult_le_pos; [nra|left; apply Rinv_0_lt_compat; nra]).
  assert (1 * (x * x) <= (INR nc + INR nf / 2) * (x * x)) by (apply Rmult_le_compat_r; nra). nra.
Qed.
Lemma scale_mu nc nf t : (0 < nf)%nat -> filterlim (fun x => gluon_scale nc nf t x) INF INF.
Proof.
  intros Hnf P [M HM]. assert (Hc : 1 <= INR nf) by (apply (le_INR 1); lia). pose proof (pos_INR nc) as Hn. pose proof PI_bounds as [_ PB]. pose proof PI_RGT_0. exists (Rmax (10 * M) 10). intros x Hx. pose proof (Rmax_l (10 * M) 10). pose proof (Rmax_r (10 * M) 10). apply HM.
  unfold gluon_scale. assert (0 <= (INR nc + INR nf / 2) * (t * t)) by (apply Rmult_le_pos; nra).
  assert (x / 10 <= 3 * INR nf * (x * x) / (2 * (PI * PI))); [|lra]. apply (Rmult_le_reg_r (2 * (PI * PI))); [nra|].
  replace (3 * INR nf * (x * x) / (2 * (PI * PI)) * (2 * (PI * PI))) with (3 * INR nf * (x * x)) by (field; lra). assert (PI * PI < 10) by nra. assert (x * x <= INR nf * (x * x)) by nra. nra.
Qed.
Lemma asym_T J mu nc nf g rem : exact_integrator J -> (0 < nc)%nat -> tends INF (fun T => fst (asymptotics_test J T mu nc nf g) - asymptotics_known T mu nc nf rem) (asym_constant - rem).
Proof. intros HJ Hn. apply (asym_limit J INF (fun T => T) (fun _ => mu)); auto; [apply T_ev|now apply scale_T]. Qed.
Lemma asym_mu J T nc nf g rem : exact_integrator J -> (0 < nc)%nat -> (0 < nf)%nat -> 0 < T -> tends INF (fun mu => fst (asymptotics_test J T mu nc nf g) - asymptotics_known T mu nc nf rem) (asym_constant - rem).
Proof. intros HJ Hn Hf HT. apply (asym_limit J INF (fun _ => T) (fun mu => mu)); auto; [now apply filter_forall|now apply scale_mu]. Qed.

(** ** The globals *)
Lemma test_restores J t mu nc nf g : g_nf_div_nc g = INR (g_nf g) / INR (g_nc g) -> snd (asymptotics_test J t mu nc nf g) = g.
Proof. intros H. destruct g as [c f r q tl mi rg]. cbn in *. now rewrite H. Qed.
Lemma rows_eq J tmus nc nf rem g : g_nf_div_nc g = INR (g_nf g) / INR (g_nc g) ->
  asymptotics_rows J tmus nc nf rem g = (map (fun x => asymptotics_known (fst x) (snd x) nc nf rem) tmus, map (fun x => fst (asymptotics_test J (fst x) (snd x) nc nf g)) tmus, g).
Proof.
  intros H. induction tmus as [|[t mu] l IH]; [reflexivity|]. cbn [asymptotics_rows]. destruct (asymptotics_test J t mu nc nf g) as [y g'] eqn:E.
  pose proof (test_restores J t mu nc nf g H) as R. rewrite E in R. cbn [snd] in R. subst g'. rewrite IH. cbn [map fst snd]. now rewrite E.
Qed.
Lemma series_eq J tmus nfnc rem g : g_nf_div_nc g = INR (g_nf g) / INR (g_nc g) ->
  asymptotics_series J tmus nfnc rem g = (flat_map (fun x => [(fst x, snd x, false, map (fun y => asymptotics_known (fst y) (snd y) (snd x) (fst x) rem) tmus);
    (fst x, snd x, true, map (fun y => fst (asymptotics_test J (fst y) (snd y) (snd x) (fst x) g)) tmus)]) nfnc, g).
Proof.
  intros H. induction nfnc as [|[nf nc] l IH]; [reflexivity|]. cbn [asymptotics_series]. rewrite rows_eq by auto. rewrite IH. reflexivity.
Qed.
Lemma main_eq J g : g_nf_div_nc g = INR (g_nf g) / INR (g_nc g) ->
  let g' := mkGlobals (g_nc g) (g_nf g) (g_nf_div_nc g) (g_m_quark g) (/ 10000) (g_max_iter_integral g) (g_matsubara_reg g) in
  let known nf nc t mu := ln ((INR nc + INR nf / 2) * (t * t) + 3 * INR nf * (mu * mu) / (2 * (PI * PI))) + 202 / 100 in
  let test nf nc t mu := fst (asymptotics_test J t mu nc nf g') in
  let plot f1 f2 := flat_map (fun x => [(fst x, snd x, false, f1 (fst x) (snd x)); (fst x, snd x, true, f2 (fst x) (snd x))]) [(1, 2); (1, 3); (1, 5); (2, 2); (2, 3); (2, 5)]%nat in
  asymptotics_main J g = Some
   (plot (fun nf nc => [known nf nc 8 3; known nf nc 12 3; known nf nc 15 3; known nf nc 20 3]) (fun nf nc => [test nf nc 8 3; test nf nc 12 3; test nf nc 15 3; test nf nc 20 3]),
    plot (fun nf nc => [known nf nc 3 8; known nf nc 3 12; known nf nc 3 15; known nf nc 3 20]) (fun nf nc => [test nf nc 3 8; test nf nc 3 12; test nf nc 3 15; test nf nc 3 20]), g').
Proof.
  intros H g' known test plot.
  assert (E : set_default_tol_integral OpsR (/ 10 ^ 4) g = Some g').
  { unfold set_default_tol_integral, OpsR. cbn [f_pos]. destruct (Rlt_dec 0 (/ 10 ^ 4)) as [_|N]; [|exfalso; apply N, Rinv_0_lt_compat; lra]. unfold g'. do 2 f_equal. lra. }
  unfold asymptotics_main. rewrite E. assert (H' : g_nf_div_nc g' = INR (g_nf g') / INR (g_nc g')) by exact H. rewrite (series_eq _ _ _ _ _ H'), (series_eq _ _ _ _ _ H').
  assert (K : forall nf nc t mu, asymptotics_known t mu nc nf (202 / 100) = known nf nc t mu) by (intros; rewrite known_eq; reflexivity).
  unfold plot. cbn [flat_map map app fst snd]. rewrite !K. reflexivity.
Qed.
(** An exact integrator exists, so the hypotheses can be met. *)
