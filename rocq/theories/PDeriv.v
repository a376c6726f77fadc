(** * Mass derivatives of the tadpole integrands *)
From Coq Require Import Reals Lra Lia List.
From Coquelicot Require Import Coquelicot.
From Verif Require Import Num MCommon MThermal SpecDeriv SpecInteg PVac PDistr SpecLim PLim PCold.
Import List ListNotations.
Open Scope R_scope.

Section Tadpole.
Variables (m beta : R).
Hypothesis Hm : m <> 0.
Hypothesis Hb : 0 < beta.
Let m2 := m * m.
Lemma m2_pos : 0 < m2.
Proof. unfold m2. nra. Qed.

(** Occupation number as a function of the squared energy. *)
Definition ns (x : R) : R := / (exp (sqrt x * beta) - 1).
Definition gf (x : R) : R := ns x / sqrt x.
Definition gl (x : R) : R := ns x * sqrt x.
Lemma ns_den x : 0 < x -> 0 < exp (sqrt x * beta) - 1.
Proof. intros H. pose proof (sqrt_lt_R0 x H). pose proof (exp_ineq1 (sqrt x * beta)). assert (0 < sqrt x * beta) by nra. lra. Qed.
Definition gf' (x : R) : R := (- (beta * ns x * (1 + ns x)) / sqrt x - ns x / x) / (2 * sqrt x).
Definition gl' (x : R) : R := (ns x - beta * ns x * (1 + ns x) * sqrt x) / (2 * sqrt x).
Lemma gf_d x : 0 < x -> is_derive gf x (gf' x).
Proof.
  intros H. pose proof (ns_den x H) as Hd. pose proof (sqrt_lt_R0 x H) as Hs. unfold gf, ns. auto_derive.
  - repeat split; auto; lra.
  - unfold gf', ns. assert (E : x = sqrt x * sqrt x) by (symmetry; apply sqrt_sqrt; lra). set (s := sqrt x) in *. rewrite E. set (y := exp (s * beta)) in *. field. lra.
Qed.
Lemma gl_d x : 0 < x -> is_derive gl x (gl' x).
Proof.
  intros H. pose proof (ns_den x H) as Hd. pose proof (sqrt_lt_R0 x H) as Hs. unfold gl, ns. auto_derive.
  - repeat split; auto; lra.
  - unfold gl', ns. set (s := sqrt x) in *. set (y := exp (s * beta)) in *. field. lra.
Qed.

(** A function of the mass through the squared energy. *)
Lemma md (f g : R -> R) (q c D D' : R) : (forall mu, f mu = c * g (mu * mu + q * q)) -> is_derive g (m2 + q * q) D -> D' = c * D -> mass_derivative f m D'.
Proof.
  intros Hf Hg ->. unfold mass_derivative. fold m2. pose proof m2_pos as P.
  apply (is_derive_ext_loc (fun x => c * g (x + q * q))).
  { exists (mkposreal m2 P). intros y Hy. apply Rabs_def2 in Hy. cbn in Hy. rewrite Hf, sqrt_sqrt by (unfold minus, plus, opp in Hy; cbn in Hy; lra). reflexivity. }
  apply (is_derive_scal (fun x => g (x + q * q)) m2 c D).
  replace D with (scal 1 D) by (unfold scal; cbn; unfold mult; cbn; ring). apply (is_derive_comp g (fun x => x + q * q) m2); [exact Hg|]. auto_derive; auto.
Qed.
(** A power of the momentum times a function of the squared energy. *)
Lemma td (g : R -> R) (q c D : R) k : is_derive g (m2 + q * q) D ->
  is_derive (fun z => c * z ^ k * g (m2 + z * z)) q (c * INR k * q ^ pred k * g (m2 + q * q) + c * q ^ k * (2 * q * D)).
Proof.
  intros Hg. assert (E : Derive g (m2 + q * q) = D) by now apply is_derive_unique. auto_derive.
  - exists D. exact Hg.
  - change (Derive (fun x => g x)) with (Derive g). rewrite E. ring.
Qed.

(** Decay at large momentum. *)
Lemma exp_quartic y : 0 <= y -> y * y * (y * y) / 256 <= exp y - 1.
Proof.
  intros H. replace y with (y / 4 + y / 4 + (y / 4 + y / 4)) at 5 by field. rewrite !exp_plus.
  pose proof (exp_ge_lin (y / 4)) as L. set (t := exp (y / 4)) in *. replace (y * y * (y * y) / 256) with ((y / 4) * (y / 4) * ((y / 4) * (y / 4))) by field.
  set (u := y / 4) in *. assert (0 <= u) by (unfold u; lra). assert (H1 : 1 + u <= t) by lra. assert (H2 : 1 + u * u <= t * t) by nra. nra.
Qed.
Lemma ns_bound x : 0 < x -> 0 < ns x /\ ns x <= 256 / (beta * beta * (beta * beta)) / (x * x).
Proof.
  intros H. pose proof (ns_den x H) as Hd. pose proof (sqrt_lt_R0 x H) as Hs. split; [unfold ns; now apply Rinv_0_lt_compat|].
  assert (Hy : 0 < sqrt x * beta) by nra. pose proof (exp_quartic (sqrt x * beta) (Rlt_le _ _ Hy)) as L.
  assert (E : x = sqrt x * sqrt x) by (symmetry; apply sqrt_sqrt; lra).
  unfold ns. set (s := sqrt x) in *. rewrite E. set (y := exp (s * beta)) in *.
  replace (256 / (beta * beta * (beta * beta)) / (s * s * (s * s))) with (/ (s * beta * (s * beta) * (s * beta * (s * beta)) / 256)) by (field; lra).
  apply Rinv_le_contravar; [|exact L]. assert (0 < s * beta * (s * beta)) by nra. nra.
Qed.
Lemma ns_bound2 x : 0 < x -> ns x * (x * x) <= 256 / (beta * beta * (beta * beta)).
Proof.
  intros H. destruct (ns_bound x H) as [_ N1]. replace (256 / (beta * beta * (beta * beta))) with (256 / (beta * beta * (beta * beta)) / (x * x) * (x * x)) by (field; lra).
  apply Rmult_le_compat_r; [nra|exact N1].
Qed.
Lemma squeeze_inv (f : R -> R) c : (forall z, 1 <= z -> Rabs (f z) <= c / z) -> filterlim f (Rbar_locally p_infty) (locally 0).
Proof.
  intros H. apply (tends_squeeze0 f (fun z => c * / z)).
  - apply (ev_infty _ 1). intros z Hz. apply H. lra.
  - apply (tends_eq _ (c * 0)); [ring|]. apply tends_mult; [apply tends_const|apply tends_inv_infty].
Qed.
Lemma T_infty (g : R -> R) c k A : (k <= 3)%nat -> 0 <= A -> (forall x, 1 <= x -> Rabs (g x) * (sqrt x ^ k * sqrt x) <= A) ->
  filterlim (fun z => c * z ^ k * g (m2 + z * z)) (Rbar_locally p_infty) (locally 0).
Proof.
  intros Hk HA Hg. apply (squeeze_inv _ (Rabs c * A)). intros z Hz. pose proof m2_pos.
  assert (Hs : z <= sqrt (m2 + z * z)). { rewrite <- (sqrt_square z) at 1 by lra. apply sqrt_le_1; nra. }
  specialize (Hg (m2 + z * z) ltac:(nra)). set (s := sqrt (m2 + z * z)) in *. set (y := g (m2 + z * z)) in *.
  rewrite !Rabs_mult, <- RPow_abs, (Rabs_pos_eq z) by lra. apply (Rmult_le_reg_r z); [lra|]. unfold Rdiv. replace (Rabs c * A * / z * z) with (Rabs c * A) by (field; lra).
  replace (Rabs c * z ^ k * Rabs y * z) with (Rabs c * (Rabs y * (z ^ k * z))) by ring. apply Rmult_le_compat_l; [apply Rabs_pos|].
  eapply Rle_trans; [|exact Hg]. apply Rmult_le_compat_l; [apply Rabs_pos|]. apply Rmult_le_compat; try lra; [apply pow_le; lra|apply pow_incr; lra].
Qed.
Lemma gf_bound k x : (k <= 3)%nat -> 1 <= x -> Rabs (gf x) * (sqrt x ^ k * sqrt x) <= 256 / (beta * beta * (beta * beta)).
Proof.
  intros Hk Hx. destruct (ns_bound x ltac:(lra)) as [N0 N1]. assert (Hs : 1 <= sqrt x) by (rewrite <- sqrt_1; apply sqrt_le_1; lra).
  assert (E : sqrt x * sqrt x = x) by (apply sqrt_sqrt; lra). unfold gf. rewrite Rabs_pos_eq by (apply Rmult_le_pos; [lra|left; apply Rinv_0_lt_compat; lra]).
  apply Rle_trans with (ns x * (x * x)); [|apply ns_bound2; lra].
  replace (ns x / sqrt x * (sqrt x ^ k * sqrt x)) with (ns x * sqrt x ^ k) by (field; lra). apply Rmult_le_compat_l; [lra|]. replace (x * x) with (sqrt x ^ 4) by (transitivity (sqrt x * sqrt x * (sqrt x * sqrt x)); [ring|now rewrite E]). apply Rle_pow; [lra|lia].
Qed.
Lemma gl_bound x : 1 <= x -> Rabs (gl x) * (sqrt x ^ 1 * sqrt x) <= 256 / (beta * beta * (beta * beta)).
Proof.
  intros Hx. destruct (ns_bound x ltac:(lra)) as [N0 N1]. assert (Hs : 1 <= sqrt x) by (rewrite <- sqrt_1; apply sqrt_le_1; lra).
  assert (E : sqrt x * sqrt x = x) by (apply sqrt_sqrt; lra). unfold gl. rewrite Rabs_pos_eq by (apply Rmult_le_pos; lra).
  apply Rle_trans with (ns x * (x * x)); [|apply ns_bound2; lra].
  replace (ns x * sqrt x * (sqrt x ^ 1 * sqrt x)) with (ns x * (sqrt x * sqrt x * sqrt x)) by ring. apply Rmult_le_compat_l; [lra|]. rewrite E. nra.
Qed.
Lemma T_zero (g : R -> R) c k D : (0 < k)%nat -> is_derive g m2 D -> filterlim (fun z => c * z ^ k * g (m2 + z * z)) (at_right 0) (locally 0).
Proof.
  intros Hk Hg. apply (tends_eq _ (c * 0 ^ k * g (m2 + 0 * 0))); [rewrite pow_i by auto; ring|].
  pose proof (tends_id_right 0) as L. apply tends_mult; [apply tends_mult; [apply tends_const|now apply tends_pow]|].
  apply (tends_comp g (fun z => m2 + z * z) (m2 + 0 * 0)).
  - rewrite Rmult_0_l, Rplus_0_r. apply (ex_derive_continuous (K := R_AbsRing) (V := R_NormedModule) g m2). now exists D.
  - apply tends_plus; [apply tends_const|now apply tends_mult].
Qed.
End Tadpole.

Lemma bose_ns (x beta : R) : bose_distribution_zero_chempot (sqrt x) beta = ns beta x.
Proof. reflexivity. Qed.
Section Results.
Variables (q m beta : R).
Hypothesis Hq : 0 < q.
Hypothesis Hm : m <> 0.
Hypothesis Hb : 0 < beta.
Let x := m * m + q * q.
Lemma x_pos : 0 < x.
Proof. unfold x. nra. Qed.
Lemma bose_neg_R : bose_distribution_zero_chempot (- sqrt x) beta = - 1 - ns beta x.
Proof.
  pose proof (ns_den beta Hb x x_pos). change (/ (exp (- sqrt x * beta) - 1) = - 1 - ns beta x). unfold ns. rewrite Ropp_mult_distr_l_reverse, exp_Ropp. pose proof (exp_pos (sqrt x * beta)).
  set (y := exp (sqrt x * beta)) in *. field. split; [lra|]. split; lra.
Qed.
Let Hs : 0 < sqrt x := sqrt_lt_R0 x x_pos.
Let Hx : sqrt x * sqrt x = x := sqrt_sqrt x (Rlt_le _ _ x_pos).


Ltac form := intros; unfold j_m_i, j_m_l_i, j_m_t_i, d_j_m_i, d_j_m_l_i, d_j_m_t_i, d2_j_m_i, d2_j_m_l_i, d2_j_m_t_i; cbv zeta; rewrite energy_R; numcbn;
  change PI2 with (PI * PI); unfold gf, gl; rewrite <- ?bose_ns; pose proof PI_neq0; unfold Rdiv; rewrite ?Rinv_mult; try ring.
Lemma f_j mu : j_m_i q mu beta = q * q / (2 * (PI * PI)) * gf beta (mu * mu + q * q).
Proof. form. Qed.
Lemma f_jl mu : j_m_l_i q mu beta = - (q * q / (2 * (PI * PI))) * gl beta (mu * mu + q * q).
Proof. form. Qed.
Lemma f_jt mu : j_m_t_i q mu beta = q * q * (q * q) / (6 * (PI * PI)) * gf beta (mu * mu + q * q).
Proof. form. Qed.
Lemma f_dj mu : d_j_m_i q mu beta = - / (4 * (PI * PI)) * gf beta (mu * mu + q * q).
Proof. form. Qed.
Lemma f_djl mu : d_j_m_l_i q mu beta = / (4 * (PI * PI)) * gl beta (mu * mu + q * q).
Proof. form. Qed.
Lemma f_djt mu : d_j_m_t_i q mu beta = - (q * q / (4 * (PI * PI))) * gf beta (mu * mu + q * q).
Proof. form. Qed.
Lemma f_d2jt mu : d2_j_m_t_i q mu beta = / (8 * (PI * PI)) * gf beta (mu * mu + q * q).
Proof. form. Qed.
Lemma f_d2j : d2_j_m_i q m beta = - / (4 * (PI * PI)) * gf' beta x.
Proof.
  unfold d2_j_m_i. cbv zeta. rewrite energy_R. fold x. rewrite bose_ns. numcbn. rewrite bose_neg_R. change PI2 with (PI * PI). unfold gf'. pose proof PI_neq0.
  replace (ns beta x / x) with (ns beta x / (sqrt x * sqrt x)) by now rewrite Hx. set (s := sqrt x) in *. field. split; [lra|auto].
Qed.
Lemma f_d2jl : d2_j_m_l_i q m beta = / (4 * (PI * PI)) * gl' beta x.
Proof.
  unfold d2_j_m_l_i. cbv zeta. rewrite energy_R. fold x. rewrite bose_ns. numcbn. rewrite bose_neg_R. change PI2 with (PI * PI). unfold gl'. pose proof PI_neq0.
  set (s := sqrt x) in *. field. split; [lra|auto].
Qed.

Ltac tdext := apply is_derive_ext; intros z; rewrite energy_R; change (bose_distribution_zero_chempot (sqrt (m * m + z * z)) beta) with (ns beta (m * m + z * z)); unfold gf, gl; unfold Rdiv; rewrite ?Rinv_mult; ring.
Ltac teq := intros; unfold total_j, total_j_l, total_j_t, total_dj_t, gf, gl, ns; unfold Rdiv; rewrite ?Rinv_mult; ring.
Lemma Tj_eq z : total_j m beta z = / (4 * (PI * PI)) * z ^ 1 * gf beta (m * m + z * z).
Proof. teq. Qed.
Lemma Tl_eq z : total_j_l m beta z = - / (4 * (PI * PI)) * z ^ 1 * gl beta (m * m + z * z).
Proof. teq. Qed.
Lemma Tt_eq z : total_j_t m beta z = / (12 * (PI * PI)) * z ^ 3 * gf beta (m * m + z * z).
Proof. teq. Qed.
Lemma T2t_eq z : total_dj_t m beta z = - / (8 * (PI * PI)) * z ^ 1 * gf beta (m * m + z * z).
Proof. teq. Qed.
Ltac up E F d := eexists; split; [apply (is_derive_ext _ _ _ _ (fun z => eq_sym (E z))); apply td; apply d; auto; apply x_pos
  | eapply (md m Hm _ _ q); [exact F|apply d; auto; apply x_pos|] ].
Lemma r_j : mass_derivative_up_to (fun mu => j_m_i q mu beta) m (d_j_m_i q m beta) (total_j m beta) q.
Proof. up Tj_eq f_j gf_d. rewrite f_dj. pose proof PI_neq0. simpl. field. auto. Qed.
Lemma r_jl : mass_derivative_up_to (fun mu => j_m_l_i q mu beta) m (d_j_m_l_i q m beta) (total_j_l m beta) q.
Proof. up Tl_eq f_jl gl_d. rewrite f_djl. pose proof PI_neq0. simpl. field. auto. Qed.
Lemma r_jt : mass_derivative_up_to (fun mu => j_m_t_i q mu beta) m (d_j_m_t_i q m beta) (total_j_t m beta) q.
Proof. up Tt_eq f_jt gf_d. rewrite f_djt. pose proof PI_neq0. simpl. field. auto. Qed.
Lemma r_d2jt : mass_derivative_up_to (fun mu => d_j_m_t_i q mu beta) m (d2_j_m_t_i q m beta) (total_dj_t m beta) q.
Proof. up T2t_eq f_djt gf_d. rewrite f_d2jt. pose proof PI_neq0. simpl. field. auto. Qed.
Lemma r_d2j : mass_derivative (fun mu => d_j_m_i q mu beta) m (d2_j_m_i q m beta).
Proof. eapply (md m Hm _ _ q); [exact f_dj|apply gf_d; auto; apply x_pos|]. exact f_d2j. Qed.
Lemma r_d2jl : mass_derivative (fun mu => d_j_m_l_i q mu beta) m (d2_j_m_l_i q m beta).
Proof. eapply (md m Hm _ _ q); [exact f_djl|apply gl_d; auto; apply x_pos|]. exact f_d2jl. Qed.
Lemma B0 : 0 <= 256 / (beta * beta * (beta * beta)).
Proof. assert (0 < beta * beta) by nra. apply Rmult_le_pos; [lra|]. left. apply Rinv_0_lt_compat. nra. Qed.
Ltac bd E g d b := split; (eapply filterlim_ext; [intros z; symmetry; apply E|]);
  [ eapply (T_zero m); [lia|apply d; auto; apply (m2_pos m Hm)] | eapply (T_infty m Hm); [lia|apply B0|intros y Hy; apply b; auto] ].
Lemma b_j : no_boundary_term (total_j m beta).
Proof. bd Tj_eq (gf beta) gf_d gf_bound. Qed.
Lemma b_jl : no_boundary_term (total_j_l m beta).
Proof. bd Tl_eq (gl beta) gl_d gl_bound. Qed.
Lemma b_jt : no_boundary_term (total_j_t m beta).
Proof. bd Tt_eq (gf beta) gf_d gf_bound. Qed.
Lemma b_d2jt : no_boundary_term (total_dj_t m beta).
Proof. bd T2t_eq (gf beta) gf_d gf_bound. Qed.
End Results.
