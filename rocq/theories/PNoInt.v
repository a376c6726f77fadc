(** * The ghost self-energy at zero Matsubara frequency: a pole on the integration path *)
From Coq Require Import Reals Lra Lia List Psatz.
From Coquelicot Require Import Coquelicot.
From Verif Require Import Num CField MCommon MConsts MVacuum MThermal MThermalZM MPolar MDress SpecInteg SpecInt SpecLim PCplx PDistr PVac PDress2 PCoh PCoh2 PLogs PMass PMassZ PMass2 PReal PForms PForms2 PCombo PComboR PReg PLim PLimC PJoint PJoint2 PZero PInt PCfg.
Import List ListNotations.
Open Scope R_scope.
Local Notation PI2 := MThermal.PI2.

(** u ln(u^2) -> 0 *)
Lemma ln_le_sqrt y : 0 < y -> ln y <= 2 * sqrt y.
Proof.
  intros H. assert (S : 0 < sqrt y) by now apply sqrt_lt_R0. rewrite <- (sqrt_sqrt y) at 1 by lra. rewrite ln_mult by auto.
  assert (ln (sqrt y) <= sqrt y) by (apply Rle_trans with (sqrt y - 1); [|lra]; pose proof (exp_ineq1_le (ln (sqrt y))) as E; rewrite exp_ln in E by auto; lra). lra.
Qed.
Lemma u_ln u : u <> 0 -> Rabs u <= 1 -> Rabs (u * ln (u * u)) <= 4 * sqrt (Rabs u).
Proof.
  intros Hu H1. assert (A : 0 < Rabs u) by now apply Rabs_pos_lt. replace (u * u) with (Rabs u * Rabs u) by (rewrite <- Rabs_mult; apply Rabs_pos_eq; nra).
  rewrite Rabs_mult. set (a := Rabs u) in *. rewrite ln_mult by auto. assert (L : ln a <= 0) by (rewrite <- ln_1; destruct (Req_dec a 1) as [->|]; [lra|left; apply ln_increasing; lra]).
  rewrite Rabs_left1 by lra. pose proof (ln_le_sqrt (/ a) (Rinv_0_lt_compat _ A)) as B. rewrite ln_Rinv, sqrt_inv in B by auto.
  assert (S : 0 < sqrt a) by now apply sqrt_lt_R0. assert (SS : sqrt a * sqrt a = a) by (apply sqrt_sqrt; lra).
  assert (a * / sqrt a = sqrt a) by (rewrite <- SS at 1; field; lra). nra.
Qed.
Section Pole.
Variables (p m beta : R).
Hypothesis Hp : 0 < p.
Hypothesis Hm : m <> 0.
Hypothesis Hb : 0 < beta.
Definition q2 : R := (p * p + m * m) / (2 * p).
Local Notation F := (locally' q2).
Lemma q2_pos : 0 < q2. Proof. apply Rdiv_lt_0_compat; nra. Qed.
Lemma q2_eq : 2 * q2 * p = p * p + m * m. Proof. unfold q2. field. lra. Qed.
Lemma Tq : tends F (fun x => x) q2.
Proof. intros P HP. unfold filtermap, locally', within. eapply filter_imp; [|exact HP]. auto. Qed.
Lemma m2pos : 0 < m * m. Proof. nra. Qed.
(** The real form of the integrand. *)
Definition hr (q : R) : R :=
  let s := p * p in let m2 := m * m in let i2 := / m * / m in
  - (s - m2) / 4 * d_j_m_i q m beta + (2 * s - m2) * (i2 / 4) * (j_m_i q m beta - j_0_i q beta)
  + - (s + m2) * s * (i2 / 2) * F0 PI2 q 0 p (nE q m beta) (energy q m) (n0 q beta) q (- (m * m))
  + s * s * (i2 / 2) * F0 PI2 q 0 p (n0 q beta) q (n0 q beta) q 0
  + (s + m2) * (s + m2) / 4 * D0 PI2 q 0 p (nE q m beta) (energy q m) (n0 q beta) q (- (m * m)).
Lemma hr_form q : 0 < q -> nonsing q p (m * m) -> nonsing q p (- (m * m)) -> nonsing q p 0 -> zm_ghost_self_energy_thermal_part_landau_i q p m beta = RtoC (hr q).
Proof.
  intros Hq N1 N2 N3. rewrite zm_ghost_combo by auto.
  pose proof (zm_m0_form q p beta Hq Hp m N1 N2) as E. unfold zm_bubbles_m0, FL in E. cbn [map] in E.
  pose proof (zm_zero_form q p beta Hq Hp N3) as E'. unfold zm_bubbles_0, FL in E'. cbn [map] in E'.
  pose proof (f_equal (fun l => nth 0 l (RtoC 0)) E) as A1. pose proof (f_equal (fun l => nth 3 l (RtoC 0)) E) as A2. pose proof (f_equal (fun l => nth 0 l (RtoC 0)) E') as A3. cbn [nth] in A1, A2, A3.
  change toC with RtoC in A2, A3. rewrite A1, A2, A3. unfold GHc, hr. cbv zeta. pushRtoC. reflexivity.
Qed.

Definition u (q : R) : R := p * p + m * m - 2 * q * p.
Lemma u_eq q : u q = - (2 * p) * (q - q2).
Proof. unfold u. rewrite <- q2_eq. ring. Qed.
Definition k1 : R := - (p * p + m * m) * (p * p) * (/ m * / m / 2).
Definition k2 : R := p * p * (p * p) * (/ m * / m / 2).
Definition k3 : R := (p * p + m * m) * (p * p + m * m) / 4.
Definition hA (q : R) : R :=
  - (p * p - m * m) / 4 * d_j_m_i q m beta + (2 * (p * p) - m * m) * (/ m * / m / 4) * (j_m_i q m beta - j_0_i q beta)
  + k1 * (q / (16 * PI2 * p) * (nE q m beta * (2 * LA q 0 p (energy q m) (- (m * m))) + n0 q beta * ln (NP q 0 p q (m * m))))
  + k2 * (q / (16 * PI2 * p) * (n0 q beta * (2 * LA q 0 p q 0) + n0 q beta * (2 * LA q 0 p q 0)))
  + k3 * ((- (nE q m beta * (GP q 0 p (energy q m) (- (m * m)) + GM q 0 p (energy q m) (- (m * m))))
           + q / p * (n0 q beta * GP q 0 p q (m * m) - nE q m beta * (GP q 0 p (energy q m) (- (m * m)) - GM q 0 p (energy q m) (- (m * m))))) / (16 * PI2)).
Definition hB (q : R) : R := k1 * (q / (16 * PI2 * p) * (n0 q beta * -1)).
Definition hC (q : R) : R := k3 * (q / p * (n0 q beta * -2) / (16 * PI2)).
Lemma hr_split q : u q <> 0 -> hr q = hA q + hB q * ln (u q * u q) + hC q / u q.
Proof.
  intros Hu. unfold hr, F0, D0, G0, hA, hB, hC. cbv zeta. fold k1 k2 k3. rewrite !Ropp_involutive, Ropp_0.
  assert (E1 : LA q 0 p q (m * m) = ln (NP q 0 p q (m * m)) / 2 - ln (u q * u q) / 2).
  { unfold LA. rewrite NM0. fold (u q). field. }
  assert (E2 : GM q 0 p q (m * m) = 2 / u q). { unfold GM. rewrite NM0, Sr0. fold (u q). field. auto. }
  rewrite E1, E2. pose proof PI2_neq as Hpi. revert Hpi. generalize PI2. intros pi2 Hpi.
  generalize (LA q 0 p (energy q m) (- (m * m))). generalize (LA q 0 p q 0). intros L0 L1. field. repeat split; auto; lra.
Qed.
Lemma pos_sq x : x <> 0 -> 0 < x * x. Proof. nra. Qed.
Lemma A_lim : tends F hA (hA q2).
Proof.
  pose proof q2_pos as Hq. pose proof q2_eq as E2. pose proof m2pos as Hm2. assert (Hp2 : 0 < p * p) by nra. assert (Hb' : beta <> 0) by lra. pose proof PI2_neq as Hpi.
  pose proof (energy_tends (fun x => x) q2 Tq m) as Te.
  pose proof (nE_tends (fun x => x) q2 Tq Hq m beta Hb') as TE. pose proof (n0_tends (fun x => x) q2 Tq Hq beta Hb') as T0.
  pose proof (tadpole_joint (fun x => x) q2 beta Tq Hq Hb' m 0) as Jm. pose proof (tadpole_joint (fun x => x) q2 beta Tq Hq Hb' m 3) as Jd. unfold tadpoles in Jm, Jd. cbn [nth] in Jm, Jd.
  assert (Jz : tends F (fun x => j_0_i x beta) (j_0_i q2 beta)).
  { unfold j_0_i. apply tends_div; [revert Hpi; generalize PI2; intros; lra| |apply tends_const]. apply tends_mult; [|apply Tq]. apply bose_tends; auto; [lra|apply Tq]. }
  assert (N : forall e d, p * p + d + 2 * q2 * p <> 0 -> 0 < NP q2 0 p e d) by (intros; rewrite NP0; now apply pos_sq).
  assert (M : forall e d, p * p + d - 2 * q2 * p <> 0 -> 0 < NM q2 0 p e d) by (intros; rewrite NM0; now apply pos_sq).
  assert (TN : forall fe e d, tends F fe e -> tends F (fun x => NP x 0 p (fe x) d) (NP q2 0 p e d)) by (intros; unfold NP, Sr; pose proof Tq; tendf).
  assert (TM : forall fe e d, tends F fe e -> tends F (fun x => NM x 0 p (fe x) d) (NM q2 0 p e d)) by (intros; unfold NM, Sr; pose proof Tq; tendf).
  assert (TL : forall fe e d, tends F fe e -> p * p + d + 2 * q2 * p <> 0 -> p * p + d - 2 * q2 * p <> 0 -> tends F (fun x => LA x 0 p (fe x) d) (LA q2 0 p e d)).
  { intros fe e d H A B. apply (LA_tends (fun x => x) (fun _ => 0) (fun _ => p) q2 0 p Tq (tends_const 0) (tends_const p) fe e d H); auto. }
  assert (TP : forall fe e d, tends F fe e -> p * p + d + 2 * q2 * p <> 0 -> tends F (fun x => GP x 0 p (fe x) d) (GP q2 0 p e d)).
  { intros fe e d H A. unfold GP. apply tends_div; [apply Rgt_not_eq, N, A| |now apply TN]. unfold Sr. pose proof Tq. tendf. }
  assert (TG : forall fe e d, tends F fe e -> p * p + d - 2 * q2 * p <> 0 -> tends F (fun x => GM x 0 p (fe x) d) (GM q2 0 p e d)).
  { intros fe e d H A. unfold GM. apply tends_div; [apply Rgt_not_eq, M, A| |now apply TM]. unfold Sr. pose proof Tq. tendf. }

  pose proof (TL _ _ (- (m * m)) Te ltac:(cbv beta; lra) ltac:(lra)) as L1. pose proof (TL _ _ 0 Tq ltac:(lra) ltac:(lra)) as L0.
  pose proof (TP _ _ (- (m * m)) Te ltac:(lra)) as P1. pose proof (TG _ _ (- (m * m)) Te ltac:(lra)) as M1. pose proof (TP _ _ (m * m) Tq ltac:(lra)) as P2.
  assert (LN : tends F (fun x => ln (NP x 0 p x (m * m))) (ln (NP q2 0 p q2 (m * m)))) by (apply tends_ln; [exact _|apply N; lra|exact (TN _ _ (m * m) Tq)]).
  assert (D1 : 16 * PI2 <> 0) by (revert Hpi; generalize PI2; intros; lra). assert (D2 : 16 * PI2 * p <> 0) by (apply Rmult_integral_contrapositive_currified; [exact D1|lra]).
  pose proof Tq as T. unfold hA. cbv beta in *.
  assert (Tw : tends F (fun x => x / (16 * PI2 * p)) (q2 / (16 * PI2 * p))) by (apply tends_div; [exact D2|exact T|apply tends_const]).
  assert (Tr : tends F (fun x => x / p) (q2 / p)) by (apply tends_div; [lra|exact T|apply tends_const]).
  repeat first [apply tends_plus | apply tends_minus | assumption | apply tends_const | apply tends_opp | apply tends_mult | apply tends_div; [exact D1| |apply tends_const]].
Qed.

Lemma near_pole : F (fun q => 0 < q /\ u q <> 0 /\ Rabs (u q) <= 1 /\ nonsing q p (m * m) /\ nonsing q p (- (m * m)) /\ nonsing q p 0).
Proof.
  pose proof q2_pos as Hq. pose proof q2_eq as E2. pose proof m2pos as Hm2. assert (Hp2 : 0 < p * p) by nra.
  set (d := Rmin (q2 / 2) (Rmin (1 / (2 * p)) (Rmin (m * m / (4 * p)) (p / 4)))).
  assert (D1 : d <= q2 / 2) by apply Rmin_l. assert (D2 : d <= 1 / (2 * p)) by (eapply Rle_trans; [apply Rmin_r|apply Rmin_l]).
  assert (D3 : d <= m * m / (4 * p)) by (eapply Rle_trans; [apply Rmin_r|]; eapply Rle_trans; [apply Rmin_r|apply Rmin_l]).
  assert (D4 : d <= p / 4) by (eapply Rle_trans; [apply Rmin_r|]; eapply Rle_trans; [apply Rmin_r|apply Rmin_r]).
  assert (D0 : 0 < d) by (repeat apply Rmin_glb_lt; try lra; apply Rdiv_lt_0_compat; lra).
  exists (mkposreal d D0). intros q Hball Hne. assert (H : Rabs (q - q2) < d) by exact Hball. apply Rabs_def2 in H.
  assert (U : Rabs (2 * p * (q - q2)) < 2 * p * d) by (rewrite Rabs_mult, Rabs_pos_eq by lra; apply Rmult_lt_compat_l; [lra|]; exact Hball).
  assert (U1 : 2 * p * d <= 1). { replace 1 with (2 * p * (1 / (2 * p))) by (field; lra). apply Rmult_le_compat_l; lra. }
  assert (U2 : 2 * p * d <= m * m / 2). { replace (m * m / 2) with (2 * p * (m * m / (4 * p))) by (field; lra). apply Rmult_le_compat_l; lra. }
  assert (U3 : 2 * p * d <= p * p / 2) by (replace (p * p / 2) with (2 * p * (p / 4)) by field; apply Rmult_le_compat_l; lra).
  apply Rabs_def2 in U. assert (V : u q <> 0) by (rewrite u_eq; apply Rmult_integral_contrapositive_currified; lra).
  assert (X : 2 * q * p = p * p + m * m + 2 * p * (q - q2)) by (rewrite <- E2; ring).
  split; [lra|]. split; [exact V|]. split; [rewrite u_eq; apply Rabs_le; lra|]. unfold nonsing. unfold u in V. repeat split; lra.
Qed.
Lemma u_lim : tends F u 0.
Proof. apply (tends_ext (fun q => - (2 * p) * (q - q2))); [apply filter_forall; intros; symmetry; apply u_eq|]. apply (tends_eq _ (- (2 * p) * (q2 - q2))); [ring|]. pose proof Tq. tend. Qed.
Lemma residue : tends F (fun q => (q - q2) * fst (zm_ghost_self_energy_thermal_part_landau_i q p m beta)) (q2 * q2 / (16 * (PI * PI)) * / (exp (beta * q2) - 1)).
Proof.
  pose proof q2_pos as Hq. pose proof q2_eq as E2. assert (Hb' : beta <> 0) by lra. pose proof PI2_neq as Hpi.
  assert (D1 : 16 * PI2 <> 0) by (revert Hpi; generalize PI2; intros; lra). assert (D2 : 16 * PI2 * p <> 0) by (apply Rmult_integral_contrapositive_currified; [exact D1|lra]).
  pose proof (n0_tends (fun x => x) q2 Tq Hq beta Hb') as T0. cbv beta in T0. pose proof Tq as T.
  assert (TB : tends F hB (hB q2)). { unfold hB. apply tends_mult; [apply tends_const|]. apply tends_mult; [apply tends_div; [exact D2|exact T|apply tends_const]|]. apply tends_mult; [exact T0|apply tends_const]. }
  assert (TC : tends F hC (hC q2)). { unfold hC. apply tends_mult; [apply tends_const|]. apply tends_div; [exact D1| |apply tends_const]. apply tends_mult; [apply tends_div; [lra|exact T|apply tends_const]|]. apply tends_mult; [exact T0|apply tends_const]. }
  assert (TU : tends F (fun q => u q * ln (u q * u q)) 0).
  { apply (tends_squeeze0 _ (fun q => 4 * sqrt (Rabs (u q)))).
    - generalize near_pole. apply filter_imp. intros q (_ & H & H' & _). now apply u_ln.
    - apply (tends_eq _ (4 * sqrt (Rabs 0))); [rewrite Rabs_R0, sqrt_0; ring|]. apply tends_mult; [apply tends_const|]. apply (tends_comp sqrt); [apply continuous_sqrt|].
      apply (tends_comp Rabs); [apply continuous_Rabs|apply u_lim]. }
  apply (tends_ext (fun q => - / (2 * p) * (u q * hA q + hB q * (u q * ln (u q * u q)) + hC q))).
  { generalize near_pole. apply filter_imp. intros q (Hq' & Hu & _ & N1 & N2 & N3). rewrite hr_form by auto. cbn [fst RtoC]. rewrite hr_split by auto.
    replace (q - q2) with (- / (2 * p) * u q) by (rewrite u_eq; field; lra). field. split; [auto|lra]. }
  apply (tends_eq _ (- / (2 * p) * (0 * hA q2 + hB q2 * 0 + hC q2))).
  - unfold hC, k3, n0, bose_distribution_zero_chempot, statistic_distribution_exponential_zero_chempot. numcbn. rewrite <- E2. rewrite (Rmult_comm beta).
    assert (exp (q2 * beta) - 1 <> 0). { assert (1 < exp (q2 * beta)) by (rewrite <- exp_0; apply exp_increasing; nra). lra. }
    change PI2 with (PI * PI). pose proof PI_neq0. field. repeat split; auto; lra.
  - apply tends_mult; [apply tends_const|]. apply tends_plus; [|exact TC]. apply tends_plus; [apply tends_mult; [apply u_lim|apply A_lim]|apply tends_mult; [exact TB|exact TU]].
Qed.
Lemma residue_pos : 0 < q2 * q2 / (16 * (PI * PI)) * / (exp (beta * q2) - 1).
Proof.
  pose proof q2_pos as Hq. pose proof PI_RGT_0. apply Rmult_lt_0_compat; [apply Rdiv_lt_0_compat; nra|]. apply Rinv_0_lt_compat.
  assert (1 < exp (beta * q2)) by (rewrite <- exp_0; apply exp_increasing; nra). lra.
Qed.
(** Hence the integrand is unbounded near [q2], whatever the neighbourhood. *)
Lemma unbounded M d : 0 < d -> exists q, 0 < q /\ Rabs (q - q2) < d /\ M < fst (zm_ghost_self_energy_thermal_part_landau_i q p m beta).
Proof.
  intros Hd. pose proof residue_pos as Hc. set (c := q2 * q2 / (16 * (PI * PI)) * / (exp (beta * q2) - 1)) in *.
  assert (B : F (fun q => c / 2 < (q - q2) * fst (zm_ghost_self_energy_thermal_part_landau_i q p m beta))).
  { apply residue. exists (mkposreal (c / 2) ltac:(lra)). intros y Hy. assert (H : Rabs (y - c) < c / 2) by exact Hy. apply Rabs_def2 in H. lra. }
  destruct B as [e He]. pose proof q2_pos as Hq. pose proof (cond_pos e) as He0. pose proof (Rabs_pos M) as HM0. pose proof (Rle_abs M) as HM.
  set (x := Rmin (Rmin (e / 2) (d / 2)) (c / 2 / (Rabs M + 1))).
  assert (X1 : x <= e / 2) by (eapply Rle_trans; [apply Rmin_l|apply Rmin_l]). assert (X2 : x <= d / 2) by (eapply Rle_trans; [apply Rmin_l|apply Rmin_r]).
  assert (X3 : x <= c / 2 / (Rabs M + 1)) by apply Rmin_r. assert (X0 : 0 < x) by (repeat apply Rmin_glb_lt; try lra; apply Rdiv_lt_0_compat; lra).
  exists (q2 + x). split; [lra|]. replace (q2 + x - q2) with x by ring. rewrite Rabs_pos_eq by lra. split; [lra|].
  assert (K : c / 2 < (q2 + x - q2) * fst (zm_ghost_self_energy_thermal_part_landau_i (q2 + x) p m beta)).
  { apply He; [|lra]. change (Rabs (q2 + x - q2) < e). replace (q2 + x - q2) with x by ring. rewrite Rabs_pos_eq; lra. }
  replace (q2 + x - q2) with x in K by ring. set (h := fst _) in *.
  assert (x * (Rabs M + 1) <= c / 2). { apply Rle_trans with (c / 2 / (Rabs M + 1) * (Rabs M + 1)); [apply Rmult_le_compat_r; lra|right; field; lra]. }
  assert (x * (Rabs M + 1) < x * h) by lra. apply Rmult_lt_reg_l in H0; lra.
Qed.
Lemma not_integrable : ~ ex_RInt (compact_R (fun q => fst (zm_ghost_self_energy_thermal_part_landau_i q p m beta))) 0 1.
Proof.
  intros H. destruct (ex_RInt_ub _ 0 1 H) as [M HM]. rewrite Rmin_left, Rmax_right in HM by lra. pose proof q2_pos as Hq.
  destruct (unbounded M 1 ltac:(lra)) as (q & Hq0 & _ & L). specialize (HM (/ (1 + q))).
  assert (T : 0 < / (1 + q)) by (apply Rinv_0_lt_compat; lra). assert (T1 : / (1 + q) < 1) by (apply Rmult_lt_reg_r with (1 + q); [lra|]; rewrite Rinv_l; lra).
  specialize (HM ltac:(lra)). unfold compact_R in HM. replace ((1 - / (1 + q)) / / (1 + q)) with q in HM by (field; lra).
  set (h := fst _) in *. change (Rabs (h / (/ (1 + q)) ^ 2) <= M) in HM. replace (h / (/ (1 + q)) ^ 2) with (h * ((1 + q) * (1 + q))) in HM by (field; lra).
  pose proof (Rle_abs (h * ((1 + q) * (1 + q)))). pose proof (Rabs_pos (h * ((1 + q) * (1 + q)))). assert (0 < h) by lra. nra.
Qed.
End Pole.
(** An exact routine may return anything for a function without an integral. *)
Definition J_any (v : R) : Integrator :=
  {| integrateR := fun f a b _ => if ClassicalDedekindReals.sig_not_dec (ex_RInt f a b) then RInt f a b else v;
     integrateC := integrateC RInt_J |}.
Lemma J_any_exact v : exact_integrator (J_any v).
Proof.
  split; [|apply RInt_J_exact]. intros f a b I w H. cbn [integrateR J_any]. destruct (ClassicalDedekindReals.sig_not_dec (ex_RInt f a b)) as [D|D].
  - now apply is_RInt_unique.
  - exfalso. apply D. now exists w.
Qed.
Lemma undetermined p m beta I v : 0 < p -> m <> 0 -> 0 < beta -> exists J, exact_integrator J /\ zm_ghost_self_energy_w_method J p m beta I = v.
Proof.
  intros Hp Hm Hb. exists (J_any v). split; [apply J_any_exact|]. unfold zm_ghost_self_energy_w_method. cbn [integrateR J_any].
  match goal with |- (if ?D then _ else _) = _ => destruct D as [N|N] end; [|reflexivity]. exfalso. apply N. intros H. apply (not_integrable p m beta Hp Hm Hb).
  eapply (ex_RInt_ext (V := R_NormedModule)); [|exact H]. intros t _. unfold compact_R. cbn [pow]. rewrite Rmult_1_r. numcbn. reflexivity.
Qed.
Lemma undetermined_dressing g p m beta g0 v : 0 < p -> m <> 0 -> 0 < beta -> exists J, exact_integrator J /\ zm_ym_ghost_dressing_inv J g p m beta g0 = v.
Proof.
  intros Hp Hm Hb.
  destruct (undetermined p m beta (get_default_integration_method g) ((v - ym_ghost_dressing_inv_landau (p * p / (m * m)) g0) * (p * p) * (3 / (16 * PI * PI))) Hp Hm Hb) as (J & HJ & E).
  exists J. split; auto. unfold zm_ym_ghost_dressing_inv, zm_ghost_self_energy. rewrite E. unfold PREFACTOR. pose proof PI_neq0. numcbn. field. repeat split; auto; lra.
Qed.
Lemma ex_residue : tends (locally' 1) (fun q => (q - 1) * fst (zm_ghost_self_energy_thermal_part_landau_i q 1 1 1)) (1 / (16 * (PI * PI) * (exp 1 - 1))).
Proof.
  pose proof (residue 1 1 1 ltac:(lra) ltac:(lra) ltac:(lra)) as H. assert (E : q2 1 1 = 1) by (unfold q2; field). rewrite E in H.
  eapply tends_eq; [|exact H]. rewrite Rmult_1_r. pose proof PI_neq0. assert (1 < exp 1) by (rewrite <- exp_0 at 1; apply exp_increasing; lra). field. split; [lra|auto].
Qed.
