(** * Limits uniform in the temperature and the chemical potential: the lists of SpecScale *)
From Coq Require Import Reals Lra Lia List Psatz.
From Coquelicot Require Import Coquelicot.
From Verif Require Import Num CField MCommon MConsts MVacuum MThermal MThermalZM MThermalZP MPolar MDress MQuark SpecInteg SpecInt SpecLim SpecDress SpecHtl SpecHot SpecScale PCplx PDistr PVac PDress PDress2 PInt PCfg PLim PLimC PCold PBound PColdG PColdI PFermi PZpForm PColdQ PColdFin PColdLim PHot PHot2 PHot3 PHotB4 PHotB5 PHotB6 PHotB7 PHotB8 PScale PScale2.
Import List ListNotations.
Open Scope R_scope.

Section Q.
Variables (J : Integrator) (g : globals R) (mq : R) (I : Integral R).
Hypothesis HJ : exact_integrator J.
Hypothesis Hnc : (0 < g_nc g)%nat.
Lemma quark_quad w c (f : R -> R -> R -> C) d : Ob 1 w -> (forall q, 0 < q -> continuous w q) -> tends INF (fun q => w q / q) c -> (forall T mu q, 0 < T -> 0 < q -> f T mu q = RtoC (dT mq mu w (/ T) q)) ->
  quadratic_C (fun T mu => integrateC J (compact_C (f T mu)) 0 1 d) (c * (PI * PI / 6)) (c / 2) 1 /\
  quadratic_R (fun T mu => integrateR J (compact_R (fun q => fst (f T mu q))) 0 1 d) (c * (PI * PI / 6)) (c / 2) 1.
Proof.
  intros O C L E.
  assert (V : forall T mu, 0 < T -> is_RInt (V := C_R_NormedModule) (compact_C (f T mu)) 0 1 (RtoC (RI mq mu (/ T) w))).
  { intros T mu HT. apply (compact_RtoC _ (dT mq mu w (/ T))); [intros; now apply E|]. apply RI_is; auto. now apply Rinv_0_lt_compat. }
  split; [split|].
  - intros eps He. destruct (RI_joint mq w c O C L eps He) as (K & _ & H). exists K. intros T mu HT. rewrite (proj2 HJ _ _ _ _ _ (V T mu HT)), Rmult_1_l. now apply H.
  - intros eps He. exists 0. intros T mu HT. rewrite (proj2 HJ _ _ _ _ _ (V T mu HT)). cbn [snd RtoC]. replace (0 - (0 * (T * T) + 0 * (mu * mu))) with 0 by ring. rewrite Rabs_R0. assert (0 <= T * T) by nra. assert (0 <= mu * mu) by nra. nra.
  - intros eps He. destruct (RI_joint mq w c O C L eps He) as (K & _ & H). exists K. intros T mu HT. rewrite (proj1 HJ _ _ _ _ _ (fst_int _ _ (V T mu HT))), Rmult_1_l. now apply H.
Qed.
Definition qa (h : R) : R := - (h / (2 * INR (g_nc g))).
Definition qc (h : R) : R := - (3 * h / (2 * (PI * PI) * INR (g_nc g))).
Lemma qa_val h : - (3 * h / (PI * PI * INR (g_nc g))) * (PI * PI / 6) = qa h.
Proof. unfold qa. pose proof PI_neq0. assert (INR (g_nc g) <> 0) by (apply not_0_INR; lia). field. auto. Qed.
Lemma qc_val h : - (3 * h / (PI * PI * INR (g_nc g))) / 2 = qc h.
Proof. unfold qc. pose proof PI_neq0. assert (INR (g_nc g) <> 0) by (apply not_0_INR; lia). field. auto. Qed.
Section Om.
Variables (om p : R).
Hypothesis Hom : om <> 0.
Hypothesis Hp : 0 < p.
Lemma QL d : quadratic_C (fun T mu => integrateC J (compact_C (fun q => polarization_quark_l_thermal_part_landau_i (g_nc g) q om p mq (/ T) mu)) 0 1 d) (qa (htl_L om p)) (qc (htl_L om p)) 1 /\
  quadratic_R (fun T mu => integrateR J (compact_R (fun q => fst (polarization_quark_l_thermal_part_landau_i (g_nc g) q om p mq (/ T) mu))) 0 1 d) (qa (htl_L om p)) (qc (htl_L om p)) 1.
Proof.
  rewrite <- qa_val, <- qc_val. apply (quark_quad (wl (g_nc g) om p mq) _ (fun T mu q => polarization_quark_l_thermal_part_landau_i (g_nc g) q om p mq (/ T) mu) d); [now apply wl_Ob|intros; now apply wl_cont|now apply wl_asym|intros; now apply ql_eq].
Qed.
Lemma QT d : quadratic_C (fun T mu => integrateC J (compact_C (fun q => polarization_quark_t_thermal_part_landau_i (g_nc g) q om p mq (/ T) mu)) 0 1 d) (qa (htl_T om p)) (qc (htl_T om p)) 1 /\
  quadratic_R (fun T mu => integrateR J (compact_R (fun q => fst (polarization_quark_t_thermal_part_landau_i (g_nc g) q om p mq (/ T) mu))) 0 1 d) (qa (htl_T om p)) (qc (htl_T om p)) 1.
Proof.
  rewrite <- qa_val, <- qc_val. apply (quark_quad (wt (g_nc g) om p mq) _ (fun T mu q => polarization_quark_t_thermal_part_landau_i (g_nc g) q om p mq (/ T) mu) d); [now apply wt_Ob|intros; now apply wt_cont|now apply wt_asym|intros; now apply qt_eq].
Qed.
Lemma QP d : quadratic_C (fun T mu => integrateC J (compact_C (fun q => toC (zp_polarization_quark_l_thermal_part_landau_i (g_nc g) q om mq (/ T) mu))) 0 1 d) (qa (/ 9)) (qc (/ 9)) 1.
Proof.
  rewrite <- qa_val, <- qc_val. apply (quark_quad (wp (g_nc g) om mq) _ (fun T mu q => toC (zp_polarization_quark_l_thermal_part_landau_i (g_nc g) q om mq (/ T) mu)) d); [now apply wp_Ob|intros; now apply wp_cont|now apply wp_asym|]. intros T mu q HTp Hq. exact (f_equal RtoC (zpl_eq (g_nc g) om mq (/ T) mu q Hq)).
Qed.
Lemma qC_ext f h a c k : (forall T mu, f T mu = h T mu) -> quadratic_C h a c k -> quadratic_C f a c k.
Proof. intros E [A B]. split; (eapply qR_ext; [|eassumption]); intros; cbv beta; now rewrite E. Qed.
Lemma quark_quad_C : Forall (fun x => quadratic_C (fst x) (qa (snd x)) (qc (snd x)) 1) (scale_quark_C J g om p mq I).
Proof.
  assert (H1 := fun T mu => half_line_C J g om p 0 mq (/ T) mu I). unfold half_line_integrals_C in H1; cbv zeta in H1.
  unfold scale_quark_C; cbv zeta. repeat (apply Forall_cons || apply Forall_nil); cbn [fst snd].
  Ltac goC H1 n L := eapply qC_ext; [intros T mu; exact (nth_Forall _ _ n _ (H1 T mu) eq_refl)|exact (L _)].
  - goC H1 8%nat (fun d => proj1 (QL d)).
  - goC H1 9%nat (fun d => proj1 (QL d)).
  - goC H1 10%nat (fun d => proj1 (QT d)).
  - goC H1 11%nat (fun d => proj1 (QT d)).
  - goC H1 16%nat QP.
  - goC H1 17%nat QP.
  - goC H1 18%nat QP.
  - goC H1 19%nat QP.
Qed.
End Om.
Lemma quark_quad_R p : 0 < p -> g_matsubara_reg g <> 0 -> Forall (fun x => quadratic_R (fst x) (qa (snd x)) (qc (snd x)) 1) (scale_quark_R J g p mq I).
Proof.
  intros Hp Hr. assert (H1 := fun T mu => half_line_R J g p 0 mq (/ T) mu I). unfold half_line_integrals_R in H1; cbv zeta in H1.
  unfold scale_quark_R; cbv zeta. repeat (apply Forall_cons || apply Forall_nil); cbn [fst snd].
  Ltac goR H1 n L := eapply qR_ext; [intros T mu; exact (nth_Forall _ _ n _ (H1 T mu) eq_refl)|exact (L _)].
  - goR H1 6%nat (fun d => proj2 (QL (g_matsubara_reg g) p Hr Hp d)).
  - goR H1 7%nat (fun d => proj2 (QL (g_matsubara_reg g) p Hr Hp d)).
  - goR H1 8%nat (fun d => proj2 (QT (g_matsubara_reg g) p Hr Hp d)).
  - goR H1 9%nat (fun d => proj2 (QT (g_matsubara_reg g) p Hr Hp d)).
Qed.
End Q.

(** ** Along a curve *)
Section Curve.
Variables (F : (R -> Prop) -> Prop) (T mu : R -> R) (nc nf : nat).
Context {FF : Filter F}.
Hypothesis Hnc : (0 < nc)%nat.
Hypothesis HT : F (fun x => 0 < T x).
Let D x := gluon_scale nc nf (T x) (mu x).
Hypothesis HD : filterlim D F (Rbar_locally p_infty).
Lemma D_large M : F (fun x => M < D x). Proof. apply (HD (fun y => M < y)). exists M. auto. Qed.
Lemma D_bound t u : 3 / (2 * (PI * PI)) * (t * t + INR nf * (u * u)) <= gluon_scale nc nf t u.
Proof.
  unfold gluon_scale. assert (Hc : 1 <= INR nc) by (apply (le_INR 1); lia). pose proof (pos_INR nf) as Hf. pose proof PI2_1 as P1. assert (P2 : 4 < PI * PI) by nra.
  assert (X : 3 / (2 * (PI * PI)) <= 1) by (apply (Rmult_le_reg_r (2 * (PI * PI))); [lra|]; replace (3 / (2 * (PI * PI)) * (2 * (PI * PI))) with 3 by (field; lra); lra).
  assert (t2 : 0 <= t * t) by nra.
  assert (3 / (2 * (PI * PI)) * (t * t) <= (INR nc + INR nf / 2) * (t * t)) by (apply Rmult_le_compat_r; lra).
  replace (3 * INR nf * (u * u) / (2 * (PI * PI))) with (3 / (2 * (PI * PI)) * (INR nf * (u * u))) by (field; lra). lra.
Qed.
Lemma q_curve f a c l : quadratic_R f a c (INR nf) -> a = l * (INR nc + INR nf / 2) -> c = l * (3 * INR nf / (2 * (PI * PI))) -> tends F (fun x => f (T x) (mu x) / D x) l.
Proof.
  intros H -> -> P [eps HP]. pose proof (cond_pos eps) as He. set (dl := 3 / (2 * (PI * PI))). assert (Hdl : 0 < dl) by (unfold dl; pose proof PI_RGT_0; apply Rdiv_lt_0_compat; nra).
  destruct (H (eps / 2 * dl) ltac:(nra)) as [K HK]. unfold filtermap. generalize (filter_and _ _ HT (filter_and _ _ (D_large 0) (D_large (2 * K / eps)))). apply filter_imp. intros x (HTx & D0 & DK). apply HP.
  change (Rabs (f (T x) (mu x) / D x - l) < eps). specialize (HK (T x) (mu x) HTx).
  replace (l * (INR nc + INR nf / 2) * (T x * T x) + l * (3 * INR nf / (2 * (PI * PI))) * (mu x * mu x)) with (l * D x) in HK by (unfold D, gluon_scale; pose proof PI_neq0; field; auto).
  pose proof (D_bound (T x) (mu x)) as B. fold dl in B. fold (D x) in B.
  replace (f (T x) (mu x) / D x - l) with ((f (T x) (mu x) - l * D x) * / D x) by (field; lra). rewrite Rabs_mult, (Rabs_pos_eq (/ D x)) by (left; now apply Rinv_0_lt_compat).
  apply (Rmult_lt_reg_r (D x)); auto. rewrite Rmult_assoc, Rinv_l, Rmult_1_r by lra.
  apply Rle_lt_trans with (1 := HK). apply (Rmult_lt_compat_r eps) in DK; auto. replace (2 * K / eps * eps) with (2 * K) in DK by (field; lra).
  assert (eps / 2 * (dl * (T x * T x + INR nf * (mu x * mu x))) <= eps / 2 * D x) by (apply Rmult_le_compat_l; lra). nra.
Qed.
Lemma qC_curve f a c l : quadratic_C f a c (INR nf) -> a = l * (INR nc + INR nf / 2) -> c = l * (3 * INR nf / (2 * (PI * PI))) -> tendsC F (fun x => f (T x) (mu x) / RtoC (D x))%C (RtoC l).
Proof.
  intros [A B] Ea Ec. split.
  - eapply tends_ext; [|exact (q_curve _ _ _ l A Ea Ec)]. generalize (D_large 0). apply filter_imp. intros x Hx. cbn. field. nra.
  - eapply tends_ext; [|exact (q_curve _ _ _ 0 B ltac:(ring) ltac:(ring))]. generalize (D_large 0). apply filter_imp. intros x Hx. cbn. field. nra.
Qed.
Lemma inv_D : tends F (fun x => / D x) 0.
Proof.
  intros P [eps HP]. pose proof (cond_pos eps) as He. unfold filtermap. generalize (D_large (/ eps)). apply filter_imp. intros x Hx. apply HP. change (Rabs (/ D x - 0) < eps).
  assert (0 < / eps) by now apply Rinv_0_lt_compat. rewrite Rminus_0_r, Rabs_pos_eq by (left; apply Rinv_0_lt_compat; lra). rewrite <- (Rinv_inv eps). apply Rinv_lt_contravar; [apply Rmult_lt_0_compat; lra|auto].
Qed.
Lemma scaled_C_intro s f l i v P a c : s <> 0 -> l <> 0 -> (forall t u, f t u = (i t u, / i t u, RtoC (/ s) * / i t u)%C) -> (forall t u, i t u = v - RtoC (/ s * PREFACTOR) * P t u)%C -> quadratic_C P a c (INR nf) ->
  - PREFACTOR * a = l * (INR nc + INR nf / 2) -> - PREFACTOR * c = l * (3 * INR nf / (2 * (PI * PI))) -> scaled_C F T mu nc nf s f l.
Proof.
  intros Hs Hl Ef Ei HP Ea Ec. assert (HPF := PREF_pos).
  assert (H : tendsC F (fun x => i (T x) (mu x) / RtoC (D x))%C (RtoC (l / s))).
  { assert (Q : tendsC F (fun x => P (T x) (mu x) / RtoC (D x))%C (RtoC (- l / PREFACTOR))).
    { apply (qC_curve P a c); auto; apply (Rmult_eq_reg_l (- PREFACTOR)); try lra; [rewrite Ea|rewrite Ec]; field; repeat split; try lra; apply PI_neq0. }
    apply (tendsC_ext (fun x => v * RtoC (/ D x)%R - RtoC (/ s * PREFACTOR)%R * (P (T x) (mu x) / RtoC (D x)))%C).
    - generalize (D_large 0). apply filter_imp. intros x Hx. rewrite Ei, RtoC_inv by lra. unfold Cdiv. ring.
    - eapply tendsC_eq; [|apply tendsC_minus; [apply tendsC_mult; [apply tendsC_const|apply tendsC_RtoC, inv_D]|apply tendsC_mult; [apply tendsC_const|exact Q]]].
      rewrite <- RtoC_mult. replace (/ s * PREFACTOR * (- l / PREFACTOR)) with (- (l / s)) by (field; lra). rewrite RtoC_opp. lazymatch goal with |- ?a = ?b => change (@eq C a b) end. ring. }
  assert (N : RtoC (l / s) <> RtoC 0). { intros E. apply RtoC_inj in E. unfold Rdiv in E. apply Rmult_integral in E. destruct E as [E|E]; [auto|]. now apply Rinv_neq_0_compat in E. }
  assert (DD : tendsC F (fun x => RtoC (D x) * / i (T x) (mu x))%C (RtoC (s / l))).
  { apply (tendsC_ext (fun x => / (i (T x) (mu x) / RtoC (D x)))%C).
    - generalize (D_large 0). apply filter_imp. intros x Hx. assert (Nt : RtoC (D x) <> RtoC 0) by (intros E; apply RtoC_inj in E; lra).
      destruct (Ceq_dec (i (T x) (mu x)) (RtoC 0)) as [->|N']; [|field; auto]. unfold Cdiv. rewrite Cmult_0_l, Cinv_00. ring.
    - eapply tendsC_eq; [|apply (tendsC_inv _ _ N H)]. rewrite <- RtoC_inv by (intros E; now apply N, f_equal). f_equal. field. auto. }
  unfold scaled_C; cbv zeta beta. split; [|split].
  - eapply tendsC_ext; [|exact H]. apply filter_forall. intros t. now rewrite Ef.
  - eapply tendsC_ext; [|exact DD]. apply filter_forall. intros t. now rewrite Ef.
  - eapply tendsC_ext; [|eapply tendsC_eq; [|apply (tendsC_mult _ _ _ _ (tendsC_const (RtoC (/ s))) DD)]]; [apply filter_forall; intros t; rewrite Ef; cbn [snd]; fold (D t); ring|].
    rewrite <- RtoC_mult. f_equal. field. auto.
Qed.
Lemma scaled_R_intro s f l i v P a c : s <> 0 -> l <> 0 -> (forall t u, f t u = (i t u, / i t u, / i t u / s)) -> (forall t u, i t u = v - PREFACTOR * P t u / s) -> quadratic_R P a c (INR nf) ->
  - PREFACTOR * a = l * (INR nc + INR nf / 2) -> - PREFACTOR * c = l * (3 * INR nf / (2 * (PI * PI))) -> scaled_R F T mu nc nf s f l.
Proof.
  intros Hs Hl Ef Ei HP Ea Ec. assert (HPF := PREF_pos).
  assert (H : tends F (fun x => i (T x) (mu x) / D x) (l / s)).
  { assert (Q : tends F (fun x => P (T x) (mu x) / D x) (- l / PREFACTOR)).
    { apply (q_curve P a c); auto; apply (Rmult_eq_reg_l (- PREFACTOR)); try lra; [rewrite Ea|rewrite Ec]; field; repeat split; try lra; apply PI_neq0. }
    apply (tends_ext (fun x => v * (/ D x) - / s * PREFACTOR * (P (T x) (mu x) / D x))).
    - apply filter_forall. intros x. rewrite Ei. unfold Rdiv. ring.
    - eapply tends_eq; [|apply tends_minus; [apply tends_mult; [apply tends_const|apply inv_D]|apply tends_mult; [apply tends_const|exact Q]]]. field. lra. }
  assert (N : l / s <> 0). { intros E. unfold Rdiv in E. apply Rmult_integral in E. destruct E as [E|E]; [auto|]. now apply Rinv_neq_0_compat in E. }
  assert (DD : tends F (fun x => D x * / i (T x) (mu x)) (s / l)).
  { apply (tends_ext (fun x => / (i (T x) (mu x) / D x))).
    - apply filter_forall. intros x. unfold Rdiv. rewrite Rinv_mult, Rinv_inv. ring.
    - eapply tends_eq; [|apply (tends_inv _ _ N H)]. field. auto. }
  unfold scaled_R; cbv zeta beta. split; [|split].
  - eapply tends_ext; [|exact H]. apply filter_forall. intros t. now rewrite Ef.
  - eapply tends_ext; [|exact DD]. apply filter_forall. intros t. now rewrite Ef.
  - eapply tends_ext; [|eapply tends_eq; [|apply (tends_mult _ _ _ _ (tends_const (/ s)) DD)]]; [apply filter_forall; intros t; rewrite Ef; cbn [snd]; fold (D t); unfold Rdiv; ring|].
    field. auto.
Qed.
End Curve.
