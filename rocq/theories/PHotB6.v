(** * High-temperature limit of the integrated gluon and ghost loops; positivity of the hard-thermal-loop functions *)
From Coq Require Import Reals Lra Lia List Psatz.
From Coquelicot Require Import Coquelicot.
From Verif Require Import Num CField MCommon MConsts MVacuum MThermal MThermalZM MThermalZP MPolar MDress MQuark SpecInteg SpecInt SpecLim SpecHtl SpecHot PCplx PDistr PVac PInt PCfg PLim PLimC PCold PColdLim PHot PHot2 PHotB4 PHotB5.
Import List ListNotations.
Open Scope R_scope.

Ltac go H1 n L := eapply div_ext; [intros T; exact (nth_Forall _ _ n _ (H1 T) eq_refl)|exact (L _)].
Ltac goR H1 n L := eapply div_extR; [intros T; exact (nth_Forall _ _ n _ (H1 T) eq_refl)|exact (L _)].
Section G.
Variables (J : Integrator) (g : globals R) (m : R) (I : Integral R).
Hypothesis HJ : exact_integrator J.
Hypothesis Hm : m <> 0.
Lemma hot_glue_C_ok om p : om <> 0 -> 0 < p -> Forall (fun x => tendsC INF (fun T => fst x T / RtoC (T * T))%C (RtoC (snd x))) (hot_glue_C J g om p m I).
Proof.
  intros Ho Hp. assert (H1 := fun T => half_line_C J g om p m 0 (/ T) 0 I). unfold half_line_integrals_C in H1; cbv zeta in H1.
  assert (A := fun n d => proj1 (glue_hot J m HJ Hm om p n d Ho Hp)). assert (B := fun n d => zp_glue_hot om m Ho Hm J n d HJ).
  unfold hot_glue_C; cbv zeta. repeat (apply Forall_cons || apply Forall_nil); cbn [fst snd].
  - go H1 0%nat (A 0%nat).
  - go H1 1%nat (A 0%nat).
  - go H1 2%nat (B 0%nat).
  - go H1 3%nat (B 0%nat).
  - go H1 4%nat (A 1%nat).
  - go H1 5%nat (A 1%nat).
  - go H1 6%nat (A 2%nat).
  - go H1 7%nat (A 2%nat).
  - go H1 12%nat (B 1%nat).
  - go H1 13%nat (B 1%nat).
  - go H1 14%nat (B 2%nat).
  - go H1 15%nat (B 2%nat).
Qed.
Lemma hot_glue_R_ok p : 0 < p -> g_matsubara_reg g <> 0 -> Forall (fun x => tends INF (fun T => fst x T / (T * T)) (snd x)) (hot_glue_R J g p m I).
Proof.
  intros Hp Hr. assert (H1 := fun T => half_line_R J g p m 0 (/ T) 0 I). unfold half_line_integrals_R in H1; cbv zeta in H1.
  assert (A := fun n d => proj2 (glue_hot J m HJ Hm (g_matsubara_reg g) p n d Hr Hp)).
  unfold hot_glue_R; cbv zeta. repeat (apply Forall_cons || apply Forall_nil); cbn [fst snd].
  - goR H1 2%nat (A 1%nat).
  - goR H1 3%nat (A 1%nat).
  - goR H1 4%nat (A 2%nat).
  - goR H1 5%nat (A 2%nat).
Qed.
End G.

(** ** Positivity *)
Lemma incr0 (f df : R -> R) y : 0 < y -> (forall x, is_derive f x (df x)) -> (forall x, 0 < x -> 0 < df x) -> f 0 < f y.
Proof.
  intros Hy D P. destruct (MVT_cor2 f df 0 y Hy) as (c & E & C1 & C2).
  - intros c _. apply is_derive_Reals. apply D.
  - pose proof (P c C1). nra.
Qed.
Lemma atan_lt y : 0 < y -> atan y < y.
Proof.
  intros Hy. enough (0 - atan 0 < y - atan y) by (rewrite atan_0 in *; lra).
  apply (incr0 (fun y => y - atan y) (fun y => 1 - / (1 + y ^ 2)) y Hy).
  - intros x. auto_derive; [auto|]. field. nra.
  - intros x Hx. assert (/ (1 + x ^ 2) < 1). { rewrite <- Rinv_1 at 2. apply Rinv_lt_contravar; nra. } lra.
Qed.
Lemma atan_gt y : 0 < y -> y < (1 + y * y) * atan y.
Proof.
  intros Hy. enough (atan 0 - 0 / (1 + 0 * 0) < atan y - y / (1 + y * y)) as H.
  { rewrite atan_0 in H. assert (y / (1 + y * y) < atan y) by lra. apply (Rmult_lt_compat_l (1 + y * y)) in H0; [|nra]. replace ((1 + y * y) * (y / (1 + y * y))) with y in H0 by (field; nra). exact H0. }
  apply (incr0 (fun y => atan y - y / (1 + y * y)) (fun y => 2 * (y * y) / ((1 + y * y) * (1 + y * y))) y Hy).
  - intros x. auto_derive; [nra|]. field. nra.
  - intros x Hx. apply Rdiv_lt_0_compat; nra.
Qed.
(** With x = om / k > 0: the phase is - 2 atan (1 / x). *)
Lemma atan_double y : 0 < y -> atan ((/ y - y) / 2) = PI / 2 - 2 * atan y.
Proof.
  intros Hy. pose proof (atan_bound y) as B. pose proof (atan_increasing 0 y Hy) as B0. rewrite atan_0 in B0. set (t := atan y) in *.
  assert (E : y = tan t) by (symmetry; apply tan_atan). assert (C : 0 < cos t) by (apply cos_gt_0; lra). assert (S : 0 < sin t) by (apply sin_gt_0; lra).
  rewrite <- (atan_tan (PI / 2 - 2 * t)) by lra. f_equal. rewrite E. unfold tan. rewrite sin_shift, cos_shift, sin_2a, cos_2a. field. lra.
Qed.
Lemma phase_pos om k : 0 < om -> 0 < k -> htl_phase om k = - 2 * atan (k / om).
Proof.
  intros Ho Hk. unfold htl_phase. destruct (Rlt_dec 0 om); [|lra]. replace ((om * om - k * k) / (2 * k * om)) with ((/ (k / om) - k / om) / 2) by (field; lra).
  rewrite atan_double by now apply Rdiv_lt_0_compat. ring.
Qed.
Lemma phase_neg om k : 0 < om -> 0 < k -> htl_phase (- om) k = - htl_phase om k.
Proof.
  intros Ho Hk. unfold htl_phase. destruct (Rlt_dec 0 om); [|lra]. destruct (Rlt_dec 0 (- om)); [lra|].
  replace ((- om * - om - k * k) / (2 * k * - om)) with (- ((om * om - k * k) / (2 * k * om))) by (field; lra). rewrite atan_opp. ring.
Qed.
Lemma htl_L_abs om k : om <> 0 -> 0 < k -> htl_L om k = htl_L (Rabs om) k.
Proof.
  intros Ho Hk. unfold Rabs. destruct (Rcase_abs om) as [H|H]; [|reflexivity]. unfold htl_L.
  replace (htl_phase om k) with (htl_phase (- - om) k) by (f_equal; ring). rewrite phase_neg by lra. field. lra.
Qed.
Lemma htl_pos om k : om <> 0 -> 0 < k -> 0 < htl_L om k /\ 0 < htl_T om k.
Proof.
  intros Ho Hk. unfold htl_T. rewrite htl_L_abs by auto. assert (H := Rabs_pos_lt om Ho). set (w := Rabs om) in *. clearbody w.
  assert (Hy : 0 < k / w) by now apply Rdiv_lt_0_compat. set (y := k / w) in *. assert (E : w = k / y) by (unfold y; field; lra).
  pose proof (atan_lt y Hy). pose proof (atan_gt y Hy). unfold htl_L. rewrite phase_pos by auto. fold y. rewrite E. clearbody y. clear E.
  replace ((k / y * (k / y) + k * k) / (3 * (k * k)) * (1 + k / y / (2 * k) * (-2 * atan y))) with ((1 + y * y) * (y - atan y) / (3 * (y * y * y))) by (field; lra).
  split.
  - apply Rdiv_lt_0_compat; [nra|]. assert (0 < y * y) by nra. nra.
  - replace (1 / 6 - (1 + y * y) * (y - atan y) / (3 * (y * y * y)) / 2) with (((1 + y * y) * atan y - y) / (6 * (y * y * y))) by (field; lra).
    apply Rdiv_lt_0_compat; [lra|]. assert (0 < y * y) by nra. nra.
Qed.
