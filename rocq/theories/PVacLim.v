(** * Vacuum functions: infrared and ultraviolet limits *)
From Coq Require Import Reals List Psatz.
From Coquelicot Require Import Coquelicot.
From Verif Require Import Num CField MConsts MVacuum SpecVac PCplx PVac PVac2 PVac3 PLim.
Import List ListNotations.
Open Scope R_scope.

Definition av (s : R) : R := sqrt (/ s * 4 + 1).
Definition xv (s : R) : R := / av s.

Lemma av_sqr s : 0 < s -> av s * av s = / s * 4 + 1.
Proof. intros H. unfold av. apply sqrt_sqrt. pose proof (Rinv_0_lt_compat s H). lra. Qed.
Lemma av_gt_1 s : 0 < s -> 1 < av s.
Proof. apply a_gt_1. Qed.
Lemma xv_pos s : 0 < s -> 0 < xv s.
Proof. intros H. apply Rinv_0_lt_compat. pose proof (av_gt_1 s H). lra. Qed.
Lemma xv_sqr s : 0 < s -> xv s * xv s = s / (s + 4).
Proof.
  intros H. pose proof (av_gt_1 s H). unfold xv. rewrite <- Rinv_mult, av_sqr by auto. field. split; [lra|]. lra.
Qed.

Lemma ln_ratio s : 0 < s -> ln ((av s - 1) / (av s + 1)) = - Lx (xv s).
Proof.
  intros H. pose proof (av_gt_1 s H). unfold Lx, xv. rewrite <- ln_Rinv.
  - f_equal. field. lra.
  - replace ((1 + / av s) / (1 - / av s)) with ((av s + 1) / (av s - 1)) by (field; lra). apply Rdiv_lt_0_compat; lra.
Qed.
Lemma ln_half s : 0 < s -> ln ((av s - 1) / 2) * 2 + ln s = ln ((av s - 1) / (av s + 1)).
Proof.
  intros H. pose proof (av_gt_1 s H). pose proof (av_sqr s H).
  assert (0 < (av s - 1) / 2) by lra.
  replace (ln ((av s - 1) / 2) * 2) with (ln ((av s - 1) / 2) + ln ((av s - 1) / 2)) by ring.
  rewrite <- !ln_mult by (auto; apply Rmult_lt_0_compat; auto). f_equal.
  assert (E : s = 4 / (av s * av s - 1)).
  { rewrite H1. field. split; [lra|]. intros E. assert (/ s > 0) by (apply Rinv_0_lt_compat; auto). lra. }
  rewrite E at 3. field. nra.
Qed.

(** ** Zero momentum *)
Lemma xv_right_0 : tends (at_right 0) xv 0.
Proof.
  unfold xv, av. apply (tends_ext (fun s => sqrt (s / (s + 4)))).
  - apply (ev_right _ 0 1); [lra|]. intros s Hs. fold (av s). fold (xv s). rewrite <- xv_sqr by lra. apply sqrt_square.
    apply Rlt_le, xv_pos; lra.
  - assert (I := tends_id_right 0). eapply tends_eq; [|apply (tends_comp sqrt _ (0 / (0 + 4)))].
    + unfold Rdiv. rewrite Rmult_0_l. apply sqrt_0.
    + apply continuous_sqrt.
    + tend. lra.
Qed.
Lemma xv_ev : at_right 0 (fun s => 0 < xv s).
Proof. apply (ev_right _ 0 1); [lra|]. intros; apply xv_pos; lra. Qed.
Lemma Lrem_right_0 : tends (at_right 0) (fun s => Lrem (xv s)) 0.
Proof. apply tends_Lrem; [apply xv_ev|apply xv_right_0]. Qed.
Lemma lnrem_right_0 : tends (at_right 0) lnrem 0.
Proof. apply (tends_lnrem (fun s => s)); [|apply tends_id_right]. apply (ev_right _ 0 1); [lra|]. intros; lra. Qed.

(** a-times-log in terms of the remainder *)
Lemma a_ln_ratio s : 0 < s -> av s * ln ((av s - 1) / (av s + 1)) = - (2 + 2 * (s / (s + 4)) / 3 + s / (s + 4) * Lrem (xv s)).
Proof.
  intros H. rewrite ln_ratio, Lx_eq, <- xv_sqr by auto using xv_pos. pose proof (xv_pos s H).
  replace (av s) with (/ xv s) by (unfold xv; apply Rinv_inv). field. lra.
Qed.
Lemma inv_a_ln_ratio s : 0 < s -> / av s * ln ((av s - 1) / (av s + 1)) =
  - (2 * (s / (s + 4)) + 2 * (s / (s + 4)) * (s / (s + 4)) / 3 + s / (s + 4) * (s / (s + 4)) * Lrem (xv s)).
Proof.
  intros H. rewrite ln_ratio, Lx_eq, <- xv_sqr by auto using xv_pos. fold (xv s). field.
Qed.

Lemma f_q_ir s : 0 < s -> gl_f_q s = 4 / 9 *
  ((/ s - / 2) * (2 + 2 * (s / (s + 4)) / 3 + s / (s + 4) * Lrem (xv s)) - 2 * / s + 5 / 6).
Proof.
  intros H. unfold gl_f_q. numcbn. fold (av s).
  replace ((- / s + 5 / 10) * av s * ln ((av s - 1) / (av s + 1))) with ((- / s + 5 / 10) * (av s * ln ((av s - 1) / (av s + 1)))) by ring.
  rewrite a_ln_ratio by auto. field. lra.
Qed.
Lemma f_q_ir' s : 0 < s -> gl_f_q s = 4 / 9 *
  ((2 / 3 + Lrem (xv s)) * / (s + 4) - / 2 * (2 + 2 * (s * / (s + 4)) / 3 + s * / (s + 4) * Lrem (xv s)) + 5 / 6).
Proof. intros H. rewrite f_q_ir by auto. field. lra. Qed.

Lemma f_q_crossed_ir s : 0 < s -> gl_f_q_crossed s = 4 / 9 *
  (4 * / s - 1 / 6 - (/ s + 1 / 2 + 8 * / (s * s)) * (2 * (s / (s + 4)) + 2 * (s / (s + 4)) * (s / (s + 4)) / 3 + s / (s + 4) * (s / (s + 4)) * Lrem (xv s))).
Proof.
  intros H. unfold gl_f_q_crossed. numcbn. fold (av s).
  replace ((/ s + 5 / 10 + / s * / s * 8) / av s * ln ((av s - 1) / (av s + 1))) with ((/ s + 5 / 10 + / s * / s * 8) * (/ av s * ln ((av s - 1) / (av s + 1)))) by (unfold Rdiv; ring).
  rewrite inv_a_ln_ratio by auto. field. lra.
Qed.
Lemma f_q_crossed_ir' s : 0 < s -> gl_f_q_crossed s = 4 / 9 *
  (4 * / (s + 4) - 1 / 6 - (1 + s / 2) * / (s + 4) * (2 + 2 * s * / (s + 4) / 3 + s * / (s + 4) * Lrem (xv s)) - 8 * / (s + 4) * / (s + 4) * (2 / 3 + Lrem (xv s))).
Proof. intros H. rewrite f_q_crossed_ir by auto. field. lra. Qed.

Lemma f_q_0 : tends (at_right 0) gl_f_q 0.
Proof.
  eapply tends_ext; [apply (ev_right _ 0 1); [lra|]; intros s Hs; symmetry; apply f_q_ir'; lra|].
  assert (I := tends_id_right 0). assert (L := Lrem_right_0).
  eapply tends_eq; [|tend; lra]. field.
Qed.
Lemma f_q_crossed_0 : tends (at_right 0) gl_f_q_crossed 0.
Proof.
  eapply tends_ext; [apply (ev_right _ 0 1); [lra|]; intros s Hs; symmetry; apply f_q_crossed_ir'; lra|].
  assert (I := tends_id_right 0). assert (L := Lrem_right_0).
  eapply tends_eq; [|tend; lra]. field.
Qed.

(** ** Crossed quark function as a derivative *)
Lemma f_q_derive s : 0 < s ->
  is_derive gl_f_q s (4 / 9 * (ln ((av s - 1) / (av s + 1)) * (av s / (s * s) - / (s * s * av s) + 2 / (s * s * s * av s)) - / (2 * s) + 3 / (s * s))).
Proof.
  intros H. pose proof (av_gt_1 s H) as A. pose proof (av_sqr s H) as Q. unfold gl_f_q. numcbn.
  assert (0 < / s * 4 + 1) by (pose proof (Rinv_0_lt_compat s H); lra).
  unfold av in A, Q. auto_derive.
  - fold (av s) in *. repeat split; try lra. apply Rmult_lt_0_compat; [lra|apply Rinv_0_lt_compat; lra].
  - fold (av s) in *. set (l := ln _). clearbody l. set (a := av s) in *. clearbody a.
    assert (E : s = 4 / (a * a - 1)).
    { rewrite Q. field. split; [lra|]. intros E. assert (/ s > 0) by (apply Rinv_0_lt_compat; auto). lra. }
    clear Q H H0. subst s. field. repeat split; nra.
Qed.

Lemma f_q_crossed_derive s : 0 < s -> exists d, is_derive gl_f_q s d /\ gl_f_q_crossed s = gl_f_q s + 2 * s * d.
Proof.
  intros H. eexists. split; [apply f_q_derive; auto|]. unfold gl_f_q, gl_f_q_crossed. numcbn. fold (av s).
  pose proof (av_gt_1 s H) as A. pose proof (av_sqr s H) as Q.
  set (l := ln _). clearbody l. set (a := av s) in *. clearbody a.
  assert (E : s = 4 / (a * a - 1)).
  { rewrite Q. field. split; [lra|]. intros E. assert (/ s > 0) by (apply Rinv_0_lt_compat; auto). lra. }
  clear Q H. subst s. field. repeat split; nra.
Qed.

(** ** Infrared *)
Lemma f_ir s : 0 < s -> s * gl_f s = 5 / 8 + / 72 * (
   - (3 * s ^ 3 - 34 * s ^ 2 - 28 * s - 24) * (2 + 2 * (s * / (s + 4)) / 3 + s * / (s + 4) * Lrem (xv s))
   + (2 * (1 + s) ^ 2 * (- 20 * s + 3 * s ^ 2 + 11) * (1 - s / 2 + s * lnrem s) - 4 * (1 + s) ^ 2 * (- / 2 + lnrem s))
   - 4 * (2 + s) + (2 - 3 * s ^ 2) * (s * ln s)
   - (s + 4) * (s ^ 2 - 20 * s + 12) + (2 * (1 + s) ^ 2 * (- 10 + s) + 2 * (2 + s)) + (2 * s - s ^ 3)).
Proof.
  intros H. unfold gl_f, gl_f_sep, gl_l_a, gl_l_b, gl_l_c, gl_r_a, gl_r_b, gl_r_c. numcbn. fold (av s).
  replace (ln (s + 1)) with (ln (1 + s)) by (f_equal; ring). rewrite (ln1p_eq s) by auto.
  set (q := s * s * 3 - s * 34 - 28 - / s * 24).
  replace (q * av s * (ln ((av s - 1) / 2) * 2 + ln s)) with (q * (av s * (ln ((av s - 1) / (av s + 1))))) by (rewrite <- ln_half by auto; ring).
  rewrite a_ln_ratio by auto. unfold q. generalize (Lrem (xv s)) (lnrem s) (ln s). intros X Y Z. field. lra.
Qed.

Lemma s_f_0 : tends (at_right 0) (fun s => s * gl_f s) (5 / 8).
Proof.
  eapply tends_ext; [apply (ev_right _ 0 1); [lra|]; intros s Hs; symmetry; apply f_ir; lra|].
  assert (I := tends_id_right 0). assert (L := Lrem_right_0). assert (M := lnrem_right_0). assert (N := xlnx_right_0).
  eapply tends_eq; [|tend; lra]. simpl pow. field.
Qed.

Lemma f_xi_ir s : 0 < s -> s * gl_f_xi s = 1 / 4 - / 12 * (2 * s * (s * ln s)
  - 2 * ((- 1 - s ^ 2 + s ^ 3) + (1 - s) * (1 - s ^ 3) * (- / 2 + lnrem s)) + 3 * s - 3).
Proof.
  intros H. unfold gl_f_xi, gl_f_xi_sep. numcbn.
  replace (ln (s + 1)) with (ln (1 + s)) by (f_equal; ring). rewrite (ln1p_eq s) by auto.
  generalize (lnrem s) (ln s). intros Y Z. field. lra.
Qed.
Lemma s_f_xi_0 : tends (at_right 0) (fun s => s * gl_f_xi s) (1 / 4).
Proof.
  eapply tends_ext; [apply (ev_right _ 0 1); [lra|]; intros s Hs; symmetry; apply f_xi_ir; lra|].
  assert (I := tends_id_right 0). assert (M := lnrem_right_0). assert (N := xlnx_right_0).
  eapply tends_eq; [|tend; lra]. simpl pow. field.
Qed.

Lemma g_ir s : 0 < s -> gh_g s = / 12 * (((2 * (1 + s) ^ 2 * (1 - s / 2 + s * lnrem s)) - (1 + s) ^ 2 * (- / 2 + lnrem s) - (2 + s)) - 2 * (s * ln s) + 2).
Proof.
  intros H. unfold gh_g, gh_g_sep, gh_l_g, gh_r_g. numcbn.
  replace (ln (s + 1)) with (ln (1 + s)) by (f_equal; ring). rewrite (ln1p_eq s) by auto.
  generalize (lnrem s) (ln s). intros Y Z. field. lra.
Qed.
Lemma g_0 : tends (at_right 0) gh_g (5 / 24).
Proof.
  eapply tends_ext; [apply (ev_right _ 0 1); [lra|]; intros s Hs; symmetry; apply g_ir; lra|].
  assert (I := tends_id_right 0). assert (M := lnrem_right_0). assert (N := xlnx_right_0).
  eapply tends_eq; [|tend; lra]. simpl pow. field.
Qed.

(** ** Ultraviolet *)
Definition ty (s : R) : R := (av s - 1) / 2.
Definition al (s : R) : R := (8 - 4 * / s) / (av s + 1 + 2 * / s - 2 * (/ s * / s)).

Lemma ty_pos s : 0 < s -> 0 < ty s.
Proof. intros H. pose proof (av_gt_1 s H). unfold ty. lra. Qed.

Lemma av_uv s : 1 < s -> av s = 1 + 2 * / s - 2 * (/ s) ^ 2 + al s * (/ s) ^ 3.
Proof.
  intros H. pose proof (av_gt_1 s ltac:(lra)). pose proof (av_sqr s ltac:(lra)) as Q. unfold al.
  assert (0 < / s) by (apply Rinv_0_lt_compat; lra). assert (/ s < 1) by (rewrite <- Rinv_1; apply Rinv_lt_contravar; lra).
  set (a := av s) in *. set (t := / s) in *. clearbody a t.
  assert (D : 0 < a + 1 + 2 * t - 2 * (t * t)) by nra.
  apply (Rmult_eq_reg_r (a + 1 + 2 * t - 2 * (t * t))); [|lra].
  replace ((1 + 2 * t - 2 * t ^ 2 + (8 - 4 * t) / (a + 1 + 2 * t - 2 * (t * t)) * t ^ 3) * (a + 1 + 2 * t - 2 * (t * t)))
    with ((1 + 2 * t - 2 * t ^ 2) * (a + 1 + 2 * t - 2 * (t * t)) + (8 - 4 * t) * t ^ 3) by (field; lra).
  replace (a * (a + 1 + 2 * t - 2 * (t * t))) with (a * a + a * (1 + 2 * t - 2 * t ^ 2)) by ring. rewrite Q. ring.
Qed.

Lemma ln_ratio_uv s : 0 < s -> ln ((av s - 1) / (av s + 1)) = - ln s - 2 * ln (1 + ty s).
Proof.
  intros H. pose proof (av_gt_1 s H). pose proof (ty_pos s H).
  replace (- ln s - 2 * ln (1 + ty s)) with (- (ln s + (ln (1 + ty s) + ln (1 + ty s)))) by ring.
  rewrite <- !ln_mult by (try lra; apply Rmult_lt_0_compat; lra).
  rewrite <- ln_Rinv by (repeat apply Rmult_lt_0_compat; lra). f_equal. unfold ty.
  pose proof (av_sqr s H) as Q.
  assert (E : s = 4 / (av s * av s - 1)).
  { rewrite Q. field. split; [lra|]. intros E. assert (/ s > 0) by (apply Rinv_0_lt_compat; auto). lra. }
  rewrite E at 3. field. repeat split; nra.
Qed.

Lemma ln1p_uv s : 0 < s -> ln (s + 1) = ln s + ln (1 + / s).
Proof.
  intros H. pose proof (Rinv_0_lt_compat s H). rewrite <- ln_mult by lra. f_equal. field. lra.
Qed.

Lemma t_inf : tends INF (fun s => / s) 0.
Proof. apply tends_inv_infty. Qed.
Lemma av_inf : tends INF av 1.
Proof.
  assert (T := t_inf). unfold av. eapply tends_eq; [|apply (tends_comp sqrt (fun s => / s * 4 + 1) (0 * 4 + 1)); [apply continuous_sqrt|tend]].
  replace (0 * 4 + 1) with 1 by ring. apply sqrt_1.
Qed.
Lemma al_inf : tends INF al 4.
Proof. assert (T := t_inf). assert (A := av_inf). unfold al. eapply tends_eq; [|tend; lra]. field. Qed.
Lemma ty_inf : tends INF ty 0.
Proof. assert (A := av_inf). unfold ty. eapply tends_eq; [|tend; lra]. field. Qed.
Lemma lnrem_ty_inf : tends INF (fun s => lnrem (ty s)) 0.
Proof. apply tends_lnrem; [apply (ev_infty _ 0); apply ty_pos|apply ty_inf]. Qed.
Lemma lnrem_t_inf : tends INF (fun s => lnrem (/ s)) 0.
Proof. apply (tends_lnrem (fun s => / s)); [apply (ev_infty _ 0); intros; now apply Rinv_0_lt_compat|apply t_inf]. Qed.

(** [f = A ln s + B] with convergent A, B *)
Lemma f_uv s : 1 < s -> gl_f s =
  let t := / s in let a := al s in
  let w1 := - 1 + a * t / 2 in let w := 1 + t * w1 in
  let P1 := - 28 - 102 * t + (3 * a - 12) * t ^ 2 + (8 - 34 * a) * t ^ 3 + (48 - 28 * a) * t ^ 4 - 24 * a * t ^ 5 in
  let Q1 := - 28 - 52 * t + 14 * t ^ 3 - 4 * t ^ 4 in
  / 72 * ((52 + (12 - 3 * a) * t + (6 + 34 * a) * t ^ 2 + (28 * a - 52) * t ^ 3 + 24 * a * t ^ 4) * ln s
  + (- 2 * (P1 * w + 3 * w1) + Q1 + 2 * (3 + t * P1) * w ^ 2 * (1 / 2 - lnrem (ty s)) - (6 + t * Q1) * (1 / 2 - lnrem (/ s))
     + (34 - 64 * t + 4 * t ^ 2))) + 5 * t / 8.
Proof.
  intros H. cbv zeta. unfold gl_f, gl_f_sep, gl_l_a, gl_l_b, gl_l_c, gl_r_a, gl_r_b, gl_r_c. numcbn. fold (av s).
  rewrite ln1p_uv, ln_half, ln_ratio_uv, !ln1p_eq by (try lra; try (apply Rinv_0_lt_compat; lra); apply ty_pos; lra).
  generalize (lnrem (ty s)) (lnrem (/ s)) (ln s). intros r1 r2 l. unfold ty. rewrite av_uv by auto.
  generalize (al s). intros a. field. lra.
Qed.
Lemma f_xi_uv s : 1 < s -> gl_f_xi s =
  let t := / s in t / 4 - / 12 * ((2 + 2 * t ^ 2 - 2 * t ^ 3) * ln s
    + (- 2 * (1 - t - t ^ 3 + t ^ 4) * (1 - t * (1 / 2 - lnrem (/ s))) + 3 - 3 * t + 2 * t ^ 2)).
Proof.
  intros H. cbv zeta. unfold gl_f_xi, gl_f_xi_sep. numcbn.
  rewrite ln1p_uv, !ln1p_eq by (try lra; apply Rinv_0_lt_compat; lra).
  generalize (lnrem (/ s)) (ln s). intros r2 l. field. lra.
Qed.
Lemma g_uv s : 1 < s -> gh_g s =
  let t := / s in / 12 * ((3 - t ^ 2) * ln s + ((2 + 3 * t - t ^ 3) * (1 - t * (1 / 2 - lnrem (/ s))) + t + 2)).
Proof.
  intros H. cbv zeta. unfold gh_g, gh_g_sep, gh_l_g, gh_r_g. numcbn.
  rewrite ln1p_uv, !ln1p_eq by (try lra; apply Rinv_0_lt_compat; lra).
  generalize (lnrem (/ s)) (ln s). intros r2 l. field. lra.
Qed.
(** the quark functions plus 2/9 ln s *)
Lemma f_q_uv s : 1 < s -> gl_f_q s =
  - (2 / 9) * ln s + 4 / 9 * (let t := / s in let a := al s in
   (1 - (1 / 2 - t) * (2 - 2 * t + a * t ^ 2)) * (ln s * / s)
   - (1 - 2 * t) * av s * (ty s - ty s * ty s / 2 + ty s * ty s * lnrem (ty s)) - 2 * t + 5 / 6).
Proof.
  intros H. cbv zeta. unfold gl_f_q. numcbn. fold (av s).
  rewrite ln_ratio_uv, !ln1p_eq by (try lra; try (apply Rinv_0_lt_compat; lra); apply ty_pos; lra).
  generalize (lnrem (ty s)) (ln s). intros r1 l. unfold ty. rewrite av_uv by auto.
  generalize (al s). intros a. field. lra.
Qed.
Lemma f_q_crossed_uv s : 1 < s -> gl_f_q_crossed s =
  - (2 / 9) * ln s + 4 / 9 * (let t := / s in let a := al s in
   (- 1 + a * t / 2 - 8) * / av s * t * (ln s * / s)
   - 2 * (t + 1 / 2 + 8 * t ^ 2) * / av s * (ty s - ty s * ty s / 2 + ty s * ty s * lnrem (ty s)) + 4 * t - 1 / 6).
Proof.
  intros H. cbv zeta. unfold gl_f_q_crossed. numcbn. fold (av s). pose proof (av_gt_1 s ltac:(lra)) as A.
  rewrite ln_ratio_uv, !ln1p_eq by (try lra; try (apply Rinv_0_lt_compat; lra); apply ty_pos; lra).
  generalize (lnrem (ty s)) (ln s). intros r1 l. unfold ty.
  assert (E := av_uv s H). set (b := av s) in *. clearbody b.
  assert (E' : al s = (b - 1 - 2 * / s + 2 * (/ s) ^ 2) * s ^ 3) by (rewrite E; field; lra).
  rewrite E'. field. split; lra.
Qed.

Ltac uv := assert (T := t_inf); assert (AV := av_inf); assert (AL := al_inf); assert (TY := ty_inf);
  assert (R1 := lnrem_ty_inf); assert (R2 := lnrem_t_inf); assert (LI := ln_div_infty); assert (IL := inv_ln_infty).

Lemma ln_pos s : 1 < s -> 0 < ln s.
Proof. intros. rewrite <- ln_1. apply ln_increasing; lra. Qed.

Lemma uv_split (f A B : R -> R) a b c : a = c -> (forall s, 1 < s -> f s = A s * ln s + B s) ->
  tends INF A a -> tends INF B b -> tends INF (fun s => f s / ln s) c.
Proof.
  intros -> E HA HB. apply (tends_ext (fun s => A s + B s * / ln s)).
  - apply (ev_infty _ 1). intros s Hs. rewrite E by auto. pose proof (ln_pos s Hs). field. lra.
  - assert (IL := inv_ln_infty). eapply tends_eq; [|tend]. ring.
Qed.

Lemma f_inf : tends INF (fun s => gl_f s / ln s) (13 / 18).
Proof.
  eapply (uv_split gl_f (fun s => / 72 * (52 + (12 - 3 * al s) * / s + (6 + 34 * al s) * (/ s) ^ 2 + (28 * al s - 52) * (/ s) ^ 3 + 24 * al s * (/ s) ^ 4))).
  3: uv; tend.
  2: { intros s Hs. rewrite f_uv by auto. cbv zeta.
    rewrite Rmult_plus_distr_l, Rplus_assoc, <- Rmult_assoc. apply f_equal. 
    match goal with |- _ = ?B s => idtac end. reflexivity. }
  2: uv; tend.
  simpl pow. field.
Qed.
Lemma f_xi_inf : tends INF (fun s => gl_f_xi s / ln s) (- (1 / 6)).
Proof.
  eapply (uv_split gl_f_xi (fun s => - / 12 * (2 + 2 * (/ s) ^ 2 - 2 * (/ s) ^ 3))
    (fun s => / s / 4 - / 12 * ((- 2 * (1 - / s - (/ s) ^ 3 + (/ s) ^ 4) * (1 - / s * (1 / 2 - lnrem (/ s))) + 3 - 3 * / s + 2 * (/ s) ^ 2)))).
  3: uv; tend.
  2: { intros s Hs. rewrite f_xi_uv by auto. cbv zeta. ring. }
  2: uv; tend; lra.
  simpl pow. field.
Qed.
Lemma g_inf : tends INF (fun s => gh_g s / ln s) (1 / 4).
Proof.
  eapply (uv_split gh_g (fun s => / 12 * (3 - (/ s) ^ 2))
    (fun s => / 12 * ((2 + 3 * / s - (/ s) ^ 3) * (1 - / s * (1 / 2 - lnrem (/ s))) + / s + 2))).
  3: uv; tend.
  2: { intros s Hs. rewrite g_uv by auto. cbv zeta. ring. }
  2: uv; tend; lra.
  simpl pow. field.
Qed.
Lemma f_q_shift_inf : tends INF (fun s => gl_f_q s + 2 / 9 * ln s) (10 / 27).
Proof.
  eapply tends_ext; [apply (ev_infty _ 1); intros s Hs; symmetry; rewrite f_q_uv by auto; cbv zeta;
    rewrite Rplus_comm, <- Rplus_assoc; replace (2 / 9 * ln s + - (2 / 9) * ln s) with 0 by ring; rewrite Rplus_0_l; reflexivity|].
  uv. eapply tends_eq; [|tend; lra]. simpl pow. field.
Qed.
Lemma f_q_crossed_shift_inf : tends INF (fun s => gl_f_q_crossed s + 2 / 9 * ln s) (- (2 / 27)).
Proof.
  eapply tends_ext; [apply (ev_infty _ 1); intros s Hs; symmetry; rewrite f_q_crossed_uv by auto; cbv zeta;
    rewrite Rplus_comm, <- Rplus_assoc; replace (2 / 9 * ln s + - (2 / 9) * ln s) with 0 by ring; rewrite Rplus_0_l; reflexivity|].
  uv. eapply tends_eq; [|tend; lra]. simpl pow. field.
Qed.
Lemma f_q_inf : tends INF (fun s => gl_f_q s / ln s) (- (2 / 9)).
Proof.
  eapply (uv_split gl_f_q (fun s => - (2 / 9)) (fun s => gl_f_q s + 2 / 9 * ln s)); [reflexivity| |tend|apply f_q_shift_inf].
  intros; ring.
Qed.
Lemma f_q_crossed_inf : tends INF (fun s => gl_f_q_crossed s / ln s) (- (2 / 9)).
Proof.
  eapply (uv_split gl_f_q_crossed (fun s => - (2 / 9)) (fun s => gl_f_q_crossed s + 2 / 9 * ln s)); [reflexivity| |tend|apply f_q_crossed_shift_inf].
  intros; ring.
Qed.
