(** * Limits along a filter: calculus and elementary limits *)
From Coq Require Import Reals Psatz.
From Coquelicot Require Import Coquelicot.
From Verif Require Export SpecLim.
Open Scope R_scope.


Section Calculus.
Context {F : (R -> Prop) -> Prop} {FF : Filter F}.
Lemma tends_const c : tends F (fun _ => c) c.
Proof. apply filterlim_const. Qed.
Lemma tends_plus f g a b : tends F f a -> tends F g b -> tends F (fun x => f x + g x) (a + b).
Proof. intros H1 H2. eapply filterlim_comp_2; [exact H1|exact H2|]. apply (filterlim_plus (V := R_NormedModule)). Qed.
Lemma tends_opp f a : tends F f a -> tends F (fun x => - f x) (- a).
Proof. intros H. eapply filterlim_comp; [exact H|]. apply (filterlim_opp (V := R_NormedModule)). Qed.
Lemma tends_minus f g a b : tends F f a -> tends F g b -> tends F (fun x => f x - g x) (a - b).
Proof. intros H1 H2. apply tends_plus; auto. now apply tends_opp. Qed.
Lemma tends_mult f g a b : tends F f a -> tends F g b -> tends F (fun x => f x * g x) (a * b).
Proof. intros H1 H2. eapply filterlim_comp_2; [exact H1|exact H2|]. apply (filterlim_mult (K := R_AbsRing)). Qed.
Lemma tends_inv f a : a <> 0 -> tends F f a -> tends F (fun x => / f x) (/ a).
Proof.
  intros Ha H. eapply filterlim_comp; [exact H|].
  assert (E : Rbar_locally (Finite a) = locally a) by reflexivity.
  apply (filterlim_Rbar_inv (Finite a)). intros E'. apply Ha. now inversion E'.
Qed.
Lemma tends_div f g a b : b <> 0 -> tends F f a -> tends F g b -> tends F (fun x => f x / g x) (a / b).
Proof. intros Hb H1 H2. apply tends_mult; auto. now apply tends_inv. Qed.
Lemma tends_pow f a n : tends F f a -> tends F (fun x => f x ^ n) (a ^ n).
Proof. intros H. induction n; simpl; [apply tends_const|]. now apply tends_mult. Qed.
Lemma tends_comp h f a : continuous h a -> tends F f a -> tends F (fun x => h (f x)) (h a).
Proof. intros Hh H. eapply filterlim_comp; [exact H|exact Hh]. Qed.
Lemma tends_ext f g l : F (fun x => f x = g x) -> tends F f l -> tends F g l.
Proof. intros H. apply filterlim_ext_loc. exact H. Qed.
Lemma tends_eq f a b : a = b -> tends F f a -> tends F f b.
Proof. now intros ->. Qed.
Lemma tends_squeeze0 f b : F (fun x => Rabs (f x) <= b x) -> tends F b 0 -> tends F f 0.
Proof.
  intros H Hb P [e He].
  unfold filtermap. apply (filter_imp (fun x => Rabs (f x) <= b x /\ ball 0 e (b x))).
  - intros x [H1 H2]. apply He. unfold ball in *; simpl in *. unfold AbsRing_ball, abs, minus, plus, opp in *; simpl in *.
    rewrite Ropp_0, Rplus_0_r in *. eapply Rle_lt_trans; [exact H1|]. eapply Rle_lt_trans; [apply Rle_abs|exact H2].
  - apply filter_and; auto. apply Hb. exists e; auto.
Qed.
End Calculus.

Global Instance at_right_filter' x : Filter (at_right x).
Proof. apply within_filter, locally_filter. Qed.

(** Solves [tends F (fun x => e x) ?l] by following the syntax of [e]. *)
Ltac tend :=
  first
  [ eassumption
  | apply tends_const
  | eapply tends_plus; [tend|tend]
  | eapply tends_minus; [tend|tend]
  | eapply tends_opp; tend
  | eapply tends_mult; [tend|tend]
  | eapply tends_div; [|tend|tend]
  | eapply tends_inv; [|tend]
  | eapply tends_pow; tend ].

(** The same, by syntactic matching (faster on large terms). *)
Ltac tendf :=
  lazymatch goal with
  | |- tends _ (fun _ => ?c) _ => apply tends_const
  | |- tends _ (fun x => x) _ => eassumption
  | |- tends _ (fun x => (@?a x + @?b x)) _ => eapply (tends_plus a b); [tendf|tendf]
  | |- tends _ (fun x => (@?a x - @?b x)) _ => eapply (tends_minus a b); [tendf|tendf]
  | |- tends _ (fun x => (- @?a x)) _ => eapply (tends_opp a); tendf
  | |- tends _ (fun x => (@?a x * @?b x)) _ => eapply (tends_mult a b); [tendf|tendf]
  | |- tends _ (fun x => (@?a x / @?b x)) _ => eapply (tends_div a b); [|tendf|tendf]
  | |- tends _ (fun x => (/ @?a x)) _ => eapply (tends_inv a); [|tendf]
  | |- _ => eassumption
  end.

(** ** Eventually *)
Lemma ev_right (P : R -> Prop) a b : a < b -> (forall x, a < x < b -> P x) -> at_right a P.
Proof.
  intros Hab H. unfold at_right, within, locally.
  assert (Hp : 0 < b - a) by lra. exists (mkposreal _ Hp). intros y Hy Hay. apply H.
  unfold ball in Hy; simpl in Hy. unfold AbsRing_ball, abs, minus, plus, opp in Hy; simpl in Hy.
  apply Rabs_def2 in Hy. lra.
Qed.
Lemma ev_infty (P : R -> Prop) a : (forall x, a < x -> P x) -> Rbar_locally p_infty P.
Proof. intros H. exists a. exact H. Qed.

Lemma tends_id_right a : tends (at_right a) (fun x => x) a.
Proof. intros P HP. unfold filtermap, at_right, within. revert HP. apply filter_imp. auto. Qed.

Lemma tends_inv_infty : tends (Rbar_locally p_infty) (fun s => / s) 0.
Proof. exact (filterlim_Rbar_inv p_infty ltac:(discriminate)). Qed.

(** ** Monotonicity from the derivative *)
Lemma le_of_derive_nonneg (g dg : R -> R) a b : a <= b ->
  (forall t, a <= t <= b -> is_derive g t (dg t)) -> (forall t, a <= t <= b -> 0 <= dg t) -> g a <= g b.
Proof.
  intros Hab Hd Hp. destruct (MVT_gen g a b dg) as (c & Hc & E).
  - rewrite Rmin_left, Rmax_right by auto. intros; apply Hd; lra.
  - rewrite Rmin_left, Rmax_right by auto. intros t Ht. apply continuity_pt_filterlim.
    apply (ex_derive_continuous (V := R_NormedModule)). exists (dg t). now apply Hd.
  - rewrite Rmin_left, Rmax_right in Hc by auto. specialize (Hp c Hc). nra.
Qed.

(** ** Logarithmic expansions *)
Definition Lx (x : R) : R := ln ((1 + x) / (1 - x)).
Definition Lrem (x : R) : R := (Lx x - 2 * x - 2 * x ^ 3 / 3) / x ^ 3.

Lemma Lx_derive x : -1 < x < 1 -> is_derive Lx x (2 / (1 - x * x)).
Proof.
  intros Hx. unfold Lx. auto_derive.
  - split; [lra|]. split; [|auto]. apply Rdiv_lt_0_compat; lra.
  - field. repeat split; nra.
Qed.
Lemma Lx_0 : Lx 0 = 0.
Proof. unfold Lx. replace ((1 + 0) / (1 - 0)) with 1 by field. apply ln_1. Qed.

Lemma Lx_lower x : 0 <= x <= 1 / 2 -> 2 * x + 2 * x ^ 3 / 3 <= Lx x.
Proof.
  intros Hx. pose proof (le_of_derive_nonneg (fun t => Lx t - 2 * t - 2 * t ^ 3 / 3) (fun t => 2 / (1 - t * t) - 2 - 2 * (t * t)) 0 x) as H.
  cbv beta in H. rewrite Lx_0 in H. enough (0 - 2 * 0 - 2 * 0 ^ 3 / 3 <= Lx x - 2 * x - 2 * x ^ 3 / 3) by lra. apply H.
  - lra.
  - intros t Ht. unfold Lx. auto_derive; [repeat split; try lra; apply Rdiv_lt_0_compat; lra|]. field. repeat split; nra.
  - intros t Ht. assert (0 < 1 - t * t) by nra.
    replace (2 / (1 - t * t) - 2 - 2 * (t * t)) with (2 * (t * t) * (t * t) / (1 - t * t)) by (field; nra).
    apply Rmult_le_pos; [nra|]. apply Rlt_le, Rinv_0_lt_compat; auto.
Qed.

Lemma Lx_upper x : 0 <= x <= 1 / 2 -> Lx x <= 2 * x + 2 * x ^ 3 / 3 + x ^ 5.
Proof.
  intros Hx. pose proof (le_of_derive_nonneg (fun t => 2 * t + 2 * t ^ 3 / 3 + t ^ 5 - Lx t) (fun t => 2 + 2 * (t * t) + 5 * t ^ 4 - 2 / (1 - t * t)) 0 x) as H.
  cbv beta in H. rewrite Lx_0 in H. enough (2 * 0 + 2 * 0 ^ 3 / 3 + 0 ^ 5 - 0 <= 2 * x + 2 * x ^ 3 / 3 + x ^ 5 - Lx x) by lra. apply H.
  - lra.
  - intros t Ht. unfold Lx. auto_derive; [repeat split; try lra; apply Rdiv_lt_0_compat; lra|]. field. repeat split; nra.
  - intros t Ht. assert (t * t <= 1 / 4) by nra. assert (0 < 1 - t * t) by nra.
    replace (2 + 2 * (t * t) + 5 * t ^ 4 - 2 / (1 - t * t)) with (((t * t) * (t * t)) * (3 - 5 * (t * t)) / (1 - t * t)) by (field; nra).
    apply Rmult_le_pos; [|apply Rlt_le, Rinv_0_lt_compat; auto]. apply Rmult_le_pos; nra.
Qed.

Lemma Lrem_bound x : 0 < x <= 1 / 2 -> Rabs (Lrem x) <= x * x.
Proof.
  intros Hx. assert (0 < x ^ 3) by (apply pow_lt; lra).
  pose proof (Lx_lower x ltac:(lra)). pose proof (Lx_upper x ltac:(lra)).
  unfold Lrem. rewrite Rabs_pos_eq.
  - apply (Rmult_le_reg_r (x ^ 3)); auto. unfold Rdiv. rewrite Rmult_assoc, Rinv_l by lra.
    replace (x * x * x ^ 3) with (x ^ 5) by ring. lra.
  - apply Rmult_le_pos; [lra|]. apply Rlt_le, Rinv_0_lt_compat; auto.
Qed.

Lemma Lrem_0 : tends (at_right 0) Lrem 0.
Proof.
  apply (tends_squeeze0 _ (fun x => x * x)).
  - apply (ev_right _ 0 (1 / 2)); [lra|]. intros x Hx. apply Lrem_bound. lra.
  - assert (H := tends_id_right 0). eapply tends_eq; [|tend]. ring.
Qed.

Lemma Lx_eq x : 0 < x -> Lx x = 2 * x + 2 * x ^ 3 / 3 + x ^ 3 * Lrem x.
Proof. intros H. unfold Lrem. field. lra. Qed.

(** ln(1+y) = y - y^2/2 + y^2 rho(y) *)
Definition lnrem (y : R) : R := (ln (1 + y) - y + y * y / 2) / (y * y).

Lemma ln1p_lower y : 0 <= y -> y - y * y / 2 <= ln (1 + y).
Proof.
  intros Hy. pose proof (le_of_derive_nonneg (fun t => ln (1 + t) - t + t * t / 2) (fun t => / (1 + t) - 1 + t) 0 y) as H.
  cbv beta in H. rewrite Rplus_0_r, ln_1 in H. enough (0 - 0 + 0 * 0 / 2 <= ln (1 + y) - y + y * y / 2) by lra. apply H; auto.
  - intros t Ht. auto_derive; [lra|]. field. lra.
  - intros t Ht. replace (/ (1 + t) - 1 + t) with (t * t / (1 + t)) by (field; lra).
    apply Rmult_le_pos; [nra|]. apply Rlt_le, Rinv_0_lt_compat; lra.
Qed.
Lemma ln1p_upper y : 0 <= y -> ln (1 + y) <= y - y * y / 2 + y * y * y.
Proof.
  intros Hy. pose proof (le_of_derive_nonneg (fun t => t - t * t / 2 + t * t * t - ln (1 + t)) (fun t => 1 - t + 3 * (t * t) - / (1 + t)) 0 y) as H.
  cbv beta in H. rewrite Rplus_0_r, ln_1 in H. enough (0 - 0 * 0 / 2 + 0 * 0 * 0 - 0 <= y - y * y / 2 + y * y * y - ln (1 + y)) by lra. apply H; auto.
  - intros t Ht. auto_derive; [lra|]. field. lra.
  - intros t Ht. replace (1 - t + 3 * (t * t) - / (1 + t)) with (t * t * (2 + 3 * t) / (1 + t)) by (field; lra).
    apply Rmult_le_pos; [nra|]. apply Rlt_le, Rinv_0_lt_compat; lra.
Qed.
Lemma lnrem_bound y : 0 < y -> Rabs (lnrem y) <= y.
Proof.
  intros Hy. pose proof (ln1p_lower y ltac:(lra)). pose proof (ln1p_upper y ltac:(lra)). unfold lnrem. assert (0 < y * y) by nra. rewrite Rabs_pos_eq.
  - apply (Rmult_le_reg_r (y * y)); auto. unfold Rdiv. rewrite Rmult_assoc, Rinv_l by lra. lra.
  - apply Rmult_le_pos; [lra|]. apply Rlt_le, Rinv_0_lt_compat; auto.
Qed.
Lemma ln1p_eq y : 0 < y -> ln (1 + y) = y - y * y / 2 + y * y * lnrem y.
Proof. intros H. unfold lnrem. field. lra. Qed.

(** Composition with functions tending to 0 from the right *)
Lemma tends_rem_comp {F} {FF : Filter F} (h b : R -> R) (f : R -> R) (c : R) : 0 < c ->
  (forall x, 0 < x <= c -> Rabs (h x) <= b x) -> (forall x, b x = x * x \/ b x = x) -> 
  F (fun x => 0 < f x) -> tends F f 0 -> tends F (fun x => h (f x)) 0.
Proof.
  intros Hc Hh Hb Hp Hf.
  assert (E : F (fun x => f x <= c)).
  { assert (L : locally 0 (fun y => y < c)).
    { exists (mkposreal c Hc). intros y Hy. unfold ball in Hy; simpl in Hy. unfold AbsRing_ball, abs, minus, plus, opp in Hy; simpl in Hy.
      apply Rabs_def2 in Hy. lra. }
    generalize (Hf _ L). unfold filtermap. apply filter_imp. intros; lra. }
  apply (tends_squeeze0 _ (fun x => f x + f x * f x)).
  - generalize (filter_and _ _ Hp E). apply filter_imp. intros x [H1 H2]. specialize (Hh (f x) ltac:(lra)).
    destruct (Hb (f x)) as [B|B]; rewrite B in Hh; nra.
  - eapply tends_eq; [|tend]. ring.
Qed.
Lemma tends_Lrem {F} {FF : Filter F} (f : R -> R) : F (fun x => 0 < f x) -> tends F f 0 -> tends F (fun x => Lrem (f x)) 0.
Proof. intros. apply (tends_rem_comp Lrem (fun x => x * x) f (1 / 2)); auto; try lra. intros; apply Lrem_bound; lra. Qed.
Lemma tends_lnrem {F} {FF : Filter F} (f : R -> R) : F (fun x => 0 < f x) -> tends F f 0 -> tends F (fun x => lnrem (f x)) 0.
Proof. intros. apply (tends_rem_comp lnrem (fun x => x) f 1); auto; try lra. intros; apply lnrem_bound; lra. Qed.

(** ** s ln s, ln s / s, 1 / ln s *)
Lemma ln_div_infty : tends (Rbar_locally p_infty) (fun s => ln s * / s) 0.
Proof. exact is_lim_div_ln_p. Qed.
Lemma inv_ln_infty : tends (Rbar_locally p_infty) (fun s => / ln s) 0.
Proof.
  unfold tends. eapply filterlim_comp; [exact is_lim_ln_p|]. exact (filterlim_Rbar_inv p_infty ltac:(discriminate)).
Qed.
Lemma inv_right_0 : filterlim Rinv (at_right 0) (Rbar_locally p_infty).
Proof. exact filterlim_Rinv_0_right. Qed.
Lemma xlnx_right_0 : tends (at_right 0) (fun s => s * ln s) 0.
Proof.
  apply (tends_ext (fun s => - (ln (/ s) * / (/ s)))).
  - apply (ev_right _ 0 1); [lra|]. intros x Hx. rewrite ln_Rinv by lra. rewrite Rinv_inv. ring.
  - eapply tends_eq; [|apply tends_opp; unfold tends; apply (filterlim_comp _ _ _ Rinv (fun s => ln s * / s) _ _ _ inv_right_0 ln_div_infty)]. ring.
Qed.
