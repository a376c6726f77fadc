(** * Integrals of the Fermi weights *)
From Coq Require Import Reals Psatz Lia.
From Coquelicot Require Import Coquelicot.
From Verif Require Import SpecLim SpecHtl PLim PBasel PWeights.
Open Scope R_scope.

Definition g1 (x : R) : R := x / (exp x + 1).
Lemma g1_c x : continuous g1 x.
Proof. apply (ex_derive_continuous (K := R_AbsRing) (V := R_NormedModule)). unfold g1. pose proof (exp_pos x). auto_derive. lra. Qed.
Lemma g1_split x : 0 < x -> g1 x = bose1 x - bose1 (2 * x).
Proof.
  intros H. unfold g1, bose1. pose proof (bose1_den x H). pose proof (exp_pos x). replace (exp (2 * x)) with (exp x * exp x) by (rewrite <- exp_plus; f_equal; ring).
  field. repeat split; try nra.
Qed.
Lemma g1_int : is_RInt_gen g1 R0 INF (PI * PI / 12).
Proof.
  pose proof (gen_lin _ _ _ _ 1 (- / 2) bose1_int (gen_scale _ _ 2 ltac:(lra) bose1_int)) as H.
  replace (PI * PI / 12) with (1 * (PI * PI / 6) + - / 2 * (PI * PI / 6)) by field. eapply gen_ext; [|exact H].
  intros x Hx. rewrite g1_split by auto. cbv beta. field.
Qed.
Definition I1 (x : R) : R := RInt g1 0 x.
Lemma I1_is a b : is_RInt g1 a b (I1 b - I1 a).
Proof.
  assert (E : forall u v, is_RInt g1 u v (RInt g1 u v)) by (intros; apply (RInt_correct (V := R_CompleteNormedModule)), (ex_RInt_continuous (V := R_CompleteNormedModule)); intros; apply g1_c).
  pose proof (is_RInt_Chasles (V := R_NormedModule) g1 a 0 b (RInt g1 a 0) (RInt g1 0 b) (E a 0) (E 0 b)) as H. unfold I1.
  replace (RInt g1 0 b - RInt g1 0 a) with (plus (RInt g1 a 0) (RInt g1 0 b)); [exact H|].
  rewrite <- (opp_RInt_swap (V := R_CompleteNormedModule) g1 0 a) by (eexists; apply E). unfold plus, opp; simpl. ring.
Qed.
Lemma I1_d x : is_derive I1 x (g1 x).
Proof.
  unfold I1. apply (is_derive_RInt (V := R_NormedModule) g1 (fun x => RInt g1 0 x) 0 x).
  - apply filter_forall. intros y. pose proof (I1_is 0 y) as H. unfold I1 in H. rewrite (RInt_point 0 g1) in H. change (@zero R_NormedModule) with 0 in H. rewrite Rminus_0_r in H. exact H.
  - apply g1_c.
Qed.
Lemma I1_inf : tends INF I1 (PI * PI / 12).
Proof.
  assert (H0 : tends R0 I1 0).
  { apply (tends_eq _ (I1 0)); [unfold I1; apply (RInt_point (V := R_CompleteNormedModule))|]. apply (tends_comp I1); [|apply tends_id_right].
    apply (ex_derive_continuous (K := R_AbsRing) (V := R_NormedModule)). eexists. apply I1_d. }
  intros P [e He].
  destruct (tends_R0_elim _ _ (e / 2) ltac:(pose proof (cond_pos e); lra) H0) as (d1 & Hd1 & K1).
  destruct (gen_elim _ _ g1_int (e / 2) ltac:(pose proof (cond_pos e); lra)) as (d2 & M & Hd2 & K2).
  exists M. intros b Hb. apply He. pose proof (Rmin_l d1 d2). pose proof (Rmin_r d1 d2). assert (0 < Rmin d1 d2) by (apply Rmin_glb_lt; auto).
  set (a := Rmin d1 d2 / 2). specialize (K1 a ltac:(unfold a; lra)). destruct (K2 a b ltac:(unfold a; lra) Hb) as (y & Hy & Hl).
  assert (y = I1 b - I1 a) by (eapply uniq; [exact Hy|apply I1_is]). subst y.
  unfold ball; simpl. unfold AbsRing_ball, abs, minus, plus, opp; simpl. apply Rabs_def2 in K1. apply Rabs_def2 in Hl. apply Rabs_def1; lra.
Qed.
Definition I0 (x : R) : R := ln 2 - ln (1 + exp (- x)).
Lemma I0_d x : is_derive I0 x (/ (exp x + 1)).
Proof. unfold I0. pose proof (exp_pos (- x)). pose proof (exp_pos x). auto_derive; [lra|]. rewrite exp_Ropp in *. field. split; lra. Qed.
Lemma exp_neg_inf : tends INF (fun x => exp (- x)) 0.
Proof.
  apply (tends_squeeze0 _ (fun x => / x)); [|apply tends_inv_infty]. exists 0. intros x Hx. pose proof (exp_pos (- x)). rewrite Rabs_pos_eq by lra.
  rewrite exp_Ropp. pose proof (exp_ineq1 x ltac:(lra)). apply Rinv_le_contravar; lra.
Qed.
Lemma I0_inf : tends INF I0 (ln 2).
Proof.
  unfold I0. apply (tends_eq _ (ln 2 - ln (1 + 0))); [rewrite Rplus_0_r, ln_1; ring|].
  apply tends_minus; [apply tends_const|]. apply (tends_comp ln); [apply continuous_ln; lra|]. apply tends_plus; [apply tends_const|apply exp_neg_inf].
Qed.
Lemma I0_opp nu : I0 (- nu) - I0 nu = - nu.
Proof.
  unfold I0. rewrite Ropp_involutive. pose proof (exp_pos nu). pose proof (exp_pos (- nu)).
  replace (1 + exp nu) with (exp nu * (1 + exp (- nu))) by (rewrite Rmult_plus_distr_l, <- exp_plus; replace (nu + - nu) with 0 by ring; rewrite exp_0; ring).
  rewrite ln_mult, ln_exp by lra. ring.
Qed.
Definition Phi (nu q : R) : R := I1 (q - nu) + nu * I0 (q - nu) + (I1 (q + nu) - nu * I0 (q + nu)).
Definition sea (nu q : R) : R := q / (exp (q - nu) + 1) + q / (exp (q + nu) + 1).
Lemma Phi_d nu q : is_derive (Phi nu) q (sea nu q).
Proof.
  unfold Phi. pose proof (exp_pos (q - nu)). pose proof (exp_pos (q + nu)).
  pose proof (I1_d (q - nu)) as A1. pose proof (I1_d (q + nu)) as A2. pose proof (I0_d (q - nu)) as A3. pose proof (I0_d (q + nu)) as A4.
  auto_derive; [repeat split; eexists; eassumption|].
  change (Derive (fun x => I1 x)) with (Derive I1). change (Derive (fun x => I0 x)) with (Derive I0).
  rewrite (is_derive_unique I1 (q + - nu) (g1 (q - nu))), (is_derive_unique I0 (q + - nu) (/ (exp (q - nu) + 1))), (is_derive_unique I1 _ _ A2), (is_derive_unique I0 _ _ A4) by auto.
  unfold g1, sea. field. split; lra.
Qed.
Lemma Phi_0 nu : Phi nu 0 = - (nu * nu / 2).
Proof.
  set (Psi := fun v => I1 (0 - v) + v * I0 (0 - v) + (I1 (0 + v) - v * I0 (0 + v)) + v * v / 2).
  assert (D : forall v, is_derive Psi v 0).
  { intros v. unfold Psi. pose proof (I1_d (0 - v)) as A1. pose proof (I1_d (0 + v)) as A2. pose proof (I0_d (0 - v)) as A3. pose proof (I0_d (0 + v)) as A4.
    auto_derive; [repeat split; eexists; eassumption|].
    change (Derive (fun x => I1 x)) with (Derive I1). change (Derive (fun x => I0 x)) with (Derive I0).
    rewrite (is_derive_unique I1 (0 + - v) (g1 (0 - v))), (is_derive_unique I0 (0 + - v) (/ (exp (0 - v) + 1))), (is_derive_unique I1 _ _ A2), (is_derive_unique I0 _ _ A4) by auto.
    unfold g1. pose proof (I0_opp v) as E. replace (0 + - v) with (- v) by ring. replace (0 - v) with (- v) by ring. rewrite !Rplus_0_l. pose proof (exp_pos v). pose proof (exp_pos (- v)).
    replace (I0 (- v)) with (I0 v - v) by lra. field. split; lra. }
  assert (E : Psi nu = Psi 0).
  { assert (H : is_RInt (fun _ => 0) 0 nu (Psi nu - Psi 0)) by (apply (ftc Psi); [exact D|intros; apply continuous_const]).
    assert (H' : is_RInt (fun _ : R => 0) 0 nu ((nu - 0) * 0)) by (apply (is_RInt_const (V := R_NormedModule))). pose proof (uniq _ _ _ _ _ H H'). lra. }
  unfold Psi in E. unfold Phi. replace (0 - 0) with 0 in E by ring. rewrite (Rplus_0_l 0) in E. assert (I1 0 = 0) by (unfold I1; apply (RInt_point (V := R_CompleteNormedModule))). rewrite H in E. lra.
Qed.
Lemma tends_shift f l c : tends INF f l -> tends INF (fun x => f (x + c)) l.
Proof. intros H P HP. destruct (H P HP) as [M HM]. exists (M - c). intros x Hx. apply HM. lra. Qed.
Lemma Phi_inf nu : tends INF (Phi nu) (PI * PI / 6).
Proof.
  unfold Phi. pose proof (tends_shift _ _ (- nu) I1_inf) as A1. pose proof (tends_shift _ _ nu I1_inf) as A2. pose proof (tends_shift _ _ (- nu) I0_inf) as A3. pose proof (tends_shift _ _ nu I0_inf) as A4.
  eapply tends_eq; [|apply tends_plus; [apply tends_plus; [exact A1|apply tends_mult; [apply tends_const|exact A3]]|apply tends_minus; [exact A2|apply tends_mult; [apply tends_const|exact A4]]]]. field.
Qed.
Lemma gen_ftc (F f : R -> R) (u v : R) : (forall x, is_derive F x (f x)) -> (forall x, continuous f x) -> tends R0 F u -> tends INF F v -> is_RInt_gen f R0 INF (v - u).
Proof.
  intros H1 H2 H3 H4. apply gen_intro. intros eps He. destruct (tends_R0_elim _ _ (eps / 2) ltac:(lra) H3) as (d & Hd & K1). destruct (tends_INF_elim _ _ (eps / 2) ltac:(lra) H4) as (M & K2).
  exists d, M. split; auto. intros a b Ha Hb. exists (F b - F a). split; [now apply ftc|]. specialize (K1 a Ha). specialize (K2 b Hb). apply Rabs_def2 in K1. apply Rabs_def2 in K2. apply Rabs_def1; lra.
Qed.
Lemma sea_c nu q : continuous (sea nu) q.
Proof. apply (ex_derive_continuous (K := R_AbsRing) (V := R_NormedModule)). unfold sea. pose proof (exp_pos (q + - nu)). pose proof (exp_pos (q + nu)). auto_derive. repeat split; auto; lra. Qed.
Lemma sea_int nu : is_RInt_gen (sea nu) R0 INF (PI * PI / 6 + nu * nu / 2).
Proof.
  replace (PI * PI / 6 + nu * nu / 2) with (PI * PI / 6 - - (nu * nu / 2)) by ring. apply (gen_ftc (Phi nu)); [apply Phi_d|apply sea_c| |apply Phi_inf].
  rewrite <- Phi_0. apply (tends_comp (Phi nu)); [|apply tends_id_right]. apply (ex_derive_continuous (K := R_AbsRing) (V := R_NormedModule)). eexists. apply Phi_d.
Qed.
Lemma fermion_weight_int T mu : 0 < T -> is_RInt_gen (fermion_weight T mu) R0 INF (1 + 3 * (mu * mu) / (PI * PI * (T * T))).
Proof.
  intros HT. pose proof PI_neq0. pose proof (gen_scale _ _ (/ T) (Rinv_0_lt_compat _ HT) (sea_int (mu / T))) as H1.
  pose proof (is_RInt_gen_scal (V := R_NormedModule) _ (6 / (PI * PI)) _ H1) as H2.
  replace (1 + 3 * (mu * mu) / (PI * PI * (T * T))) with (scal (6 / (PI * PI)) (PI * PI / 6 + mu / T * (mu / T) / 2)) by (unfold scal; simpl; unfold mult; simpl; field; split; [lra|auto]).
  eapply gen_ext; [|exact H2]. intros x Hx. unfold scal; simpl. unfold mult; simpl. unfold fermion_weight, sea. replace (/ T * x - mu / T) with ((x - mu) / T) by (field; lra). replace (/ T * x + mu / T) with ((x + mu) / T) by (field; lra).
  pose proof (exp_pos ((x - mu) / T)). pose proof (exp_pos ((x + mu) / T)). field. repeat split; auto; lra.
Qed.
Lemma sea_weight_int mu : is_RInt_gen (sea_weight mu) R0 INF (3 * (mu * mu) / (PI * PI)).
Proof.
  pose proof PI_neq0. destruct (Req_dec mu 0) as [->|Hmu].
  - apply (gen_ext (fun _ => 0)); [intros x Hx; unfold sea_weight; rewrite Rabs_R0; destruct (Rlt_dec x 0); lra|].
    apply gen_intro. intros eps He. exists 1, 1. split; [lra|]. intros a b Ha Hb. exists ((b - a) * 0). split; [apply (is_RInt_const (V := R_NormedModule))|].
    replace ((b - a) * 0 - 3 * (0 * 0) / (PI * PI)) with 0 by (field; auto). now rewrite Rabs_R0.
  - assert (Hp : 0 < Rabs mu) by now apply Rabs_pos_lt. assert (Em : mu * mu = Rabs mu * Rabs mu) by (unfold Rabs; destruct (Rcase_abs mu); ring). rewrite Em. unfold sea_weight. set (M := Rabs mu) in *.
    apply gen_intro. intros eps He. set (c := 3 / (PI * PI)). assert (Hc : 0 < c) by (unfold c; pose proof PI_RGT_0; apply Rdiv_lt_0_compat; nra).
    set (d := Rmin M (Rmin 1 (eps / c))). assert (Hec : 0 < eps / c) by (apply Rdiv_lt_0_compat; auto).
    assert (Hd : 0 < d) by (unfold d; repeat apply Rmin_glb_lt; lra). pose proof (Rmin_l M (Rmin 1 (eps / c))). pose proof (Rmin_r M (Rmin 1 (eps / c))). pose proof (Rmin_l 1 (eps / c)). pose proof (Rmin_r 1 (eps / c)). fold d in H0, H1.
    exists d, M. split; auto. intros a b Ha Hb. exists (c * (M * M) - c * (a * a)). split.
    + assert (A1 : is_RInt (fun x => if Rlt_dec x M then 6 / (PI * PI) * x else 0) a M (c * (M * M) - c * (a * a))).
      { eapply is_RInt_ext; [|apply (ftc (fun x => c * (x * x)) (fun x => 6 / (PI * PI) * x))].
        - intros x Hx. rewrite Rmin_left, Rmax_right in Hx by lra. destruct (Rlt_dec x M); lra.
        - intros x. unfold c. auto_derive; auto. field. auto.
        - intros x. apply (ex_derive_continuous (K := R_AbsRing) (V := R_NormedModule)). auto_derive. auto. }
      assert (A2 : is_RInt (fun x => if Rlt_dec x M then 6 / (PI * PI) * x else 0) M b ((b - M) * 0)).
      { eapply is_RInt_ext; [|apply (is_RInt_const (V := R_NormedModule))]. intros x Hx. rewrite Rmin_left, Rmax_right in Hx by lra. destruct (Rlt_dec x M); lra. }
      pose proof (is_RInt_Chasles (V := R_NormedModule) _ _ _ _ _ _ A1 A2) as A3. replace (c * (M * M) - c * (a * a)) with (plus (c * (M * M) - c * (a * a)) ((b - M) * 0)); [exact A3|]. unfold plus; simpl. ring.
    + replace (c * (M * M) - c * (a * a) - 3 * (M * M) / (PI * PI)) with (- (c * (a * a))) by (unfold c; field; auto). rewrite Rabs_Ropp, Rabs_pos_eq by nra.
      assert (a < eps / c) by lra. assert (c * a < eps) by (replace eps with (c * (eps / c)) by (field; lra); apply Rmult_lt_compat_l; auto). nra.
Qed.
