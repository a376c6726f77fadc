(** * Integrability of bounded functions that are continuous inside an interval *)
From Coq Require Import Reals Lra Lia List RList.
From Coquelicot Require Import Coquelicot.
From Verif Require Import PCplx PVac PDistr PInt.
Open Scope R_scope.

(** ** Step functions only matter in the interior *)
Lemma IsStepFun_ext f g a b : a <= b -> (forall x, a < x < b -> f x = g x) -> IsStepFun f a b -> IsStepFun g a b.
Proof.
  intros Hab E [l [lf (H1 & H2 & H3 & H4 & H5)]]. exists l, lf. repeat split; auto.
  intros i Hi x Hx. rewrite Rmin_left in H2 by auto. rewrite Rmax_right in H3 by auto.
  rewrite <- E; [now apply H5|].
  assert (L : (0 < length l)%nat) by lia.
  assert (In1 : In (pos_Rl l i) l) by (apply (proj2 (RList_P3 l _)); exists i; split; [reflexivity|lia]).
  assert (In2 : In (pos_Rl l (S i)) l) by (apply (proj2 (RList_P3 l _)); exists (S i); split; [reflexivity|lia]).
  pose proof (RList_P5 l _ H1 In1). pose proof (RList_P7 l _ H1 In2). destruct Hx. lra.
Qed.

Lemma RI_left f a b M : a < b -> (forall x, a <= x <= b -> Rabs (f x) <= M) ->
  (forall c, a < c < b -> Riemann_integrable f c b) -> Riemann_integrable f a b.
Proof.
  intros Hab HM HI eps.
  assert (HM0 : 0 <= M) by (eapply Rle_trans; [apply Rabs_pos|apply (HM a); lra]).
  destruct eps as [eps He]. cbn [pos].
  set (dl := Rmin ((b - a) / 2) (eps / (2 * (M + 1)))).
  assert (Hd1 : dl <= (b - a) / 2) by apply Rmin_l.
  assert (Hd2 : dl <= eps / (2 * (M + 1))) by apply Rmin_r.
  assert (Hd0 : 0 < dl).
  { apply Rmin_pos; [lra|]. apply Rdiv_lt_0_compat; lra. }
  assert (HMd' : M * dl <= eps / 2).
  { apply Rle_trans with (M * (eps / (2 * (M + 1)))); [apply Rmult_le_compat_l; lra|].
    apply Rmult_le_reg_r with (2 * (M + 1)); [lra|]. replace (M * (eps / (2 * (M + 1))) * (2 * (M + 1))) with (M * eps) by (field; lra). nra. }
  set (c := a + dl). assert (Hc : a < c < b) by (unfold c; lra).
  assert (He2 : 0 < eps / 2) by lra.
  destruct (HI c Hc (mkposreal _ He2)) as (phi & psi & Hp & Hi). cbn [pos] in Hi.
  rewrite Rmin_left, Rmax_right in Hp by lra.
  set (phi' := fun t => if Rle_dec t c then 0 else phi t).
  set (psi' := fun t => if Rle_dec t c then M else psi t).
  assert (S1 : IsStepFun phi' a c).
  { apply (IsStepFun_ext (fct_cte 0)); [lra| |apply StepFun_P4]. intros x Hx. unfold phi', fct_cte. destruct (Rle_dec x c); lra. }
  assert (S2 : IsStepFun phi' c b).
  { apply (IsStepFun_ext phi); [lra| |apply (pre phi)]. intros x Hx. unfold phi'. destruct (Rle_dec x c); [lra|reflexivity]. }
  assert (T1 : IsStepFun psi' a c).
  { apply (IsStepFun_ext (fct_cte M)); [lra| |apply StepFun_P4]. intros x Hx. unfold psi', fct_cte. destruct (Rle_dec x c); lra. }
  assert (T2 : IsStepFun psi' c b).
  { apply (IsStepFun_ext psi); [lra| |apply (pre psi)]. intros x Hx. unfold psi'. destruct (Rle_dec x c); [lra|reflexivity]. }
  assert (S : IsStepFun phi' a b) by (apply StepFun_P41 with c; auto; lra).
  assert (T : IsStepFun psi' a b) by (apply StepFun_P41 with c; auto; lra).
  assert (P : forall t, a <= t <= b -> Rabs (f t - phi' t) <= psi' t).
  { intros t Ht. unfold phi', psi'. destruct (Rle_dec t c); [rewrite Rminus_0_r; now apply HM|]. apply Hp. lra. }
  exists (mkStepFun S), (mkStepFun T). split.
  - rewrite Rmin_left, Rmax_right by lra. exact P.
  - rewrite <- (StepFun_P43 T1 T2 T).
    assert (A1 : RiemannInt_SF (mkStepFun T1) <= M * (c - a)).
    { rewrite <- StepFun_P18. apply StepFun_P37; [lra|]. intros x Hx. cbn. unfold psi', fct_cte. destruct (Rle_dec x c); lra. }
    assert (A2 : RiemannInt_SF (mkStepFun T2) <= RiemannInt_SF psi).
    { apply StepFun_P37; [lra|]. intros x Hx. cbn. unfold psi'. destruct (Rle_dec x c); [lra|]. apply Rle_refl. }
    assert (B1 : 0 <= RiemannInt_SF (mkStepFun T1)).
    { replace 0 with (0 * (c - a)) by ring. rewrite <- StepFun_P18. apply StepFun_P37; [lra|]. intros x Hx. cbn. unfold fct_cte. eapply Rle_trans; [apply Rabs_pos|apply P; lra]. }
    assert (B2 : 0 <= RiemannInt_SF (mkStepFun T2)).
    { replace 0 with (0 * (b - c)) by ring. rewrite <- StepFun_P18. apply StepFun_P37; [lra|]. intros x Hx. cbn. unfold fct_cte. eapply Rle_trans; [apply Rabs_pos|apply P; lra]. }
    pose proof (Rle_abs (RiemannInt_SF psi)).
    rewrite Rabs_right by lra. replace (c - a) with dl in A1 by (unfold c; ring). lra.
Qed.

Lemma bounded_left f a b M : a < b -> (forall x, a <= x <= b -> Rabs (f x) <= M) ->
  (forall c, a < c < b -> ex_RInt f c b) -> ex_RInt f a b.
Proof.
  intros H HM HI. apply ex_RInt_Reals_1. apply (RI_left f a b M); auto. intros c Hc. apply ex_RInt_Reals_0. auto.
Qed.
Lemma bounded_right f a b M : a < b -> (forall x, a <= x <= b -> Rabs (f x) <= M) ->
  (forall c, a < c < b -> ex_RInt f a c) -> ex_RInt f a b.
Proof.
  intros H HM HI.
  assert (G : ex_RInt (fun x => f (- x)) (- b) (- a)).
  { apply (bounded_left _ _ _ M); [lra| |].
    - intros x Hx. apply HM. lra.
    - intros c Hc. assert (Hc' : a < - c < b) by lra. pose proof (HI _ Hc') as E.
      apply ex_RInt_swap in E. assert (E' : ex_RInt f (-1 * c + 0) (-1 * - a + 0)).
      { replace (-1 * c + 0) with (- c) by ring. replace (-1 * - a + 0) with a by ring. exact E. }
      apply (ex_RInt_comp_lin (V := R_NormedModule) f (-1) 0 c (- a)) in E'.
      apply (ex_RInt_scal _ _ _ (-1)) in E'. eapply ex_RInt_ext; [|exact E'].
      intros x _. unfold scal; simpl; unfold mult; simpl. replace (-1 * x + 0) with (- x) by ring. eqR; ring. }
  apply ex_RInt_swap. assert (E' : ex_RInt (fun x => f (- x)) (-1 * b + 0) (-1 * a + 0)).
  { replace (-1 * b + 0) with (- b) by ring. replace (-1 * a + 0) with (- a) by ring. exact G. }
  apply (ex_RInt_comp_lin (V := R_NormedModule) (fun x => f (- x)) (-1) 0 b a) in E'.
  apply (ex_RInt_scal _ _ _ (-1)) in E'. eapply ex_RInt_ext; [|exact E'].
  intros x _. unfold scal; simpl; unfold mult; simpl. replace (- (-1 * x + 0)) with x by ring. eqR; ring.
Qed.

Lemma ex_RInt_open f a b M : a < b -> (forall x, a < x < b -> continuous f x) -> (forall x, a < x < b -> Rabs (f x) <= M) -> ex_RInt f a b.
Proof.
  intros Hab HC HM.
  set (g := fun x => if Rlt_dec a x then if Rlt_dec x b then f x else 0 else 0).
  assert (E : forall x, a < x < b -> g x = f x).
  { intros x Hx. unfold g. destruct (Rlt_dec a x); [|lra]. destruct (Rlt_dec x b); [reflexivity|lra]. }
  assert (HM0 : 0 <= M) by (eapply Rle_trans; [apply Rabs_pos|apply (HM ((a + b) / 2)); lra]).
  assert (B : forall x, a <= x <= b -> Rabs (g x) <= M).
  { intros x Hx. unfold g. destruct (Rlt_dec a x); [destruct (Rlt_dec x b)|]; rewrite ?Rabs_R0; auto. }
  assert (I : forall c d, a < c < b -> a < d < b -> ex_RInt g c d).
  { intros c d Hc Hd. apply (ex_RInt_ext f).
    - intros x Hx. symmetry. apply E. unfold Rmin, Rmax in Hx. destruct (Rle_dec c d); lra.
    - apply (ex_RInt_continuous f). intros x Hx. apply HC. unfold Rmin, Rmax in Hx. destruct (Rle_dec c d); lra. }
  apply (ex_RInt_ext g). { intros x Hx. rewrite Rmin_left, Rmax_right in Hx by lra. now apply E. }
  set (mid := (a + b) / 2). assert (Hm : a < mid < b) by (unfold mid; lra).
  apply (ex_RInt_Chasles g a mid b).
  - apply (bounded_left _ _ _ M); [lra| |].
    + intros x Hx. apply B. lra.
    + intros c Hc. apply I; lra.
  - apply (bounded_right _ _ _ M); [lra| |].
    + intros x Hx. apply B. lra.
    + intros c Hc. apply I; lra.
Qed.
