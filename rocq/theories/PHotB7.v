(** * High-temperature and high-density limits of the gluon dressing functions and propagators *)
From Coq Require Import Reals Lra Lia List Psatz.
From Coquelicot Require Import Coquelicot.
From Verif Require Import Num CField MCommon MConsts MVacuum MThermal MThermalZM MThermalZP MPolar MDress MQuark SpecInteg SpecInt SpecLim SpecDress SpecHtl SpecHot PCplx PDistr PVac PDress PDress2 PInt PCfg PLim PLimC PCold PColdLim PHot PHot2 PHot3 PHotB6.
Import List ListNotations.
Open Scope R_scope.

Definition inC (f : R -> C) (l : R) : Prop := tendsC INF (fun T => f T / RtoC (T * T))%C (RtoC l).
Definition inR (f : R -> R) (l : R) : Prop := tends INF (fun T => f T / (T * T)) l.
Lemma inR_const c : inR (fun _ => c) 0.
Proof.
  unfold inR. apply (tends_ext (fun T => c * (/ T * / T))).
  - generalize T_ev. apply filter_imp. intros T HT. field. lra.
  - eapply tends_eq; [|apply tends_mult; [apply tends_const|apply tends_mult; apply tends_inv_infty]]. ring.
Qed.
Lemma inC_const (c : C) : inC (fun _ => c) 0.
Proof.
  unfold inC. apply (tendsC_ext (fun T => c * RtoC (1 / (T * T)))%C).
  - generalize T_ev. apply filter_imp. intros T HT. rewrite RtoC_div by nra. field. intros E. apply RtoC_inj in E. nra.
  - eapply tendsC_eq; [|apply tendsC_mult; [apply tendsC_const|apply tendsC_RtoC, (inR_const 1)]]. apply Cmult_0_r.
Qed.
Lemma inC_plus f h a b : inC f a -> inC h b -> inC (fun T => f T + h T)%C (a + b).
Proof. intros A B. unfold inC. eapply tendsC_ext; [|rewrite RtoC_plus; apply (tendsC_plus _ _ _ _ A B)]. apply filter_forall. intros T. cbv beta. unfold Cdiv. ring. Qed.
Lemma inC_scal (c : R) f a : inC f a -> inC (fun T => RtoC c * f T)%C (c * a).
Proof. intros A. unfold inC. eapply tendsC_ext; [|rewrite RtoC_mult; apply (tendsC_mult _ _ _ _ (tendsC_const (RtoC c)) A)]. apply filter_forall. intros T. cbv beta. unfold Cdiv. ring. Qed.
Lemma inR_plus f h a b : inR f a -> inR h b -> inR (fun T => f T + h T) (a + b).
Proof. intros A B. unfold inR. eapply tends_ext; [|apply (tends_plus _ _ _ _ A B)]. apply filter_forall. intros T. cbv beta. unfold Rdiv. ring. Qed.
Lemma inR_scal (c : R) f a : inR f a -> inR (fun T => c * f T) (c * a).
Proof. intros A. unfold inR. eapply tends_ext; [|apply (tends_mult _ _ _ _ (tends_const c) A)]. apply filter_forall. intros T. cbv beta. unfold Rdiv. ring. Qed.
Lemma inC_eq f a b : a = b -> inC f a -> inC f b. Proof. now intros ->. Qed.
Lemma inR_eq f a b : a = b -> inR f a -> inR f b. Proof. now intros ->. Qed.
Lemma inC_ext f h a : (forall T, f T = h T) -> inC h a -> inC f a. Proof. apply div_ext. Qed.
Lemma inR_ext f h a : (forall T, f T = h T) -> inR h a -> inR f a. Proof. apply div_extR. Qed.
Lemma wsum_inC (quarks : list (nat * R)) (f : R -> R -> C) l : (forall mq, inC (fun T => f T mq) l) ->
  inC (fun T => wsum_C (map (fun q => (INR (fst q), f T (snd q))) quarks)) (INR (quark_total quarks) * l).
Proof.
  intros H. induction quarks as [|q t IH]; [eapply inC_eq; [|exact (inC_const (RtoC 0))]; cbn; ring|]. unfold wsum_C in *. cbn [map fold_right fst snd quark_total].
  eapply inC_eq; [|apply inC_plus; [apply inC_scal, H|exact IH]]. fold (quark_total t). rewrite plus_INR. ring.
Qed.
Lemma wsum_inR (quarks : list (nat * R)) (f : R -> R -> R) l : (forall mq, inR (fun T => f T mq) l) ->
  inR (fun T => wsum_R (map (fun q => (INR (fst q), f T (snd q))) quarks)) (INR (quark_total quarks) * l).
Proof.
  intros H. induction quarks as [|q t IH]; [eapply inR_eq; [|exact (inR_const 0)]; cbn; ring|]. unfold wsum_R in *. cbn [map fold_right fst snd quark_total].
  eapply inR_eq; [|apply inR_plus; [apply inR_scal, H|exact IH]]. fold (quark_total t). rewrite plus_INR. ring.
Qed.

Lemma Cinv_00 : (/ RtoC 0)%C = RtoC 0.
Proof. apply Ceq; cbn; unfold Rdiv; ring. Qed.
Lemma screened_C_intro s f l i v P a : s <> 0 -> l <> 0 -> (forall t, f t = (i t, / i t, RtoC (/ s) * / i t)%C) -> (forall t, i t = v - RtoC (/ s * PREFACTOR) * P t)%C -> inC P a ->
  - PREFACTOR * a = l -> screened_C s f l.
Proof.
  intros Hs Hl Ef Ei HP El.
  assert (H : inC i (l / s)).
  { eapply inC_ext; [intros t; rewrite Ei; replace (v - RtoC (/ s * PREFACTOR) * P t)%C with (v + RtoC (- (/ s * PREFACTOR)) * P t)%C by (rewrite RtoC_opp; ring); reflexivity|].
    eapply inC_eq; [|apply inC_plus; [apply inC_const|apply inC_scal; exact HP]]. rewrite <- El. field. auto. }
  assert (N : RtoC (l / s) <> RtoC 0). { intros E. apply RtoC_inj in E. unfold Rdiv in E. apply Rmult_integral in E. destruct E as [E|E]; [auto|]. now apply Rinv_neq_0_compat in E. }
  assert (D : tendsC INF (fun t => RtoC (t * t) * / i t)%C (RtoC (s / l))).
  { apply (tendsC_ext (fun t => / (i t / RtoC (t * t)))%C).
    - generalize T_ev. apply filter_imp. intros t Ht. assert (Nt : RtoC (t * t) <> RtoC 0) by (intros E; apply RtoC_inj in E; nra).
      destruct (Ceq_dec (i t) (RtoC 0)) as [->|N']; [|field; auto]. unfold Cdiv. rewrite Cmult_0_l, Cinv_00. ring.
    - eapply tendsC_eq; [|apply (tendsC_inv _ _ N H)]. rewrite <- RtoC_inv by (intros E; now apply N, f_equal). f_equal. field. auto. }
  split; [|split].
  - eapply tendsC_ext; [|exact H]. apply filter_forall. intros t. now rewrite Ef.
  - eapply tendsC_ext; [|exact D]. apply filter_forall. intros t. now rewrite Ef.
  - eapply tendsC_ext; [|eapply tendsC_eq; [|apply (tendsC_mult _ _ _ _ (tendsC_const (RtoC (/ s))) D)]]; [apply filter_forall; intros t; rewrite Ef; cbn [snd]; ring|].
    rewrite <- RtoC_mult. f_equal. field. auto.
Qed.
Lemma screened_R_intro s f l i v P a : s <> 0 -> l <> 0 -> (forall t, f t = (i t, / i t, / i t / s)) -> (forall t, i t = v - PREFACTOR * P t / s) -> inR P a ->
  - PREFACTOR * a = l -> screened_R s f l.
Proof.
  intros Hs Hl Ef Ei HP El.
  assert (H : inR i (l / s)).
  { eapply inR_ext; [intros t; rewrite Ei; replace (v - PREFACTOR * P t / s) with (v + - (/ s * PREFACTOR) * P t) by (unfold Rdiv; ring); reflexivity|].
    eapply inR_eq; [|apply inR_plus; [apply inR_const|apply inR_scal; exact HP]]. rewrite <- El. field. auto. }
  assert (N : l / s <> 0). { intros E. unfold Rdiv in E. apply Rmult_integral in E. destruct E as [E|E]; [auto|]. now apply Rinv_neq_0_compat in E. }
  assert (D : tends INF (fun t => t * t * / i t) (s / l)).
  { apply (tends_ext (fun t => / (i t / (t * t)))).
    - generalize T_ev. apply filter_imp. intros t Ht. unfold Rdiv. rewrite Rinv_mult, Rinv_inv. ring.
    - eapply tends_eq; [|apply (tends_inv _ _ N H)]. field. auto. }
  split; [|split].
  - eapply tends_ext; [|exact H]. apply filter_forall. intros t. now rewrite Ef.
  - eapply tends_ext; [|exact D]. apply filter_forall. intros t. now rewrite Ef.
  - eapply tends_ext; [|eapply tends_eq; [|apply (tends_mult _ _ _ _ (tends_const (/ s)) D)]]; [apply filter_forall; intros t; rewrite Ef; cbn [snd]; unfold Rdiv; ring|].
    field. auto.
Qed.
