(** * Zero-temperature limit of the integrated functions, dressing functions and propagators *)
From Coq Require Import Reals Lra Lia List Psatz.
From Coquelicot Require Import Coquelicot.
From Verif Require Import Num CField MCommon MConsts MVacuum MThermal MThermalZM MThermalZP MPolar MDress MQuark SpecInteg SpecInt SpecLim SpecDress SpecCold PCplx PDistr PVac PDress PDress2 PCoh PCoh2 PLogs PMass PMassZ PMass2 PReal PForms PForms2 PCombo PComboR PReg PLim PLimC PJoint PJoint2 PInt PCfg PCold PBound PColdG PColdI PFermi PZpForm PColdQ PColdFin.
Import List ListNotations.
Open Scope R_scope.

Section Lists.
Variables (J : Integrator) (g : globals R) (mq mu : R) (I : Integral R).
Hypothesis HJ : exact_integrator J.
Hypothesis Hnc : (0 < g_nc g)%nat.

(** The zero-temperature values are integrals over the Fermi sea. *)
Lemma sea_val (w : R -> R) (f : R -> C) (v : C) d : Ob 1 w -> (forall q, 0 < q -> continuous w q) -> (forall q, 0 < q -> f q = RtoC (dZ mq mu w q)) ->
  (Rabs mq <= Rabs mu -> v = integrateC J f 0 (sqrt (mu * mu - mq * mq)) d) -> (Rabs mu < Rabs mq -> v = RtoC 0) -> v = RtoC (sea2 mq mu w).
Proof.
  intros Ow Cw E H1 H2. destruct (Rle_lt_dec (Rabs mq) (Rabs mu)) as [H|H].
  - rewrite (H1 H). apply (proj2 HJ). eapply sea_RtoC; [apply sqrt_pos|exact E|]. now apply dZ_is.
  - rewrite (H2 H), sea2_out; auto.
Qed.
Lemma sea_valR (w : R -> R) (f : R -> C) (v : R) d : Ob 1 w -> (forall q, 0 < q -> continuous w q) -> (forall q, 0 < q -> f q = RtoC (dZ mq mu w q)) ->
  (Rabs mq <= Rabs mu -> v = integrateR J (fun q => fst (f q)) 0 (sqrt (mu * mu - mq * mq)) d) -> (Rabs mu < Rabs mq -> v = 0) -> v = sea2 mq mu w.
Proof.
  intros Ow Cw E H1 H2. destruct (Rle_lt_dec (Rabs mq) (Rabs mu)) as [H|H].
  - rewrite (H1 H). apply (proj1 HJ). eapply sea_ext; [apply sqrt_pos| |now apply dZ_is]. intros q Hq. now rewrite E.
  - rewrite (H2 H), sea2_out; auto.
Qed.

Lemma nth_Forall {A} (P : A -> Prop) l k x : Forall P l -> nth_error l k = Some x -> P x.
Proof. intros H E. rewrite Forall_forall in H. apply H. now apply nth_error_In in E. Qed.

Section Om.
Variable om : R.
Hypothesis Hom : om <> 0.
Lemma cold_C_ok (p m : R) : 0 < p -> m <> 0 -> Forall (fun x => tendsC CINF (fst x) (snd x)) (cold_C J g om p m mq mu I).
Proof.
  intros Hp Hm.
  assert (H1 := fun b => half_line_C J g om p m mq b mu I). unfold half_line_integrals_C in H1; cbv zeta in H1.
  assert (Z1 := fermi_sea_C J g om p mq mu I). assert (Z2 := no_sea_C J g om p mq mu I).
  assert (G : forall k d, tendsC CINF (fun b => integrateC J (compact_C (fun q => nth k (glue_parts q om p m b) (RtoC 0))) 0 1 d) (RtoC 0)).
  { intros k d. apply (glue_lim J HJ (fun b q => nth k (glue_parts q om p m b) (RtoC 0)) d). apply glue_ints; auto; lra. }
  assert (Z : forall k d, tendsC CINF (fun b => integrateC J (compact_C (fun q => nth k (zp_glue_parts q om m b) (RtoC 0))) 0 1 d) (RtoC 0)).
  { intros k d. apply (glue_lim J HJ (fun b q => nth k (zp_glue_parts q om m b) (RtoC 0)) d). apply zp_glue_ints; auto; lra. }
  assert (QL := fun d => proj1 (quark_lim J HJ mq mu (wl (g_nc g) om p mq) (fun b q => polarization_quark_l_thermal_part_landau_i (g_nc g) q om p mq b mu) d
     (wl_Ob (g_nc g) om p mq Hnc Hom Hp) (fun q => wl_cont (g_nc g) om p mq Hnc Hom q Hp) (fun b q Hq => ql_eq (g_nc g) om mq Hnc Hom p Hp b mu q Hq))).
  assert (QT := fun d => proj1 (quark_lim J HJ mq mu (wt (g_nc g) om p mq) (fun b q => polarization_quark_t_thermal_part_landau_i (g_nc g) q om p mq b mu) d
     (wt_Ob (g_nc g) om p mq Hnc Hom Hp) (fun q => wt_cont (g_nc g) om p mq Hnc Hom q Hp) (fun b q Hq => qt_eq (g_nc g) om mq Hnc Hom p Hp b mu q Hq))).
  assert (QP := fun d => proj1 (quark_lim J HJ mq mu (wp (g_nc g) om mq) (fun b q => toC (zp_polarization_quark_l_thermal_part_landau_i (g_nc g) q om mq b mu)) d
     (wp_Ob (g_nc g) om mq Hnc Hom) (fun q => wp_cont (g_nc g) om mq Hnc Hom q) (fun b q Hq => f_equal RtoC (zpl_eq (g_nc g) om mq b mu q Hq)))).
  unfold cold_C. repeat (apply Forall_cons || apply Forall_nil); cbn [fst snd].
  Ltac gl H1 n T := eapply tendsC_ext; [apply filter_forall; intros b; symmetry; exact (nth_Forall _ _ n _ (H1 b) eq_refl)|exact (T _)].
  Ltac qu H1 Z1 Z2 n k T W Ow Cw E :=
    match goal with |- tendsC _ _ ?v => replace v with (RtoC (sea2 mq mu W)); [eapply tendsC_ext; [apply filter_forall; intros b; symmetry; exact (nth_Forall _ _ n _ (H1 b) eq_refl)|exact (T _)]|
      symmetry; eapply (sea_val W); [exact Ow|exact Cw|exact E|intros HH; exact (nth_Forall _ _ k _ (Z1 HH) eq_refl)|intros HH; exact (nth_Forall _ _ k _ (Z2 HH) eq_refl)]] end.
  - gl H1 0%nat (G 0%nat).
  - gl H1 1%nat (G 0%nat).
  - gl H1 2%nat (Z 0%nat).
  - gl H1 3%nat (Z 0%nat).
  - gl H1 4%nat (G 1%nat).
  - gl H1 5%nat (G 1%nat).
  - gl H1 6%nat (G 2%nat).
  - gl H1 7%nat (G 2%nat).
  - gl H1 12%nat (Z 1%nat).
  - gl H1 13%nat (Z 1%nat).
  - gl H1 14%nat (Z 2%nat).
  - gl H1 15%nat (Z 2%nat).
  - qu H1 Z1 Z2 8%nat 0%nat QL (wl (g_nc g) om p mq) (wl_Ob (g_nc g) om p mq Hnc Hom Hp) (fun q => wl_cont (g_nc g) om p mq Hnc Hom q Hp) (fun q Hq => ql0_eq (g_nc g) om mq Hnc Hom p Hp mu q Hq).
  - qu H1 Z1 Z2 9%nat 1%nat QL (wl (g_nc g) om p mq) (wl_Ob (g_nc g) om p mq Hnc Hom Hp) (fun q => wl_cont (g_nc g) om p mq Hnc Hom q Hp) (fun q Hq => ql0_eq (g_nc g) om mq Hnc Hom p Hp mu q Hq).
  - qu H1 Z1 Z2 10%nat 2%nat QT (wt (g_nc g) om p mq) (wt_Ob (g_nc g) om p mq Hnc Hom Hp) (fun q => wt_cont (g_nc g) om p mq Hnc Hom q Hp) (fun q Hq => qt0_eq (g_nc g) om mq Hnc Hom p Hp mu q Hq).
  - qu H1 Z1 Z2 11%nat 3%nat QT (wt (g_nc g) om p mq) (wt_Ob (g_nc g) om p mq Hnc Hom Hp) (fun q => wt_cont (g_nc g) om p mq Hnc Hom q Hp) (fun q Hq => qt0_eq (g_nc g) om mq Hnc Hom p Hp mu q Hq).
  - qu H1 Z1 Z2 16%nat 4%nat QP (wp (g_nc g) om mq) (wp_Ob (g_nc g) om mq Hnc Hom) (fun q => wp_cont (g_nc g) om mq Hnc Hom q) (fun q Hq => f_equal RtoC (zpl0_eq (g_nc g) om mq mu q Hq)).
  - qu H1 Z1 Z2 17%nat 5%nat QP (wp (g_nc g) om mq) (wp_Ob (g_nc g) om mq Hnc Hom) (fun q => wp_cont (g_nc g) om mq Hnc Hom q) (fun q Hq => f_equal RtoC (zpl0_eq (g_nc g) om mq mu q Hq)).
  - qu H1 Z1 Z2 18%nat 6%nat QP (wp (g_nc g) om mq) (wp_Ob (g_nc g) om mq Hnc Hom) (fun q => wp_cont (g_nc g) om mq Hnc Hom q) (fun q Hq => f_equal RtoC (zpl0_eq (g_nc g) om mq mu q Hq)).
  - qu H1 Z1 Z2 19%nat 7%nat QP (wp (g_nc g) om mq) (wp_Ob (g_nc g) om mq Hnc Hom) (fun q => wp_cont (g_nc g) om mq Hnc Hom q) (fun q Hq => f_equal RtoC (zpl0_eq (g_nc g) om mq mu q Hq)).
Qed.
End Om.

(** The charge density at zero temperature. *)
Lemma wc_int a : is_RInt (wc (g_nc g)) 0 a (INR (g_nc g) * (a * a * a) / (3 * PI2q)).
Proof.
  assert (P : PI2q <> 0) by (unfold PI2q; pose proof PI_RGT_0; nra).
  set (F := fun q => INR (g_nc g) * (q * q * q) / (3 * PI2q)).
  replace (INR (g_nc g) * (a * a * a) / (3 * PI2q)) with (F a - F 0) by (unfold F; field; auto).
  apply (is_RInt_derive (V := R_CompleteNormedModule) F (wc (g_nc g))).
  - intros x _. unfold F, wc. auto_derive; auto. field. auto.
  - intros x _. unfold wc. apply (ex_derive_continuous (K := R_AbsRing) (V := R_NormedModule)). auto_derive. auto.
Qed.
Lemma charge_sea : seaD mq mu (wc (g_nc g)) = charge_density_zero_temp (g_nc g) mq mu.
Proof.
  assert (P : PI2q <> 0) by (unfold PI2q; pose proof PI_RGT_0; nra).
  assert (S : forall nu, Rabs mq <= nu -> sea mq nu (wc (g_nc g)) = INR (g_nc g) * (fermi_momentum mq nu * fermi_momentum mq nu * fermi_momentum mq nu) / (3 * PI2q)).
  { intros nu H. unfold sea, pF. destruct (Rle_dec (Rabs mq) nu); [|contradiction]. apply is_RInt_unique, wc_int. }
  unfold seaD, charge_density_zero_temp. pose proof (Rabs_pos mq) as M0. destruct (Rle_dec (Rabs mu) (Rabs mq)) as [L|L].
  - assert (Z : forall nu, nu <= Rabs mq -> sea mq nu (wc (g_nc g)) = 0).
    { intros nu [H|H]; [now apply sea_out|]. rewrite S by lra. rewrite kF_R, H, Rabs_sq. replace (mq * mq - mq * mq) with 0 by ring. rewrite sqrt_0. unfold Rdiv. ring. }
    pose proof (Rle_abs mu). pose proof (Rle_abs (- mu)). rewrite Rabs_Ropp in *. rewrite !Z by lra. ring.
  - apply Rnot_le_lt in L. cbv zeta. destruct (Rlt_dec mq mu) as [G|G].
    + assert (0 < mu) by (unfold Rabs in *; destruct (Rcase_abs mu), (Rcase_abs mq); lra). rewrite (Rabs_right mu) in L by lra.
      rewrite S by lra. rewrite (sea_out mq (wc (g_nc g)) (- mu)) by lra. field. auto.
    + assert (mu < 0) by (unfold Rabs in *; destruct (Rcase_abs mu), (Rcase_abs mq); lra). rewrite (Rabs_left mu) in L by lra.
      rewrite (S (- mu)) by lra. rewrite (sea_out mq (wc (g_nc g)) mu) by lra. rewrite !kF_R. replace (- mu * - mu) with (mu * mu) by ring. field. auto.
Qed.
Lemma charge_lim d : tends CINF (fun b => integrateR J (compact_R (fun q => charge_density_i (g_nc g) q mq b mu)) 0 1 d) (charge_density_zero_temp (g_nc g) mq mu).
Proof.
  rewrite <- charge_sea. assert (P0 : CINF (fun b => 0 < b)) by (exists 0; auto).
  apply (tends_ext (fun b => RInt (compact_R (cT mq mu (wc (g_nc g)) b)) 0 1)).
  - revert P0. apply filter_imp. intros b Hb.
    assert (V : is_RInt (compact_R (fun q => charge_density_i (g_nc g) q mq b mu)) 0 1 (RInt (compact_R (cT mq mu (wc (g_nc g)) b)) 0 1)).
    { apply (compact_ext _ (cT mq mu (wc (g_nc g)) b)); [intros; apply cd_eq|].
      pose proof (cT_is mq mu (wc (g_nc g)) (wc_Ob _) (fun q Hq => wc_cont _ q Hq) b Hb) as D. now rewrite (is_RInt_unique _ _ _ _ D). }
    now rewrite (proj1 HJ _ _ _ _ _ V).
  - apply c_cold; [apply wc_Ob|intros; now apply wc_cont].
Qed.
Lemma cold_R_ok (p m : R) : 0 < p -> m <> 0 -> g_matsubara_reg g <> 0 -> Forall (fun x => tends CINF (fst x) (snd x)) (cold_R J g p m mq mu I).
Proof.
  intros Hp Hm Hom. set (om := g_matsubara_reg g) in *.
  assert (H1 := fun b => half_line_R J g p m mq b mu I). unfold half_line_integrals_R in H1; cbv zeta in H1.
  assert (H2 := fun b => half_line_R J g p mq mq b mu I). unfold half_line_integrals_R in H2; cbv zeta in H2.
  assert (Z1 := fermi_sea_R J g p mq mu I). assert (Z2 := no_sea_R J g p mq mu I).
  assert (G : forall k d, tends CINF (fun b => integrateR J (compact_R (fun q => fst (nth k (glue_parts q om p m b) (RtoC 0)))) 0 1 d) 0).
  { intros k d. apply (glue_lim J HJ (fun b q => nth k (glue_parts q om p m b) (RtoC 0)) d). apply glue_ints; auto; lra. }
  assert (QL := fun d => proj2 (quark_lim J HJ mq mu (wl (g_nc g) om p mq) (fun b q => polarization_quark_l_thermal_part_landau_i (g_nc g) q om p mq b mu) d
     (wl_Ob (g_nc g) om p mq Hnc Hom Hp) (fun q => wl_cont (g_nc g) om p mq Hnc Hom q Hp) (fun b q Hq => ql_eq (g_nc g) om mq Hnc Hom p Hp b mu q Hq))).
  assert (QT := fun d => proj2 (quark_lim J HJ mq mu (wt (g_nc g) om p mq) (fun b q => polarization_quark_t_thermal_part_landau_i (g_nc g) q om p mq b mu) d
     (wt_Ob (g_nc g) om p mq Hnc Hom Hp) (fun q => wt_cont (g_nc g) om p mq Hnc Hom q Hp) (fun b q Hq => qt_eq (g_nc g) om mq Hnc Hom p Hp b mu q Hq))).
  unfold cold_R. repeat (apply Forall_cons || apply Forall_nil); cbn [fst snd].
  Ltac glR H1 n T := eapply tends_ext; [apply filter_forall; intros b; symmetry; exact (nth_Forall _ _ n _ (H1 b) eq_refl)|exact (T _)].
  Ltac quR H1 Z1 Z2 n k T W Ow Cw E :=
    match goal with |- tends _ _ ?v => replace v with (sea2 mq mu W); [eapply tends_ext; [apply filter_forall; intros b; symmetry; exact (nth_Forall _ _ n _ (H1 b) eq_refl)|exact (T _)]|
      symmetry; eapply (sea_valR W); [exact Ow|exact Cw|exact E|intros HH; exact (nth_Forall _ _ k _ (Z1 HH) eq_refl)|intros HH; exact (nth_Forall _ _ k _ (Z2 HH) eq_refl)]] end.
  - glR H1 2%nat (G 1%nat).
  - glR H1 3%nat (G 1%nat).
  - glR H1 4%nat (G 2%nat).
  - glR H1 5%nat (G 2%nat).
  - quR H1 Z1 Z2 6%nat 0%nat QL (wl (g_nc g) om p mq) (wl_Ob (g_nc g) om p mq Hnc Hom Hp) (fun q => wl_cont (g_nc g) om p mq Hnc Hom q Hp) (fun q Hq => ql0_eq (g_nc g) om mq Hnc Hom p Hp mu q Hq).
  - quR H1 Z1 Z2 7%nat 1%nat QL (wl (g_nc g) om p mq) (wl_Ob (g_nc g) om p mq Hnc Hom Hp) (fun q => wl_cont (g_nc g) om p mq Hnc Hom q Hp) (fun q Hq => ql0_eq (g_nc g) om mq Hnc Hom p Hp mu q Hq).
  - quR H1 Z1 Z2 8%nat 2%nat QT (wt (g_nc g) om p mq) (wt_Ob (g_nc g) om p mq Hnc Hom Hp) (fun q => wt_cont (g_nc g) om p mq Hnc Hom q Hp) (fun q Hq => qt0_eq (g_nc g) om mq Hnc Hom p Hp mu q Hq).
  - quR H1 Z1 Z2 9%nat 3%nat QT (wt (g_nc g) om p mq) (wt_Ob (g_nc g) om p mq Hnc Hom Hp) (fun q => wt_cont (g_nc g) om p mq Hnc Hom q Hp) (fun q Hq => qt0_eq (g_nc g) om mq Hnc Hom p Hp mu q Hq).
  - glR H2 10%nat charge_lim.
  - glR H2 11%nat charge_lim.
Qed.
End Lists.
