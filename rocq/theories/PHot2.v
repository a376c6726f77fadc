(** * High-temperature and high-density limits of the integrated quark polarizations *)
From Coq Require Import Reals Lra Lia List Psatz.
From Coquelicot Require Import Coquelicot.
From Verif Require Import Num CField MCommon MConsts MVacuum MThermal MThermalZM MThermalZP MPolar MDress MQuark SpecInteg SpecInt SpecLim SpecDress SpecHtl SpecHot PCplx PDistr PVac PDress PDress2 PCoh PCoh2 PLogs PMass PMassZ PMass2 PReal PForms PForms2 PCombo PComboR PReg PLim PLimC PJoint PJoint2 PInt PCfg PCold PBound PColdG PColdI PFermi PZpForm PColdQ PColdFin PColdLim PWeights PHtl PHtl2 PDensity PHot.
Import List ListNotations.
Open Scope R_scope.
Local Notation PI2 := MThermal.PI2.

(** ** Homogeneity of the logarithms *)
Section Hom.
Variables (x q om p e d : R).
Hypothesis Hx : 0 < x.
Hypothesis Hq : 0 < q.
Hypothesis Hom : om <> 0.
Hypothesis Hp : 0 < p.
Hypothesis He : 0 < e.
Lemma NPe_pos : 0 < NP q om p e d.
Proof. unfold NP. pose proof (Y_pos om e Hom He). pose proof (Rle_0_sqr (Sr om p d + 2 * q * p)). unfold Rsqr in *. lra. Qed.
Lemma NMe_pos : 0 < NM q om p e d.
Proof. unfold NM. pose proof (Y_pos om e Hom He). pose proof (Rle_0_sqr (Sr om p d - 2 * q * p)). unfold Rsqr in *. lra. Qed.
Lemma LA_hom : LA (x * q) (x * om) (x * p) (x * e) (x * x * d) = LA q om p e d.
Proof.
  unfold LA. replace (NP (x * q) (x * om) (x * p) (x * e) (x * x * d)) with (x * x * (x * x) * NP q om p e d) by (unfold NP, Sr; ring).
  replace (NM (x * q) (x * om) (x * p) (x * e) (x * x * d)) with (x * x * (x * x) * NM q om p e d) by (unfold NM, Sr; ring).
  pose proof NPe_pos. pose proof NMe_pos. rewrite !(ln_mult (x * x * (x * x))) by (auto; repeat apply Rmult_lt_0_compat; auto). field.
Qed.
Lemma PH_hom : PH (x * q) (x * om) (x * p) (x * e) (x * x * d) = PH q om p e d.
Proof.
  unfold PH, PT. f_equal.
  - f_equal. unfold Sr. field. repeat split; lra.
  - destruct (Rlt_dec 0 (x * om)), (Rlt_dec 0 om); auto; exfalso; nra.
Qed.
End Hom.
Lemma energy_hom' x q m : 0 < x -> energy (T := R) (x * q) (x * m) = x * energy q m.
Proof.
  intros Hx. rewrite !energy_R. replace (x * m * (x * m) + x * q * (x * q)) with (x * x * (m * m + q * q)) by ring.
  rewrite sqrt_mult by nra. rewrite sqrt_square by lra. reflexivity.
Qed.

(** Limits at infinity from limits at 0+. *)
Lemma inv_INF_R0 (f : R -> R) l : tends R0 f l -> tends INF (fun x => f (/ x)) l.
Proof.
  intros H P HP. destruct (H P HP) as [e He]. exists (Rmax 0 (/ e)). intros x Hx. pose proof (cond_pos e) as E0. pose proof (Rinv_0_lt_compat _ E0) as E1.
  pose proof (Rmax_l 0 (/ e)). pose proof (Rmax_r 0 (/ e)). assert (0 < / x) by (apply Rinv_0_lt_compat; lra). apply He; [|auto].
  change (Rabs (/ x - 0) < e). rewrite Rminus_0_r, Rabs_pos_eq by lra. rewrite <- (Rinv_inv e). apply Rinv_lt_contravar; [|lra]. apply Rmult_lt_0_compat; lra.
Qed.
Lemma tendsC_inv_INF_R0 (f : R -> C) l : tendsC R0 f l -> tendsC INF (fun x => f (/ x)) l.
Proof. intros [A B]. split; [exact (inv_INF_R0 (fun x => fst (f x)) _ A)|exact (inv_INF_R0 (fun x => snd (f x)) _ B)]. Qed.

(** ** The weights at large loop momentum *)
Section Asym.
Variables (nc : nat) (om p mq : R).
Hypothesis Hnc : (0 < nc)%nat.
Hypothesis Hom : om <> 0.
Let Hn : INR nc <> 0. Proof. apply not_0_INR. lia. Qed.
Definition cL : R := - (3 * htl_L om p / (PI * PI * INR nc)).
Definition cT' : R := - (3 * htl_T om p / (PI * PI * INR nc)).
Definition cP : R := - (3 * / 9 / (PI * PI * INR nc)).
Lemma e1_sc : tends R0 (fun x => energy (T := R) 1 (x * mq)) 1.
Proof. apply energy_sc. lra. Qed.
Lemma scale1 q : 0 < q -> om = q * (/ q * om) /\ p = q * (/ q * p) /\ energy (T := R) q mq = q * energy 1 (/ q * mq).
Proof.
  intros Hq. repeat split; try (field; lra). rewrite <- energy_hom' by auto. f_equal; field; lra.
Qed.
Lemma wl_asym : 0 < p -> tends INF (fun q => wl nc om p mq q / q) cL.
Proof.
  intros Hp. pose proof PI_neq0. assert (P2 : PI2 <> 0) by apply PI2_neq.
  pose proof (inv_INF_R0 _ _ (FQl_lim 1 om p Rlt_0_1 Hom Hp PI2 (INR nc) 1 (fun x => energy 1 (x * mq)) (fun _ => 1) P2 Hn e1_sc (tends_const _) ltac:(intros; apply energy_pos'; lra))) as L.
  cbv beta in L. eapply tends_eq; [|eapply tends_ext; [|exact L]].
  - unfold cL, htl_L, htl_phase, PhiH. change PI2 with (PI * PI). field. repeat split; auto; lra.
  - exists 0. intros q Hq. destruct (scale1 q Hq) as (E1 & E2 & E3). unfold wl. rewrite E3.
    assert (He : 0 < energy (T := R) 1 (/ q * mq)) by (apply energy_pos'; lra). set (e := energy 1 (/ q * mq)) in *.
    assert (Ho : / q * om <> 0) by (apply Rmult_integral_contrapositive_currified; [apply Rinv_neq_0_compat; lra|auto]). assert (Hk : 0 < / q * p) by (apply Rmult_lt_0_compat; [apply Rinv_0_lt_compat|]; lra).
    rewrite E1 at 2. rewrite E2 at 2. set (o := / q * om) in *. set (k := / q * p) in *. unfold FQl.
    pose proof (LA_hom q 1 o k e 0 Hq Ho He) as A1. pose proof (PH_hom q 1 o k e 0 Hq Rlt_0_1 Ho Hk He) as A2. rewrite Rmult_0_r, Rmult_1_r in A1, A2. rewrite A1, A2. field. repeat split; auto; lra.
Qed.
Lemma wt_asym : 0 < p -> tends INF (fun q => wt nc om p mq q / q) cT'.
Proof.
  intros Hp. pose proof PI_neq0. assert (P2 : PI2 <> 0) by apply PI2_neq.
  pose proof (inv_INF_R0 _ _ (FQt_lim 1 om p Rlt_0_1 Hom Hp PI2 (INR nc) 1 (fun x => energy 1 (x * mq)) (fun _ => 1) P2 Hn e1_sc (tends_const _) ltac:(intros; apply energy_pos'; lra))) as L.
  cbv beta in L. eapply tends_eq; [|eapply tends_ext; [|exact L]].
  - unfold cT', htl_T, htl_L, htl_phase, PhiH. change PI2 with (PI * PI). field. repeat split; auto; lra.
  - exists 0. intros q Hq. destruct (scale1 q Hq) as (E1 & E2 & E3). unfold wt. rewrite E3.
    assert (He : 0 < energy (T := R) 1 (/ q * mq)) by (apply energy_pos'; lra). set (e := energy 1 (/ q * mq)) in *.
    assert (Ho : / q * om <> 0) by (apply Rmult_integral_contrapositive_currified; [apply Rinv_neq_0_compat; lra|auto]). assert (Hk : 0 < / q * p) by (apply Rmult_lt_0_compat; [apply Rinv_0_lt_compat|]; lra).
    rewrite E1 at 2. rewrite E2 at 2. set (o := / q * om) in *. set (k := / q * p) in *. unfold FQt.
    pose proof (LA_hom q 1 o k e 0 Hq Ho He) as A1. pose proof (PH_hom q 1 o k e 0 Hq Rlt_0_1 Ho Hk He) as A2. rewrite Rmult_0_r, Rmult_1_r in A1, A2. rewrite A1, A2. field. repeat split; auto; lra.
Qed.
Lemma wp_asym : tends INF (fun q => wp nc om mq q / q) cP.
Proof.
  pose proof PI_neq0. assert (P2 : PI2 <> 0) by apply PI2_neq. pose proof e1_sc as T. pose proof (tends_id_right 0) as X.
  set (h := fun x => 2 * (3 * - (energy 1 (x * mq) * energy 1 (x * mq)) + 1) / ((x * om * (x * om) + 4 * (energy 1 (x * mq) * energy 1 (x * mq))) * energy 1 (x * mq) * 3 * PI2 * INR nc)).
  assert (L : tends R0 h cP).
  { unfold h. eapply tends_eq; [|tendf]; [unfold cP; change PI2 with (PI * PI); field; auto|]. revert P2 Hn. generalize PI2 (INR nc). intros a b Ha Hb.
    repeat apply Rmult_integral_contrapositive_currified; auto; lra. }
  apply (tends_ext (fun q => h (/ q))); [|now apply inv_INF_R0].
  exists 0. intros q Hq. destruct (scale1 q Hq) as (E1 & _ & E3). unfold wp, h. rewrite E3.
  assert (He : 0 < energy (T := R) 1 (/ q * mq)) by (apply energy_pos'; lra). set (e := energy 1 (/ q * mq)) in *. set (o := / q * om) in *. replace (om * om) with (q * o * (q * o)) by (rewrite <- E1; ring).
  assert (0 < o * o + 4 * (e * e)) by nra. assert (Ez : q * o * (q * o) + 4 * (q * e * (q * e)) = q * q * (o * o + 4 * (e * e))) by ring. rewrite Ez. field. repeat split; auto; lra.
Qed.
End Asym.

(** ** Temperature *)
Lemma div_ext (f h : R -> C) l : (forall T, f T = h T) -> tendsC INF (fun T => h T / RtoC (T * T))%C l -> tendsC INF (fun T => f T / RtoC (T * T))%C l.
Proof. intros E. apply tendsC_ext. apply filter_forall. intros T. now rewrite E. Qed.
Lemma div_extR (f h : R -> R) l : (forall T, f T = h T) -> tends INF (fun T => h T / (T * T)) l -> tends INF (fun T => f T / (T * T)) l.
Proof. intros E. apply tends_ext. apply filter_forall. intros T. now rewrite E. Qed.
Lemma T_ev : INF (fun T => 0 < T). Proof. exists 0. auto. Qed.
Section Hot.
Variables (J : Integrator) (g : globals R) (mq : R) (mu : R -> R) (nu : R) (I : Integral R).
Hypothesis HJ : exact_integrator J.
Hypothesis Hnc : (0 < g_nc g)%nat.
Hypothesis Hmu : tends INF (fun T => mu T / T) nu.
Lemma mu_b : tends R0 (fun b => b * mu (/ b)) nu.
Proof.
  intros P HP. destruct (Hmu P HP) as [M HM]. set (e := / (Rmax M 0 + 1)). assert (He : 0 < e) by (apply Rinv_0_lt_compat; pose proof (Rmax_r M 0); lra).
  exists (mkposreal e He). intros b Hb Hb0. change (Rabs (b - 0) < e) in Hb. rewrite Rminus_0_r, Rabs_pos_eq in Hb by lra.
  replace (b * mu (/ b)) with (mu (/ b) / / b) by (field; lra). apply HM.
  apply Rlt_trans with (/ e); [unfold e; rewrite Rinv_inv; pose proof (Rmax_l M 0); lra|]. apply Rinv_lt_contravar; [|auto]. now apply Rmult_lt_0_compat.
Qed.
Lemma hot_T w c : Ob 1 w -> (forall q, 0 < q -> continuous w q) -> tends INF (fun q => w q / q) c ->
  tends INF (fun T => RI mq (mu T) (/ T) w / (T * T)) (c * (PI * PI / 6 + nu * nu / 2)).
Proof.
  intros O C L. pose proof (inv_INF_R0 _ _ (hot mq (fun b => mu (/ b)) nu w c O C L mu_b)) as H. cbv beta in H.
  eapply tends_ext; [|exact H]. generalize T_ev. apply filter_imp. intros T HT. rewrite Rinv_inv. field. lra.
Qed.
Lemma quark_hot w c (f : R -> R -> C) d : Ob 1 w -> (forall q, 0 < q -> continuous w q) -> tends INF (fun q => w q / q) c -> (forall T q, 0 < T -> 0 < q -> f T q = RtoC (dT mq (mu T) w (/ T) q)) ->
  tendsC INF (fun T => integrateC J (compact_C (f T)) 0 1 d / RtoC (T * T))%C (RtoC (c * (PI * PI / 6 + nu * nu / 2))) /\
  tends INF (fun T => integrateR J (compact_R (fun q => fst (f T q))) 0 1 d / (T * T)) (c * (PI * PI / 6 + nu * nu / 2)).
Proof.
  intros O C L E.
  assert (V : forall T, 0 < T -> is_RInt (V := C_R_NormedModule) (compact_C (f T)) 0 1 (RtoC (RI mq (mu T) (/ T) w))).
  { intros T HT. apply (compact_RtoC _ (dT mq (mu T) w (/ T))); [intros; now apply E|]. apply RI_is; auto. now apply Rinv_0_lt_compat. }
  split.
  - apply (tendsC_ext (fun T => RtoC (RI mq (mu T) (/ T) w / (T * T)))).
    + generalize T_ev. apply filter_imp. intros T HT. rewrite (proj2 HJ _ _ _ _ _ (V T HT)), RtoC_div; auto. nra.
    + apply tendsC_RtoC. now apply hot_T.
  - apply (tends_ext (fun T => RI mq (mu T) (/ T) w / (T * T))).
    + generalize T_ev. apply filter_imp. intros T HT. now rewrite (proj1 HJ _ _ _ _ _ (fst_int _ _ (V T HT))).
    + now apply hot_T.
Qed.
Lemma val h : - (3 * h / (PI * PI * INR (g_nc g))) * (PI * PI / 6 + nu * nu / 2) = - ((1 + 3 * (nu * nu) / (PI * PI)) / (2 * INR (g_nc g)) * h).
Proof. pose proof PI_neq0. assert (INR (g_nc g) <> 0) by (apply not_0_INR; lia). field. auto. Qed.

Section Om.
Variables (om p : R).
Hypothesis Hom : om <> 0.
Hypothesis Hp : 0 < p.
Lemma HL d : tendsC INF (fun T => integrateC J (compact_C (fun q => polarization_quark_l_thermal_part_landau_i (g_nc g) q om p mq (/ T) (mu T))) 0 1 d / RtoC (T * T))%C (RtoC (- ((1 + 3 * (nu * nu) / (PI * PI)) / (2 * INR (g_nc g)) * htl_L om p))) /\
  tends INF (fun T => integrateR J (compact_R (fun q => fst (polarization_quark_l_thermal_part_landau_i (g_nc g) q om p mq (/ T) (mu T)))) 0 1 d / (T * T)) (- ((1 + 3 * (nu * nu) / (PI * PI)) / (2 * INR (g_nc g)) * htl_L om p)).
Proof.
  rewrite <- val. apply (quark_hot (wl (g_nc g) om p mq) _ (fun T q => polarization_quark_l_thermal_part_landau_i (g_nc g) q om p mq (/ T) (mu T)) d); [now apply wl_Ob|intros; now apply wl_cont|now apply wl_asym|intros; now apply ql_eq].
Qed.
Lemma HT d : tendsC INF (fun T => integrateC J (compact_C (fun q => polarization_quark_t_thermal_part_landau_i (g_nc g) q om p mq (/ T) (mu T))) 0 1 d / RtoC (T * T))%C (RtoC (- ((1 + 3 * (nu * nu) / (PI * PI)) / (2 * INR (g_nc g)) * htl_T om p))) /\
  tends INF (fun T => integrateR J (compact_R (fun q => fst (polarization_quark_t_thermal_part_landau_i (g_nc g) q om p mq (/ T) (mu T)))) 0 1 d / (T * T)) (- ((1 + 3 * (nu * nu) / (PI * PI)) / (2 * INR (g_nc g)) * htl_T om p)).
Proof.
  rewrite <- val. apply (quark_hot (wt (g_nc g) om p mq) _ (fun T q => polarization_quark_t_thermal_part_landau_i (g_nc g) q om p mq (/ T) (mu T)) d); [now apply wt_Ob|intros; now apply wt_cont|now apply wt_asym|intros; now apply qt_eq].
Qed.
Lemma HP d : tendsC INF (fun T => integrateC J (compact_C (fun q => toC (zp_polarization_quark_l_thermal_part_landau_i (g_nc g) q om mq (/ T) (mu T)))) 0 1 d / RtoC (T * T))%C (RtoC (- ((1 + 3 * (nu * nu) / (PI * PI)) / (2 * INR (g_nc g)) * / 9))).
Proof.
  rewrite <- val. apply (quark_hot (wp (g_nc g) om mq) _ (fun T q => toC (zp_polarization_quark_l_thermal_part_landau_i (g_nc g) q om mq (/ T) (mu T))) d); [now apply wp_Ob|intros; now apply wp_cont|now apply wp_asym|]. intros T q HTp Hq. exact (f_equal RtoC (zpl_eq (g_nc g) om mq (/ T) (mu T) q Hq)).
Qed.
Lemma hot_C_ok : Forall (fun x => tendsC INF (fun T => fst x T / RtoC (T * T))%C (RtoC (snd x))) (hot_quark_C J g om p mq mu nu I).
Proof.
  assert (H1 := fun T => half_line_C J g om p 0 mq (/ T) (mu T) I). unfold half_line_integrals_C in H1; cbv zeta in H1.
  unfold hot_quark_C; cbv zeta. repeat (apply Forall_cons || apply Forall_nil); cbn [fst snd].
  Ltac go H1 n L := eapply div_ext; [intros T; exact (nth_Forall _ _ n _ (H1 T) eq_refl)|exact (L _)].
  - go H1 8%nat (fun d => proj1 (HL d)).
  - go H1 9%nat (fun d => proj1 (HL d)).
  - go H1 10%nat (fun d => proj1 (HT d)).
  - go H1 11%nat (fun d => proj1 (HT d)).
  - go H1 16%nat HP.
  - go H1 17%nat HP.
  - go H1 18%nat HP.
  - go H1 19%nat HP.
Qed.
End Om.
Lemma hot_R_ok p : 0 < p -> g_matsubara_reg g <> 0 -> Forall (fun x => tends INF (fun T => fst x T / (T * T)) (snd x)) (hot_quark_R J g p mq mu nu I).
Proof.
  intros Hp Hr. assert (H1 := fun T => half_line_R J g p 0 mq (/ T) (mu T) I). unfold half_line_integrals_R in H1; cbv zeta in H1.
  unfold hot_quark_R; cbv zeta. repeat (apply Forall_cons || apply Forall_nil); cbn [fst snd].
  Ltac goR H1 n L := eapply div_extR; [intros T; exact (nth_Forall _ _ n _ (H1 T) eq_refl)|exact (L _)].
  - goR H1 6%nat (fun d => proj2 (HL (g_matsubara_reg g) p Hr Hp d)).
  - goR H1 7%nat (fun d => proj2 (HL (g_matsubara_reg g) p Hr Hp d)).
  - goR H1 8%nat (fun d => proj2 (HT (g_matsubara_reg g) p Hr Hp d)).
  - goR H1 9%nat (fun d => proj2 (HT (g_matsubara_reg g) p Hr Hp d)).
Qed.
End Hot.
