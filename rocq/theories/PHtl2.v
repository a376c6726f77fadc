(** * Hard-thermal-loop limits of the integrands *)
From Coq Require Import Reals Psatz Lia List.
From Coquelicot Require Import Coquelicot.
From Verif Require Import Num CField MCommon MThermal MThermalZM MThermalZP MPolar MHtl SpecInteg SpecHtl PCplx PDistr PVac PDress2 PCoh PCoh2 PLogs PMass PMassZ PMass2 PReal PForms PForms2 PCombo PComboR PLim PLimC PDeriv PHtl.
Import List ListNotations.
Open Scope R_scope.

(** ** The reference functions at real frequency *)
Lemma htl_log om k : om <> 0 -> 0 < k ->
  Cln ((RtoC om * Ci + RtoC k) / (RtoC om * Ci - RtoC k))%C = (0, htl_phase om k).
Proof.
  intros Ho Hk. set (s := om * om + k * k). assert (Hs : 0 < s) by (unfold s; nra).
  assert (E : ((RtoC om * Ci + RtoC k) / (RtoC om * Ci - RtoC k))%C = ((om * om - k * k) / s, - (2 * k * om) / s)).
  { apply Ceq; simpl; unfold s in *; field; nra. }
  rewrite E. unfold Cln. f_equal.
  - unfold Cmod. cbn [fst snd]. replace (((om * om - k * k) / s) ^ 2 + (- (2 * k * om) / s) ^ 2) with 1 by (unfold s in *; field; nra). now rewrite sqrt_1, ln_1.
  - unfold htl_phase. assert (HY : 2 * k * om <> 0) by (repeat apply Rmult_integral_contrapositive_currified; lra).
    assert (EX : (om * om - k * k) / s / (- (2 * k * om) / s) = - ((om * om - k * k) / (2 * k * om))) by (field; repeat split; lra).
    assert (Hi : 0 < / s) by now apply Rinv_0_lt_compat.
    destruct (Rlt_dec 0 om) as [H|H].
    + assert (0 < 2 * k * om) by nra. rewrite Carg_neg by (unfold Rdiv; nra). rewrite EX, atan_opp. ring.
    + assert (2 * k * om < 0) by nra. rewrite Carg_pos by (unfold Rdiv; nra). rewrite EX, atan_opp. ring.
Qed.
Lemma f_htl_R om k t : om <> 0 -> 0 < k -> f_htl om k t = RtoC (t * t * htl_L om k).
Proof.
  intros Ho Hk. unfold f_htl, htl_L. numcbn. rewrite htl_log by auto.
  replace ((0, htl_phase om k) : C) with (Ci * RtoC (htl_phase om k))%C by (apply Ceq; simpl; ring).
  assert (RtoC k <> 0)%C by (apply RtoC_neq0; lra). unfold Rdiv. rewrite ?RtoC_inv_all. pushRtoC. rewrite ?RtoC_inv_all. pushRtoC.
  field [Ci2]. repeat split; auto; apply RtoC_neq0; lra.
Qed.
Lemma g_htl_R om k t : om <> 0 -> 0 < k -> g_htl om k t = RtoC (t * t * htl_T om k).
Proof.
  intros Ho Hk. unfold g_htl, htl_T. rewrite f_htl_R by auto. unfold Rdiv. rewrite ?RtoC_mult, ?RtoC_minus, ?RtoC_mult, ?RtoC_inv_all. pushRtoC. field.
Qed.
Lemma f_htl_C (om : R) k t : f_htl om k t = f_htl (RtoC om) k t.
Proof. unfold f_htl. numcbn. unfold Rdiv. rewrite ?RtoC_inv_all. pushRtoC. rewrite ?RtoC_inv_all. pushRtoC. reflexivity. Qed.

Lemma energy_sc q m : 0 < q -> tends R0 (fun x => energy q (x * m)) q.
Proof.
  intros Hq. apply (tends_ext (fun x => sqrt (x * m * (x * m) + q * q))); [apply filter_forall; intros x; now rewrite energy_R|].
  apply (tends_eq _ (sqrt (0 * m * (0 * m) + q * q))); [replace (0 * m * (0 * m) + q * q) with (q * q) by ring; apply sqrt_square; lra|].
  apply (tends_comp sqrt); [apply continuous_sqrt|]. pose proof (tends_id_right 0). tendf.
Qed.

Section Quark.
Variables (nc : nat) (q om k m : R).
Hypothesis Hnc : (0 < nc)%nat.
Hypothesis Hq : 0 < q.
Hypothesis Hom : om <> 0.
Hypothesis Hk : 0 < k.
Lemma fermi_sc T mu : 0 < T -> tends R0 (fun x => fermi_distribution_double (energy q (x * m)) (/ T) mu) (/ (exp ((q - mu) / T) + 1) + / (exp ((q + mu) / T) + 1)).
Proof.
  intros HT. pose proof (energy_sc q m Hq) as He. unfold fermi_distribution_double, statistic_distribution_exponential. numcbn.
  assert (E : forall a, tends R0 (fun x => / (exp ((energy q (x * m) - a) * / T) + 1)) (/ (exp ((q - a) * / T) + 1))).
  { intros a. pose proof (exp_pos ((q - a) * / T)). apply tends_inv; [lra|]. apply tends_plus; [|apply tends_const]. apply (tends_comp exp); [apply continuous_exp|]. tendf. }
  eapply tends_eq; [|apply tends_plus; apply E]. unfold Rdiv. replace (q - - mu) with (q + mu) by ring. reflexivity.
Qed.
Lemma ev_pos x : 0 < x -> x * om <> 0 /\ 0 < x * k.
Proof. intros H. split; [apply Rmult_integral_contrapositive_currified; lra|nra]. Qed.
Lemma INRnc : INR nc <> 0. Proof. apply not_0_INR. lia. Qed.
Lemma PI2n : PI2 <> 0. Proof. apply PI2_neq. Qed.
Lemma quark_l_htl T mu : 0 < T -> tendsC R0 (fun x => polarization_quark_l_thermal_part_landau_i nc q (x * om) (x * k) (x * m) (/ T) mu)
  (RtoC (- (fermion_weight T mu q * (T * T * htl_L om k) / (2 * INR nc)))).
Proof.
  intros HT. pose proof INRnc as Hn. pose proof PI2n as Hpi. pose proof PI_neq0.
  apply (tendsC_ext (fun x => RtoC (FQl PI2 (INR nc) q (x * om) (x * k) (energy q (x * m)) (fermi_distribution_double (energy q (x * m)) (/ T) mu)))).
  { apply (ev_right _ 0 1); [lra|]. intros x [Hx _]. destruct (ev_pos x Hx). now rewrite quark_l_form. }
  eapply tendsC_eq; [|apply tendsC_RtoC; apply FQl_lim; auto; [apply energy_sc; auto|apply fermi_sc; auto|intros; apply energy_pos'; auto]].
  f_equal. unfold fermion_weight, htl_L, htl_phase, PhiH. change PI2 with (PI * PI).
  pose proof (exp_pos ((q - mu) / T)). pose proof (exp_pos ((q + mu) / T)). field. repeat split; lra.
Qed.
Lemma quark_t_htl T mu : 0 < T -> tendsC R0 (fun x => polarization_quark_t_thermal_part_landau_i nc q (x * om) (x * k) (x * m) (/ T) mu)
  (RtoC (- (fermion_weight T mu q * (T * T * htl_T om k) / (2 * INR nc)))).
Proof.
  intros HT. pose proof INRnc as Hn. pose proof PI2n as Hpi. pose proof PI_neq0.
  apply (tendsC_ext (fun x => RtoC (FQt PI2 (INR nc) q (x * om) (x * k) (energy q (x * m)) (fermi_distribution_double (energy q (x * m)) (/ T) mu)))).
  { apply (ev_right _ 0 1); [lra|]. intros x [Hx _]. destruct (ev_pos x Hx). now rewrite quark_t_form. }
  eapply tendsC_eq; [|apply tendsC_RtoC; apply FQt_lim; auto; [apply energy_sc; auto|apply fermi_sc; auto|intros; apply energy_pos'; auto]].
  f_equal. unfold fermion_weight, htl_T, htl_L, htl_phase, PhiH. change PI2 with (PI * PI).
  pose proof (exp_pos ((q - mu) / T)). pose proof (exp_pos ((q + mu) / T)). field. repeat split; lra.
Qed.

(** Zero temperature. *)
Lemma sea_sc mu : q <> Rabs mu -> tends R0 (fun x => fermi_distribution_double_zero_temp (energy q (x * m)) mu) (if Rlt_dec q (Rabs mu) then 1 else 0).
Proof.
  intros Hne. pose proof (energy_sc q m Hq) as He.
  assert (Hloc : forall c, q < c -> R0 (fun x => energy q (x * m) < c)).
  { intros c Hc. apply (He (fun y => y < c)). exists (mkposreal (c - q) ltac:(lra)). intros y Hy. apply Rabs_def2 in Hy. unfold minus, plus, opp in Hy; cbn in Hy. lra. }
  assert (Hge : forall x, q <= energy q (x * m)).
  { intros x. rewrite energy_R. rewrite <- (sqrt_square q) at 1 by lra. apply sqrt_le_1; nra. }
  destruct (Rlt_dec q (Rabs mu)) as [H|H].
  - apply (tends_ext (fun _ => 1)); [|apply tends_const]. generalize (Hloc _ H). apply filter_imp. intros x Hx. pose proof (Hge x).
    unfold fermi_distribution_double_zero_temp, fermi_distribution_zero_temp. numcbn. unfold Rabs in *. destruct (Rcase_abs mu); destruct (Rlt_dec mu (energy q (x * m))), (Rlt_dec (- mu) (energy q (x * m))); lra.
  - apply (tends_ext (fun _ => 0)); [|apply tends_const]. apply filter_forall. intros x. pose proof (Hge x).
    unfold fermi_distribution_double_zero_temp, fermi_distribution_zero_temp. numcbn. unfold Rabs in *. destruct (Rcase_abs mu); destruct (Rlt_dec mu (energy q (x * m))), (Rlt_dec (- mu) (energy q (x * m))); lra.
Qed.
Lemma quark0_l_htl mu : q <> Rabs mu -> tendsC R0 (fun x => polarization_quark_l_thermal_part_zero_temp_landau_i nc q (x * om) (x * k) (x * m) mu)
  (RtoC (- (sea_weight mu q * htl_L om k / (2 * INR nc)))).
Proof.
  intros HT. pose proof INRnc as Hn. pose proof PI2n as Hpi. pose proof PI_neq0.
  apply (tendsC_ext (fun x => RtoC (FQl PI2 (INR nc) q (x * om) (x * k) (energy q (x * m)) (fermi_distribution_double_zero_temp (energy q (x * m)) mu)))).
  { apply (ev_right _ 0 1); [lra|]. intros x [Hx _]. destruct (ev_pos x Hx). now rewrite quark0_l_form. }
  eapply tendsC_eq; [|apply tendsC_RtoC; apply FQl_lim; auto; [apply energy_sc; auto|apply sea_sc; auto|intros; apply energy_pos'; auto]].
  f_equal. unfold sea_weight, htl_L, htl_phase, PhiH. change PI2 with (PI * PI). destruct (Rlt_dec q (Rabs mu)); field; repeat split; lra.
Qed.
Lemma quark0_t_htl mu : q <> Rabs mu -> tendsC R0 (fun x => polarization_quark_t_thermal_part_zero_temp_landau_i nc q (x * om) (x * k) (x * m) mu)
  (RtoC (- (sea_weight mu q * htl_T om k / (2 * INR nc)))).
Proof.
  intros HT. pose proof INRnc as Hn. pose proof PI2n as Hpi. pose proof PI_neq0.
  apply (tendsC_ext (fun x => RtoC (FQt PI2 (INR nc) q (x * om) (x * k) (energy q (x * m)) (fermi_distribution_double_zero_temp (energy q (x * m)) mu)))).
  { apply (ev_right _ 0 1); [lra|]. intros x [Hx _]. destruct (ev_pos x Hx). now rewrite quark0_t_form. }
  eapply tendsC_eq; [|apply tendsC_RtoC; apply FQt_lim; auto; [apply energy_sc; auto|apply sea_sc; auto|intros; apply energy_pos'; auto]].
  f_equal. unfold sea_weight, htl_T, htl_L, htl_phase, PhiH. change PI2 with (PI * PI). destruct (Rlt_dec q (Rabs mu)); field; repeat split; lra.
Qed.
End Quark.
