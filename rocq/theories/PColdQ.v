(** * The quark integrands: weights, integrability and the zero-temperature limit *)
From Coq Require Import Reals Lra Lia List Psatz.
From Coquelicot Require Import Coquelicot.
From Verif Require Import Num CField MCommon MConsts MThermal MThermalZM MThermalZP MPolar MQuark SpecInteg SpecInt SpecLim PCplx PDistr PVac PDress2 PCoh PCoh2 PLogs PMass PMassZ PMass2 PReal PForms PForms2 PCombo PComboR PReg PLim PLimC PJoint PJoint2 PInt PCold PBound PColdG PColdI PFermi.
Import List ListNotations.
Open Scope R_scope.
Local Notation PI2 := MThermal.PI2.

Section Double.
Variables (m mu : R) (w : R -> R).
Hypothesis Ow : Ob 1 w.
Hypothesis Cw : forall q, 0 < q -> continuous w q.
Definition dT (b q : R) : R := w q * fermi_distribution_double (T := R) (energy q m) b mu.
Definition dZ (q : R) : R := w q * fermi_distribution_double_zero_temp (T := R) (energy q m) mu.
Definition cT (b q : R) : R := w q * (fermi_distribution (T := R) (energy q m) b mu - fermi_distribution (T := R) (energy q m) b (- mu)).
Definition sea2 : R := sea m mu w + sea m (- mu) w.
Definition seaD : R := sea m mu w - sea m (- mu) w.

Lemma dT_is b : 0 < b -> is_RInt (compact_R (dT b)) 0 1 (RInt (compact_R (fT m mu w b)) 0 1 + RInt (compact_R (fT m (- mu) w b)) 0 1).
Proof.
  intros Hb. pose proof (RInt_correct (V := R_CompleteNormedModule) _ _ _ (fT_int m mu w Ow Cw b Hb)) as A.
  pose proof (RInt_correct (V := R_CompleteNormedModule) _ _ _ (fT_int m (- mu) w Ow Cw b Hb)) as B.
  eapply (is_RInt_ext (V := R_NormedModule)); [|exact (is_RInt_plus (V := R_NormedModule) _ _ _ _ _ _ A B)].
  intros t _. unfold compact_R, dT, fT, fermi_distribution_double, fermi_distribution, plus, Rdiv. simpl. numcbn. ring.
Qed.
Lemma cT_is b : 0 < b -> is_RInt (compact_R (cT b)) 0 1 (RInt (compact_R (fT m mu w b)) 0 1 - RInt (compact_R (fT m (- mu) w b)) 0 1).
Proof.
  intros Hb. pose proof (RInt_correct (V := R_CompleteNormedModule) _ _ _ (fT_int m mu w Ow Cw b Hb)) as A.
  pose proof (RInt_correct (V := R_CompleteNormedModule) _ _ _ (fT_int m (- mu) w Ow Cw b Hb)) as B.
  eapply (is_RInt_ext (V := R_NormedModule)); [|exact (is_RInt_minus (V := R_NormedModule) _ _ _ _ _ _ A B)].
  intros t _. unfold compact_R, cT, fT, fermi_distribution, minus, plus, opp, Rdiv. simpl. numcbn. ring.
Qed.
Lemma d_cold : tends (Rbar_locally p_infty) (fun b => RInt (compact_R (dT b)) 0 1) sea2.
Proof.
  apply (tends_ext (fun b => RInt (compact_R (fT m mu w b)) 0 1 + RInt (compact_R (fT m (- mu) w b)) 0 1)).
  - exists 0. intros b Hb. symmetry. apply is_RInt_unique. now apply dT_is.
  - unfold sea2. apply tends_plus; now apply fermi_cold.
Qed.
Lemma c_cold : tends (Rbar_locally p_infty) (fun b => RInt (compact_R (cT b)) 0 1) seaD.
Proof.
  apply (tends_ext (fun b => RInt (compact_R (fT m mu w b)) 0 1 - RInt (compact_R (fT m (- mu) w b)) 0 1)).
  - exists 0. intros b Hb. symmetry. apply is_RInt_unique. now apply cT_is.
  - unfold seaD. apply tends_minus; now apply fermi_cold.
Qed.
Lemma sea_out nu : nu < Rabs m -> sea m nu w = 0.
Proof.
  intros H. unfold sea, pF. destruct (Rle_dec (Rabs m) nu); [lra|]. apply (RInt_point (V := R_CompleteNormedModule)).
Qed.
Lemma sea2_out : Rabs mu < Rabs m -> sea2 = 0.
Proof.
  intros H. unfold sea2. rewrite !sea_out; [lra| |]; revert H; unfold Rabs; destruct (Rcase_abs mu), (Rcase_abs m); lra.
Qed.
Lemma sea2_in : Rabs m <= Rabs mu -> sea2 = RInt w 0 (fermi_momentum m mu).
Proof.
  intros H. unfold sea2. pose proof (Rabs_pos m) as Pm. destruct (Rtotal_order mu 0) as [L|[E|G]].
  - rewrite (Rabs_left mu) in H by auto. rewrite (sea_out mu) by lra. unfold sea, pF. destruct (Rle_dec (Rabs m) (- mu)); [|lra].
    rewrite Rplus_0_l, !kF_R. replace (- mu * - mu) with (mu * mu) by ring. reflexivity.
  - subst mu. rewrite Rabs_R0 in H. assert (m = 0) by (destruct (Req_dec m 0); auto; pose proof (Rabs_pos_lt m); lra). subst m.
    unfold sea, pF. rewrite Ropp_0, Rabs_R0. destruct (Rle_dec 0 0); [|lra]. rewrite kF_R. replace (0 * 0 - 0 * 0) with 0 by ring. rewrite sqrt_0, (RInt_point (V := R_CompleteNormedModule)). apply Rplus_0_l.
  - rewrite (Rabs_right mu) in H by lra. rewrite (sea_out (- mu)) by lra. unfold sea, pF. destruct (Rle_dec (Rabs m) mu); [|lra].
    apply Rplus_0_r.
Qed.
Lemma dZ_is : Rabs m <= Rabs mu -> is_RInt dZ 0 (sqrt (mu * mu - m * m)) sea2.
Proof.
  intros H. rewrite sea2_in by auto. rewrite <- kF_R. assert (K0 : 0 <= fermi_momentum m mu) by (rewrite kF_R; apply sqrt_pos).
  assert (I : is_RInt w 0 (fermi_momentum m mu) (RInt w 0 (fermi_momentum m mu))).
  { assert (P : pF m (Rabs mu) = fermi_momentum m mu).
    { unfold pF. destruct (Rle_dec (Rabs m) (Rabs mu)); [|contradiction]. rewrite !kF_R. f_equal. rewrite Rabs_sq. ring. }
    rewrite <- P. exact (sea_is m (Rabs mu) w Ow Cw). }
  eapply (is_RInt_ext (V := R_NormedModule)); [|exact I]. rewrite Rmin_left, Rmax_right by auto. intros q Hq. unfold dZ.
  destruct (Req_dec (Rabs m) (Rabs mu)) as [E|E].
  - exfalso. rewrite kF_R in Hq. replace (mu * mu - m * m) with 0 in Hq by (rewrite <- (Rabs_sq mu), <- E, Rabs_sq; ring). rewrite sqrt_0 in Hq. lra.
  - rewrite occ_inside; [symmetry; apply Rmult_1_r|left; apply energy_pos'; lra|apply energy_lt; lra].
Qed.
End Double.

(** ** Complex-valued integrands with a real form *)
Lemma compact_RtoC (f : R -> C) (h : R -> R) v : (forall q, 0 < q -> f q = RtoC (h q)) -> is_RInt (compact_R h) 0 1 v ->
  is_RInt (V := C_R_NormedModule) (compact_C f) 0 1 (RtoC v).
Proof.
  intros E H. apply is_RInt_pair.
  - eapply (is_RInt_ext (V := R_NormedModule)); [|exact H]. rewrite Rmin_left, Rmax_right by lra. intros t Ht.
    rewrite compact_fst by lra. unfold compact_R. rewrite E; [reflexivity|apply compact_dom; lra].
  - apply (is_RInt_ext (V := R_NormedModule) (fun _ => 0)).
    + rewrite Rmin_left, Rmax_right by lra. intros t Ht. rewrite compact_snd by lra. unfold compact_R. rewrite E; [simpl; unfold Rdiv; ring|apply compact_dom; lra].
    + assert (A := is_RInt_const (V := R_NormedModule) 0 1 0). unfold scal in A; simpl in A; unfold mult in A; simpl in A. now rewrite Rmult_0_r in A.
Qed.
Lemma compact_ext (f h : R -> R) v : (forall q, 0 < q -> f q = h q) -> is_RInt (compact_R h) 0 1 v -> is_RInt (compact_R f) 0 1 v.
Proof.
  intros E H. eapply (is_RInt_ext (V := R_NormedModule)); [|exact H]. rewrite Rmin_left, Rmax_right by lra. intros t Ht.
  unfold compact_R. rewrite E; [reflexivity|apply compact_dom; lra].
Qed.
Lemma sea_RtoC (f : R -> C) (h : R -> R) a v : 0 <= a -> (forall q, 0 < q -> f q = RtoC (h q)) -> is_RInt h 0 a v ->
  is_RInt (V := C_R_NormedModule) f 0 a (RtoC v).
Proof.
  intros Ha E H. apply is_RInt_pair.
  - eapply (is_RInt_ext (V := R_NormedModule)); [|exact H]. rewrite Rmin_left, Rmax_right by lra. intros t Ht. now rewrite E.
  - apply (is_RInt_ext (V := R_NormedModule) (fun _ => 0)).
    + rewrite Rmin_left, Rmax_right by lra. intros t Ht. now rewrite E.
    + assert (A := is_RInt_const (V := R_NormedModule) 0 a 0). unfold scal in A; simpl in A; unfold mult in A; simpl in A. now rewrite Rmult_0_r in A.
Qed.
Lemma sea_ext (f h : R -> R) a v : 0 <= a -> (forall q, 0 < q -> f q = h q) -> is_RInt h 0 a v -> is_RInt f 0 a v.
Proof.
  intros Ha E H. eapply (is_RInt_ext (V := R_NormedModule)); [|exact H]. rewrite Rmin_left, Rmax_right by lra. intros t Ht. now rewrite E.
Qed.

(** ** The weights *)
Section Weights.
Variables (nc : nat) (om p mq : R).
Hypothesis Hnc : (0 < nc)%nat.
Hypothesis Hom : om <> 0.
Let Hn : INR nc <> 0. Proof. apply not_0_INR. lia. Qed.
Definition wl (q : R) : R := FQl PI2 (INR nc) q om p (energy q mq) 1.
Definition wt (q : R) : R := FQt PI2 (INR nc) q om p (energy q mq) 1.
Definition wp (q : R) : R := 2 * (q * q) * (3 * - (energy q mq * energy q mq) + q * q) / ((om * om + 4 * (energy q mq * energy q mq)) * energy q mq * 3 * PI2 * INR nc).
Definition wc (q : R) : R := INR nc * q * q / PI2q.
Lemma FQl_lin q f : FQl PI2 (INR nc) q om p (energy q mq) f = wl q * f.
Proof. unfold wl, FQl, Rdiv. ring. Qed.
Lemma FQt_lin q f : FQt PI2 (INR nc) q om p (energy q mq) f = wt q * f.
Proof. unfold wt, FQt, Rdiv. ring. Qed.
Let Ti (q : R) : tends (locally q) (fun x => x) q. Proof. intros P HP. exact HP. Qed.
Lemma tends_cont (f : R -> R) q : tends (locally q) f (f q) -> continuous f q.
Proof. intros H. exact H. Qed.
Lemma wl_cont q : 0 < p -> 0 < q -> continuous wl q.
Proof.
  intros Hp Hq. apply tends_cont. unfold wl.
  apply (FQl_tends (fun x => x) (fun _ => om) (fun _ => p) q om p); auto using PI2_neq, energy_pos'; first [apply tends_const|now apply (energy_tends (fun x => x))|apply (Ti q)].
Qed.
Lemma wt_cont q : 0 < p -> 0 < q -> continuous wt q.
Proof.
  intros Hp Hq. apply tends_cont. unfold wt.
  apply (FQt_tends (fun x => x) (fun _ => om) (fun _ => p) q om p); auto using PI2_neq, energy_pos'; first [apply tends_const|now apply (energy_tends (fun x => x))|apply (Ti q)].
Qed.
Lemma ome q : 0 < om * om + 4 * (energy q mq * energy q mq).
Proof. pose proof (Rlt_0_sqr om Hom). pose proof (Rle_0_sqr (energy q mq)). unfold Rsqr in *. lra. Qed.
Lemma wp_cont q : 0 < q -> continuous wp q.
Proof.
  intros Hq. apply tends_cont. unfold wp. pose proof (energy_tends (fun x => x) q (Ti q) mq) as Te. pose proof (energy_pos' q Hq mq) as He.
  pose proof (ome q) as Ho. pose proof PI2_neq as Hpi. pose proof (Ti q) as Tq. apply tends_div; [|tendf|tendf].
  revert Hpi Hn; generalize PI2 (INR nc); intros; repeat apply Rmult_integral_contrapositive_currified; auto; lra.
Qed.
Lemma wc_cont q : 0 < q -> continuous wc q.
Proof.
  intros Hq. apply tends_cont. unfold wc. pose proof (Ti q) as Tq. apply tends_div; [|tendf|apply tends_const].
  unfold PI2q. pose proof PI_RGT_0. nra.
Qed.
Lemma Ob_qe : Ob 0 (fun q => q / energy q mq).
Proof.
  apply (Ob_bounded _ 1). intros q Hq. pose proof (energy_pos' q Hq mq) as He. pose proof (energy_ge_q mq q Hq) as Hge.
  unfold Rdiv. rewrite Rabs_right by (apply Rle_ge, Rmult_le_pos; [lra|left; now apply Rinv_0_lt_compat]).
  apply (Rmult_le_reg_r (energy q mq)); [lra|]. rewrite Rmult_assoc, Rinv_l by lra. lra.
Qed.
Lemma Ob_logs : 0 < p -> Ob 1 (fun q => LA q om p (energy q mq) 0) /\ Ob 0 (fun q => PH q om p (energy q mq) 0).
Proof.
  intros Hp. assert (He : forall q, 0 < q -> 0 < energy q mq) by (intros; now apply energy_pos').
  assert (N : Ob 0 (fun q => / NP q om p (energy q mq) 0) /\ Ob 0 (fun q => / NM q om p (energy q mq) 0)).
  { destruct (Req_dec mq 0) as [->|Hm]; [|now apply massive_NP].
    destruct (massless_NP om p 0 Hom Hp (Rle_refl 0)) as [N1 N2].
    assert (E : forall q, 0 < q -> energy q 0 = q) by (intros q Hq; rewrite energy_R; replace (0 * 0 + q * q) with (q * q) by ring; apply sqrt_square; lra).
    split; [apply (Ob_ext 0 _ _ (fun q Hq => f_equal (fun e => / NP q om p e 0) (eq_sym (E q Hq)))); exact N1
           |apply (Ob_ext 0 _ _ (fun q Hq => f_equal (fun e => / NM q om p e 0) (eq_sym (E q Hq)))); exact N2]. }
  destruct N as [N1 N2]. split; [now apply (Ob_LA om p 0 (fun q => energy q mq))|now apply (Ob_PH om p 0 (fun q => energy q mq))].
Qed.
Lemma wl_Ob : 0 < p -> Ob 1 wl.
Proof.
  intros Hp. destruct (Ob_logs Hp) as [OL OP]. pose proof Ob_qe as Oq. pose proof (Ob_energy mq) as Oe. cbv beta in *. pose proof PI2_neq as Hpi.
  pose proof (Ob_ext 0 _ _ (fun q _ => eq_refl (energy q mq)) Oe) as Oe'.
  apply (Ob_ext 1 (fun q => - ((om * om + p * p) * / (2 * PI2 * INR nc * (p * p))) * (q * (q / energy q mq))
    + (om * om + p * p) * / (8 * PI2 * INR nc * (p * p * p)) * ((q / energy q mq) * (om * om + p * p - 4 * (energy q mq * energy q mq)) * LA q om p (energy q mq) 0)
    - (om * om + p * p) * om * / (2 * PI2 * INR nc * (p * p * p)) * (q * PH q om p (energy q mq) 0))).
  - intros q Hq. pose proof (energy_pos' q Hq mq) as He. unfold wl, FQl. field. repeat split; auto; lra.
  - assert (T1 : Ob 1 (fun q => q * (q / energy q mq))) by (apply Ob_ml1; [apply Ob_id|auto]).
    assert (T2 : Ob 1 (fun q => (q / energy q mq) * (om * om + p * p - 4 * (energy q mq * energy q mq)) * LA q om p (energy q mq) 0)).
    { apply Ob_mr1; [|auto]. apply Ob_mult0; [auto|ob0]. }
    assert (T3 : Ob 1 (fun q => q * PH q om p (energy q mq) 0)) by (apply Ob_ml1; [apply Ob_id|auto]).
    apply Ob_minus; [apply Ob_plus|]; (apply Ob_mr1; [apply Ob_const|auto]).
Qed.
Lemma wt_Ob : 0 < p -> Ob 1 wt.
Proof.
  intros Hp. destruct (Ob_logs Hp) as [OL OP]. pose proof Ob_qe as Oq. pose proof (Ob_energy mq) as Oe. cbv beta in *. pose proof PI2_neq as Hpi.
  pose proof (Ob_ext 0 _ _ (fun q _ => eq_refl (energy q mq)) Oe) as Oe'. pose proof (Ob_to0 1 _ Ob_id) as Oi. cbv beta in *.
  apply (Ob_ext 1 (fun q => - ((p * p - om * om) * / (4 * PI2 * INR nc * (p * p))) * (q * (q / energy q mq))
    + / (16 * PI2 * INR nc * (p * p * p)) * ((q / energy q mq) * ((p * p - om * om) * (om * om + p * p) + 4 * (q * q) * (p * p) + 4 * (om * om) * (energy q mq * energy q mq)) * LA q om p (energy q mq) 0)
    + om * (om * om + p * p) * / (4 * PI2 * INR nc * (p * p * p)) * (q * PH q om p (energy q mq) 0))).
  - intros q Hq. pose proof (energy_pos' q Hq mq) as He. unfold wt, FQt. field. repeat split; auto; lra.
  - assert (T1 : Ob 1 (fun q => q * (q / energy q mq))) by (apply Ob_ml1; [apply Ob_id|auto]).
    assert (T2 : Ob 1 (fun q => (q / energy q mq) * ((p * p - om * om) * (om * om + p * p) + 4 * (q * q) * (p * p) + 4 * (om * om) * (energy q mq * energy q mq)) * LA q om p (energy q mq) 0)).
    { apply Ob_mr1; [|auto]. apply Ob_mult0; [auto|ob0]. }
    assert (T3 : Ob 1 (fun q => q * PH q om p (energy q mq) 0)) by (apply Ob_ml1; [apply Ob_id|auto]).
    apply Ob_plus; [apply Ob_plus|]; (apply Ob_mr1; [apply Ob_const|auto]).
Qed.
Lemma wp_Ob : Ob 1 wp.
Proof.
  pose proof Ob_qe as Oq. pose proof (Ob_energy mq) as Oe. cbv beta in *. pose proof PI2_neq as Hpi.
  pose proof (Ob_ext 0 _ _ (fun q _ => eq_refl (energy q mq)) Oe) as Oe'. pose proof (Ob_to0 1 _ Ob_id) as Oi. cbv beta in *.
  assert (Od : Ob 0 (fun q => / (om * om + 4 * (energy q mq * energy q mq)))).
  { apply (Ob_inv_bounded _ (om * om)); [pose proof (Rlt_0_sqr om Hom); unfold Rsqr in *; lra|]. intros q Hq. pose proof (Rle_0_sqr (energy q mq)). unfold Rsqr in *. lra. }
  apply (Ob_ext 1 (fun q => 2 * / (3 * PI2 * INR nc) * (q * ((q / energy q mq) * (3 * - (energy q mq * energy q mq) + q * q) * / (om * om + 4 * (energy q mq * energy q mq)))))).
  - intros q Hq. pose proof (energy_pos' q Hq mq) as He. pose proof (ome q). unfold wp. field. repeat split; auto; lra.
  - apply Ob_mr1; [apply Ob_const|]. apply Ob_ml1; [apply Ob_id|]. ob0.
Qed.
Lemma wc_Ob : Ob 1 wc.
Proof.
  apply (Ob_ext 1 (fun q => INR nc * / PI2q * (q * q))); [intros q _; unfold wc, Rdiv; ring|].
  apply Ob_mr1; [apply Ob_const|]. apply Ob_ml1; [apply Ob_id|apply (Ob_to0 1), Ob_id].
Qed.
End Weights.
