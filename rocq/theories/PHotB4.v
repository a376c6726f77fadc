(** * The gluon and ghost polarizations at high temperature *)
From Coq Require Import Reals Lra Lia List Psatz.
From Coquelicot Require Import Coquelicot.
From Verif Require Import Num CField MCommon MConsts MVacuum MThermal MPolar MDress MQuark SpecInteg SpecInt SpecLim SpecHtl PCplx PDistr PVac PDress PDress2 PCoh PCoh2 PMass PMass2 PReal PForms PForms2 PCombo PComboR PLim PLimC PJoint2 PCold PBound PColdG PColdI PColdFin PDeriv PHtl PHtl2 PHtl3 PColdQ PDensity PHot PHot2 PHotB PHotB2 PHotB3.
Import List ListNotations.
Open Scope R_scope.
Local Notation PI2 := MThermal.PI2.

Ltac hb := repeat first
  [ eassumption
  | match goal with
    | |- HB (fun b q => _ + _) _ => eapply HB_plus
    | |- HB (fun b q => _ - _) _ => eapply HB_minus
    | |- HB (fun b q => - _) _ => eapply HB_opp
    | |- HB (fun b q => ?c * _) _ => eapply HB_scal
    end ].
Lemma HB_0 : HB (fun _ _ => 0) 0.
Proof. apply (HB_small _ 0). intros. rewrite Rabs_R0. lra. Qed.

(** ** The combinations *)
Lemma GH_HB s m im0 i00 di jm j0 dj jl : m <> 0 -> HB im0 0 -> HB i00 0 -> HB di 0 -> HB jm jl -> HB j0 jl -> HB dj 0 ->
  HB (fun b q => GHr s (m * m) (/ m * / m) (im0 b q) (i00 b q) (di b q) (jm b q) (j0 b q) (dj b q)) 0.
Proof.
  intros Hm H1 H2 H3 H4 H5 H6. eapply HB_ext; [intros b q _ _; unfold GHr; reflexivity|]. eapply HB_eq; [|hb]. field. lra.
Qed.
Lemma GP_HB s m x00 xs x0 is i0 dxs dx0 ds d0 jm j0 dj d2j Jm J0 dJ d2J h xl jl ql dJl : m <> 0 ->
  HB x00 xl -> HB xs xl -> HB x0 xl -> HB is 0 -> HB i0 0 -> HB dxs 0 -> HB dx0 0 -> HB ds 0 -> HB d0 0 -> HB jm jl -> HB j0 jl -> HB dj 0 -> HB d2j 0 ->
  HB (fun b q => (Jm b q - J0 b q) * (/ m * / m) - h b q) ql -> HB dJ dJl -> HB d2J 0 ->
  HB (fun b q => GPr s (m * m) (/ m * / m) (x00 b q) (xs b q) (x0 b q) (is b q) (i0 b q) (dxs b q) (dx0 b q) (ds b q) (d0 b q) (jm b q) (j0 b q) (dj b q) (d2j b q) (Jm b q) (J0 b q) (dJ b q) (d2J b q) - h b q)
    (4 * xl - 2 * jl + ql - dJl).
Proof.
  intros Hm H1 H2 H3 H4 H5 H6 H7 H8 H9 H10 H11 H12 H13 H14 H15 H16.
  set (g := fun b q => (Jm b q - J0 b q) * (/ m * / m) - h b q) in *.
  set (m2 := m * m). set (im2 := / m * / m).
  eapply HB_ext with (h := fun b q => (3 * s * s * (im2 * im2 / 2) - 1) * x00 b q
   + ((3 * s * s + 8 * s * m2 + 4 * m2 * m2) * (im2 * im2 / 2) + 4) * xs b q
   - (3 * s * s + 4 * s * m2 + m2 * m2) * (im2 * im2) * x0 b q
   + 2 * (s + 2 * m2) * s * im2 * is b q - 2 * (s + m2) * s * im2 * i0 b q
   - (2 * s + 3 * m2) * im2 * jm b q + (2 * s + m2) * im2 * j0 b q
   - ((s + 2 * m2) * (s + 2 * m2) * im2 + 8 * m2) * dxs b q + (s + m2) * (s + m2) * im2 * dx0 b q
   - 2 * s * (s + 4 * m2) * ds b q + (s + m2) * (s + m2) * d0 b q
   + (s + 3 * m2) * dj b q - m2 * m2 * d2j b q + g b q + (- dJ b q + (m2 / 2) * d2J b q)).
  { intros b q _ _. unfold GPr, g, im2, m2. field. lra. }
  eapply HB_eq; [|hb]. unfold m2, im2. field. lra.
Qed.

Section Glue.
Variables (om p m : R).
Hypothesis Hom : om <> 0.
Hypothesis Hp : 0 < p.
Hypothesis Hm : m <> 0.
Let s := om * om + p * p.
Let Hs : 0 < s. Proof. unfold s. nra. Qed.
Notation pp := (PI * PI).
Let PIn : PI <> 0. Proof. exact PI_neq0. Qed.
Let P2 : pp <> 0. Proof. pose proof PI_neq0. now apply Rmult_integral_contrapositive_currified. Qed.
Let P2' : PI2 <> 0. Proof. exact P2. Qed.
Let M2 : m * m <> 0. Proof. now apply Rmult_integral_contrapositive_currified. Qed.
Let Ee q : 0 < q -> 0 < energy q m.
Proof. intros H. pose proof (energy_ge_q m q H). lra. Qed.
Let ME d k := massive_leg om p d (fun q => energy q m) Hom Hp Ee (proj1 (massive_NP om p d m Hom Hm)) (proj2 (massive_NP om p d m Hom Hm)) (Ob_energy m) PI2 k.
Let ZE d k (Hd : 0 <= d) := massless_leg om p d (fun q => q) Hom Hp (fun q H => H) (proj1 (massless_NP om p d Hom Hp Hd)) (proj2 (massless_NP om p d Hom Hp Hd)) Ob_id PI2 k.
Let LZ d k : tends INF (fun q => nth k (AL PI2 q om p q d) 0 / (q * q)) (nth k (CA PI2 om p d) 0) /\
             tends INF (fun q => nth k (BL PI2 q om p q d) 0 / (q * q)) (nth k (CB PI2 om p d) 0).
Proof.
  destruct (legs_asym PI2 om p 0 d P2' Hom Hp k) as [A B].
  split; (eapply tends_ext; [|first [exact A|exact B]]); exists 0; intros q Hq; cbv beta; (rewrite energy_0; [reflexivity|lra]).
Qed.
(** bubble limits *)
Definition BC (d : R) (k : nat) : R := nth k (CA PI2 om p d) 0 + nth k (CB PI2 om p (- d)) 0.
Lemma same_HB k : HB (fun b q => nth k (FL PI2 q om p (nE q m b) (energy q m) (nE q m b) (energy q m) 0) 0) (BC 0 k).
Proof.
  eapply HB_ext; [intros b q _ _; apply FL_legs|].
  apply HB_plus; [apply HB_nE; auto; [apply ME|exact (proj1 (legs_asym PI2 om p m 0 P2' Hom Hp k))]|apply HB_nE; auto; [apply ME|exact (proj2 (legs_asym PI2 om p m (- 0) P2' Hom Hp k))]].
Qed.
Lemma m0_HB k : HB (fun b q => nth k (FL PI2 q om p (nE q m b) (energy q m) (n0 q b) q (- (m * m))) 0) (BC (- (m * m)) k).
Proof.
  eapply HB_ext; [intros b q _ _; apply FL_legs|].
  apply HB_plus; [apply HB_nE; auto; [apply ME|exact (proj1 (legs_asym PI2 om p m (- (m * m)) P2' Hom Hp k))]|].
  apply (HB_n0 (fun q => nth k (BL PI2 q om p q (- - (m * m))) 0)); [apply ZE; nra|exact (proj2 (LZ (- - (m * m)) k))].
Qed.
Lemma zero_HB k : (k < 3)%nat -> HB (fun b q => nth k (FL PI2 q om p (n0 q b) q (n0 q b) q 0) 0) (BC 0 k).
Proof.
  intros Hk. eapply HB_ext; [intros b q _ _; apply FL_legs|]. assert (Z0 : 0 <= - 0) by lra. assert (Z1 : 0 <= 0) by lra.
  apply HB_plus.
  - apply (HB_n0 (fun q => nth k (AL PI2 q om p q 0) 0)); [|exact (proj1 (LZ 0 k))].
    destruct k as [|[|[|k]]]; [apply (ZE 0 0 Z1)|apply (ZE 0 1 Z1)|apply (ZE 0 2 Z1)|lia].
  - apply (HB_n0 (fun q => nth k (BL PI2 q om p q (- 0)) 0)); [apply (ZE (- 0) k Z0)|exact (proj2 (LZ (- 0) k))].
Qed.
Lemma BC_val d : BC d 0 = 0 /\ BC d 1 = - (p * s + om * s * PhiH om p + om * om * p) / (4 * pp * (p * p * p)) /\ BC d 2 = s * (2 * p + om * PhiH om p) / (8 * pp * (p * p * p)) /\ BC d 3 = 0 /\ BC d 4 = 0 /\ BC d 5 = 0.
Proof.
  unfold BC, CA, CB, c_l, c_t; cbn [nth]. fold s. change PI2 with pp. pose proof PI_neq0; repeat split; eqR; first [ring|field; repeat split; auto; lra].
Qed.

(** tadpoles *)
Definition tadc : list R := [/ (2 * pp); 0; 0; 0; / (4 * pp); - / (4 * pp); 0; 0; 0].
Lemma tadpoles_HB k : k <> 1%nat -> k <> 2%nat -> HB (fun b q => nth k (tadpoles q m b) 0) (nth k tadc 0).
Proof.
  intros K1 K2. assert (E0 : forall q, 0 < q -> energy q m <> 0) by (intros q Hq; pose proof (Ee q Hq); lra).
  pose proof (Ob_energy m) as OE. pose proof (Ob_inv_energy m Hm) as OI.
  assert (TI : tends INF (fun q => / q) 0) by apply tends_inv_infty.
  assert (K : forall f w c, Ob 0 w -> tends INF (fun q => w q / (q * q)) c -> (forall b q, 0 < b < 1 -> 0 < q -> f b q = nE q m b * w q) -> HB f c).
  { intros f w c Hw Hc H. apply (HB_ext _ _ _ H). now apply HB_nE. }
  assert (E2 : forall q, energy (T := R) q m * energy q m = m * m + q * q) by (intros; rewrite energy_R; apply sqrt_sqrt; nra).
  assert (Z0 : forall c, tends INF (fun q => c / (q * q)) 0).
  { intros c. apply (tends_ext (fun q => c * (/ q * / q))); [exists 0; intros q Hq; field; lra|]. eapply tends_eq; [|apply tends_mult; [apply tends_const|apply tends_mult; exact TI]]. ring. }
  assert (ZQ : forall c, tends INF (fun q => c * (q * q) / (q * q)) c).
  { intros c. apply (tends_ext (fun q => c)); [exists 0; intros q Hq; field; lra|]. apply tends_const. }
  assert (DN : forall w M, (forall q, 0 < q -> Rabs (w q) <= M) -> HB (fun b q => b * bose_distribution_zero_chempot (energy q m) b * bose_distribution_zero_chempot (- energy q m) b * w q) 0).
  { intros w M. now apply HB_dn. }
  assert (IE : forall q, 0 < q -> 0 < / energy q m <= / Rabs m).
  { intros q Hq. pose proof (Rabs_pos_lt m Hm). split; [apply Rinv_0_lt_compat; auto|]. apply Rinv_le_contravar; auto.
    rewrite energy_R. rewrite <- sqrt_Rsqr_abs. apply sqrt_le_1_alt. unfold Rsqr. nra. }
  destruct k as [|[|[|[|[|[|[|[|[|k]]]]]]]]]; cbn [nth tadpoles tadc]; try lia; unfold nE, j_m_i, j_m_l_i, j_m_t_i, d_j_m_i, d_j_m_l_i, d_j_m_t_i, d2_j_m_i, d2_j_m_l_i, d2_j_m_t_i; numcbn; change PI2 with pp.
  - apply (K _ (fun q => / (2 * pp) * (q * q))); [ob0|apply ZQ|]. intros b q _ Hq. specialize (E0 q Hq). unfold nE. field. auto.
  - apply (K _ (fun q => - / (4 * pp))); [ob0|apply Z0|]. intros b q _ Hq. specialize (E0 q Hq). unfold nE. field. auto.
  - apply (K _ (fun q => / (4 * pp) * (m * m + q * q))); [ob0| |].
    + apply (tends_ext (fun q => / (4 * pp) * (m * m) / (q * q) + / (4 * pp) * (q * q) / (q * q))); [exists 0; intros q Hq; field; split; auto; lra|].
      eapply tends_eq; [|apply tends_plus; [apply Z0|apply ZQ]]. ring.
    + intros b q _ Hq. specialize (E0 q Hq). unfold nE. rewrite <- E2. field. auto.
  - apply (K _ (fun q => - / (4 * pp) * (q * q))); [ob0|apply ZQ|]. intros b q _ Hq. specialize (E0 q Hq). unfold nE. field. auto.
  - eapply HB_ext with (h := fun b q => nE q m b * (/ (8 * pp) * (/ energy q m * / energy q m)) + b * bose_distribution_zero_chempot (energy q m) b * bose_distribution_zero_chempot (- energy q m) b * (- / (8 * pp) * (/ energy q m * / energy q m))).
    { intros b q _ Hq. specialize (E0 q Hq). unfold nE. field. auto. }
    eapply HB_eq; [|apply HB_plus; [apply (HB_nE m Hm); [ob0|]|]]; [apply Rplus_0_r| |].
    + apply (tends_squeeze0 _ (fun q => / (8 * pp) * (/ Rabs m * / Rabs m) / (q * q))); [|apply Z0]. exists 0. intros q Hq. pose proof (IE q Hq) as HI. assert (0 < pp) by (pose proof PI_RGT_0; nra). assert (0 < / (8 * pp)) by (apply Rinv_0_lt_compat; lra).
      assert (0 < / (q * q)) by (apply Rinv_0_lt_compat; nra). unfold Rdiv. rewrite Rabs_pos_eq; [|repeat apply Rmult_le_pos; lra]. apply Rmult_le_compat_r; [lra|]. apply Rmult_le_compat_l; [lra|]. nra.
    + eapply DN with (M := / (8 * pp) * (/ Rabs m * / Rabs m)). intros q Hq. pose proof (IE q Hq) as HI. assert (0 < pp) by (pose proof PI_RGT_0; nra). assert (0 < / (8 * pp)) by (apply Rinv_0_lt_compat; lra).
      replace (- / (8 * pp) * (/ energy q m * / energy q m)) with (- (/ (8 * pp) * (/ energy q m * / energy q m))) by ring. rewrite Rabs_Ropp, Rabs_pos_eq by (repeat apply Rmult_le_pos; lra). apply Rmult_le_compat_l; [lra|]. nra.
  - eapply HB_ext with (h := fun b q => nE q m b * / (8 * pp) + b * bose_distribution_zero_chempot (energy q m) b * bose_distribution_zero_chempot (- energy q m) b * / (8 * pp)).
    { intros b q _ Hq. specialize (E0 q Hq). unfold nE. field. auto. }
    eapply HB_eq; [|apply HB_plus; [apply (HB_nE m Hm); [ob0|apply Z0]|]]; [apply Rplus_0_r|].
    eapply DN. intros q Hq. apply Rle_refl.
  - apply (K _ (fun q => / (8 * pp))); [ob0|apply Z0|]. intros b q _ Hq. specialize (E0 q Hq). unfold nE. field. auto.
  - destruct k; apply HB_0.
Qed.
Lemma j0_HB : HB (fun b q => j_0_i q b) (/ (2 * pp)).
Proof.
  apply (HB_ext _ (fun b q => n0 q b * (/ (2 * pp) * (q * q)))).
  - intros b q _ Hq. unfold n0, j_0_i. numcbn. change PI2 with pp. field. split; auto. lra.
  - apply HB_n0.
    + apply (Ob_ext 2 (fun q => q * (/ (2 * pp) * q))); [intros; ring|]. apply (Ob_mult 1 1 (fun q => q) (fun q => / (2 * pp) * q)); [apply Ob_id|ob1].
    + apply (tends_ext (fun q => / (2 * pp))); [exists 0; intros q Hq; field; split; auto; lra|]. apply tends_const.
Qed.
Lemma jt_diff b q : 0 < q -> (nth 2 (tadpoles q m b) 0 - nth 2 (tadpoles_0 q b) 0) * (/ m * / m) = / (6 * pp) * Q4 m b q.
Proof.
  intros Hq. assert (energy q m <> 0) by (pose proof (Ee q Hq); lra). cbn [nth tadpoles tadpoles_0]. unfold j_m_t_i, j_0_t_i, Q4, nE, n0. numcbn. change PI2 with pp. field. repeat split; auto; lra.
Qed.
Lemma jl_diff b q : 0 < q -> (nth 1 (tadpoles q m b) 0 - nth 1 (tadpoles_0 q b) 0) * (/ m * / m) = - / (2 * pp) * (Q4 m b q + q2nE m b q).
Proof.
  intros Hq. assert (energy q m <> 0) by (pose proof (Ee q Hq); lra). assert (E2 : energy (T := R) q m * energy q m = m * m + q * q) by (rewrite energy_R; apply sqrt_sqrt; nra).
  cbn [nth tadpoles tadpoles_0]. unfold j_m_l_i, j_0_l_i, Q4, q2nE, nE, n0. numcbn. change PI2 with pp.
  set (N := bose_distribution_zero_chempot (energy q m) b). set (N' := bose_distribution_zero_chempot q b).
  set (e := energy q m) in *. clearbody e N N'.
  field [E2]. repeat split; auto; lra.
Qed.

(** ** The glue parts *)
Definition glue_d (n : nat) : R := match n with 1%nat => (om * om / s) * / (6 * pp) - (p * p / s) * / (2 * pp) | 2%nat => / (6 * pp) | _ => 0 end.
Definition glue_c (n : nat) : R := match n with
  | 1%nat => 4 * BC 0 1 - 2 * / (2 * pp) - (p * p / s) * / (2 * pp) - ((om * om / s) * - / (4 * pp) + (p * p / s) * / (4 * pp))
  | 2%nat => 4 * BC 0 2 - 2 * / (2 * pp) + 0 - - / (4 * pp)
  | _ => 0 end.
Definition GR (n : nat) (b q : R) : R :=
  let bs k := nth k (FL PI2 q om p (nE q m b) (energy q m) (nE q m b) (energy q m) 0) 0 in
  let bm k := nth k (FL PI2 q om p (nE q m b) (energy q m) (n0 q b) q (- (m * m))) 0 in
  let b0 k := nth k (FL PI2 q om p (n0 q b) q (n0 q b) q 0) 0 in
  let tm k := nth k (tadpoles q m b) 0 in
  let t0 k := nth k (tadpoles_0 q b) 0 in
  let wt := om * om / s in
  let wl := p * p / s in
  let M := (m * m) in
  let iM := / m * / m in
  match n with
  | 0%nat => GHr s M iM (bm 0%nat) (b0 0%nat) (bm 3%nat) (tm 0%nat) (t0 0%nat) (tm 3%nat)
  | 1%nat => GPr s M iM (b0 1%nat) (bs 1%nat) (bm 1%nat) (bs 0%nat) (bm 0%nat) (bs 4%nat) (bm 4%nat) (bs 3%nat) (bm 3%nat) (tm 0%nat) (t0 0%nat) (tm 3%nat) (tm 6%nat)
       (wt * tm 2%nat + wl * tm 1%nat) (wt * t0 2%nat + wl * t0 1%nat) (wt * tm 5%nat + wl * tm 4%nat) (wt * tm 8%nat + wl * tm 7%nat)
  | 2%nat => GPr s M iM (b0 2%nat) (bs 2%nat) (bm 2%nat) (bs 0%nat) (bm 0%nat) (bs 5%nat) (bm 5%nat) (bs 3%nat) (bm 3%nat) (tm 0%nat) (t0 0%nat) (tm 3%nat) (tm 6%nat)
       (tm 2%nat) (t0 2%nat) (tm 5%nat) (tm 8%nat)
  | _ => 0 end.
Lemma glue_GR n b q : 0 < b -> 0 < q -> nth n (glue_parts q om p m b) (RtoC 0) = RtoC (GR n b q).
Proof.
  intros Hb Hq. rewrite glue_GLUE_R. unfold GLUE.
  assert (W : sC (RtoC om) p = RtoC s) by (unfold sC, s; now rewrite RtoC_plus, !RtoC_mult).
  assert (Sn : forall k, nth k (bubbles_same q om p m b) (RtoC 0) = RtoC (nth k (FL PI2 q om p (nE q m b) (energy q m) (nE q m b) (energy q m) 0) 0)) by (intros; now apply same_nth).
  assert (Mn : forall k, nth k (bubbles_m0 q om p m b) (RtoC 0) = RtoC (nth k (FL PI2 q om p (nE q m b) (energy q m) (n0 q b) q (- (m * m))) 0)) by (intros; now apply m0_nth).
  assert (Zn : forall k, nth k (bubbles_0 q om p b) (RtoC 0) = RtoC (nth k (FL PI2 q om p (n0 q b) q (n0 q b) q 0) 0)) by (intros; now apply zero_nth).
  assert (I2 : (/ RtoC m * / RtoC m)%C = RtoC (/ m * / m)) by (rewrite RtoC_mult, RtoC_inv_all; reflexivity).
  assert (Wt : forall x y x' y' : R, (/ RtoC s * (RtoC x * RtoC y) * RtoC x' + / RtoC s * (RtoC p * RtoC p) * RtoC y')%C = RtoC (x * y / s * x' + p * p / s * y')).
  { intros. unfold Rdiv. rewrite RtoC_plus, !RtoC_mult, RtoC_inv_all. ring. }
  rewrite W, I2, <- (RtoC_mult m m). unfold nn.
  destruct n as [|[|[|[|n]]]]; cbn [nth]; rewrite ?Sn, ?Mn, ?Zn, ?nth_RtoC, ?Wt, ?GHc_r, ?GPc_r; try reflexivity.
Qed.
Lemma glue_HB n : HB (fun b q => GR n b q - glue_d n * Q4 m b q) (glue_c n).
Proof.
  assert (Z : HB (fun b q => 0 - 0 * Q4 m b q) 0) by (eapply HB_ext; [|apply HB_0]; intros; cbv beta; ring).
  assert (B : forall d k, BC d k = BC 0 k \/ (6 <= k)%nat).
  { intros d k. destruct (BC_val d) as (E0 & E1 & E2 & E3 & E4 & E5). destruct (BC_val 0) as (F0' & F1 & F2 & F3 & F4 & F5). destruct k as [|[|[|[|[|[|k]]]]]]; try (left; congruence). right. lia. }
  destruct (BC_val 0) as (Z0 & _ & _ & Z3 & Z4 & Z5).
  assert (S := same_HB). assert (Mm : forall k, (k < 6)%nat -> HB (fun b q => nth k (FL PI2 q om p (nE q m b) (energy q m) (n0 q b) q (- (m * m))) 0) (BC 0 k)).
  { intros k Hk. eapply HB_eq; [|apply m0_HB]. destruct (B (- (m * m)) k); [assumption|lia]. }
  assert (J0 : HB (fun b q => nth 0 (tadpoles_0 q b) 0) (/ (2 * pp))) by apply j0_HB.
  assert (T : forall k, k <> 1%nat -> k <> 2%nat -> HB (fun b q => nth k (tadpoles q m b) 0) (nth k tadc 0)) by apply tadpoles_HB.
  assert (T0 := T 0%nat ltac:(lia) ltac:(lia)). assert (T3 := T 3%nat ltac:(lia) ltac:(lia)). assert (T4 := T 4%nat ltac:(lia) ltac:(lia)). assert (T5 := T 5%nat ltac:(lia) ltac:(lia)). assert (T6 := T 6%nat ltac:(lia) ltac:(lia)). assert (T7 := T 7%nat ltac:(lia) ltac:(lia)). assert (T8 := T 8%nat ltac:(lia) ltac:(lia)).
  cbn [nth tadc] in T0, T3, T4, T5, T6, T7, T8.
  assert (K : forall f k, (k < 6)%nat -> BC 0 k = 0 -> HB f (BC 0 k) -> HB f 0) by (intros f k _ E; now rewrite E).
  destruct n as [|[|[|n]]]; unfold GR, glue_d, glue_c; cbv zeta; [| | |exact Z].
  - eapply HB_ext; [intros b q _ _; rewrite Rmult_0_l, Rminus_0_r; reflexivity|]. eapply GH_HB; eauto.
    + eapply K; [|exact Z0|apply Mm]; lia.
    + eapply K; [|exact Z0|apply zero_HB]; lia.
    + eapply K; [|exact Z3|apply Mm]; lia.
  - eapply HB_eq; [|eapply (GP_HB s m) with (h := fun b q => (om * om / s * / (6 * pp) - p * p / s * / (2 * pp)) * Q4 m b q) (xl := BC 0 1) (jl := / (2 * pp)) (ql := - (p * p / s * / (2 * pp))) (dJl := om * om / s * - / (4 * pp) + p * p / s * / (4 * pp))]; auto.
    + apply zero_HB; lia.
    + apply Mm; lia.
    + eapply K; [|exact Z0|apply S]; lia.
    + eapply K; [|exact Z0|apply Mm]; lia.
    + eapply K; [|exact Z4|apply S]; lia.
    + eapply K; [|exact Z4|apply Mm]; lia.
    + eapply K; [|exact Z3|apply S]; lia.
    + eapply K; [|exact Z3|apply Mm]; lia.
    + eapply HB_ext with (h := fun b q => - (p * p / s * / (2 * pp)) * q2nE m b q).
      * intros b q _ Hq. transitivity (om * om / s * ((nth 2 (tadpoles q m b) 0 - nth 2 (tadpoles_0 q b) 0) * (/ m * / m)) + p * p / s * ((nth 1 (tadpoles q m b) 0 - nth 1 (tadpoles_0 q b) 0) * (/ m * / m)) - (om * om / s * / (6 * pp) - p * p / s * / (2 * pp)) * Q4 m b q); [ring|].
        rewrite jt_diff, jl_diff by auto. ring.
      * eapply HB_eq; [|apply HB_scal, (q2_HB m Hm)]. ring.
    + apply HB_plus; apply HB_scal; auto.
    + eapply HB_eq; [|apply HB_plus; apply HB_scal; [exact T8|exact T7]]. ring.
  - eapply HB_eq; [|eapply (GP_HB s m) with (h := fun b q => / (6 * pp) * Q4 m b q) (xl := BC 0 2) (jl := / (2 * pp)) (ql := 0) (dJl := - / (4 * pp))]; auto.
    + apply zero_HB; lia.
    + apply Mm; lia.
    + eapply K; [|exact Z0|apply S]; lia.
    + eapply K; [|exact Z0|apply Mm]; lia.
    + eapply K; [|exact Z5|apply S]; lia.
    + eapply K; [|exact Z5|apply Mm]; lia.
    + eapply K; [|exact Z3|apply S]; lia.
    + eapply K; [|exact Z3|apply Mm]; lia.
    + eapply HB_ext; [|apply HB_0]. intros b q _ Hq. cbv beta. rewrite jt_diff by auto. ring.
Qed.
Definition glue_lim (n : nat) : R := match n with 1%nat => - htl_L om p | 2%nat => - htl_T om p | _ => 0 end.
Lemma glue_val n : glue_c n * (pp / 6) + glue_d n * - (pp / 4) = glue_lim n.
Proof.
  destruct (BC_val 0) as (_ & E1 & E2 & _). destruct n as [|[|[|n]]]; unfold glue_c, glue_d, glue_lim; rewrite ?E1, ?E2; unfold htl_T, htl_L, htl_phase; fold (PhiH om p); unfold s in *; field; repeat split; auto; lra.
Qed.
End Glue.

(** ** From integrand bounds to integrals, and to the temperature *)
Section Hot.
Variables (J : Integrator) (m : R).
Hypothesis HJ : exact_integrator J.
Hypothesis Hm : m <> 0.
Lemma HB_hot (f : R -> R -> C) (F : R -> R -> R) c e l I : (forall b q, 0 < b -> 0 < q -> f b q = RtoC (F b q)) -> (forall b, 0 < b -> good (f b)) ->
  HB (fun b q => F b q - e * Q4 m b q) c -> c * (PI * PI / 6) + e * - (PI * PI / 4) = l ->
  tendsC INF (fun T => integrateC J (compact_C (f (/ T)%R)) 0 1 I / RtoC (T * T))%C (RtoC l) /\
  tends INF (fun T => integrateR J (compact_R (fun q => fst (f (/ T) q))) 0 1 I / (T * T)) l.
Proof.
  intros E G H <-. set (V := fun b => RInt (compact_R (F b)) 0 1). set (U := fun b => RInt (compact_R (Q4 m b)) 0 1).
  assert (HV : forall b, 0 < b -> is_RInt (compact_R (F b)) 0 1 (V b)).
  { intros b Hb. destruct (G b Hb) as [v Hv]. apply fst_int in Hv. apply (RInt_correct (V := R_CompleteNormedModule)). exists (fst v). apply (compact_ext _ (fun q => fst (f b q))); [|exact Hv]. intros q Hq. now rewrite E. }
  assert (HU : forall b, 0 < b -> is_RInt (compact_R (Q4 m b)) 0 1 (U b)).
  { intros b Hb. apply (RInt_correct (V := R_CompleteNormedModule)). exact (Q4_is m Hm b Hb). }
  assert (HU' : forall b, 0 < b < 1 -> is_RInt (compact_R (fun q => e * Q4 m b q)) 0 1 (e * U b)).
  { intros b [Hb _]. pose proof (clin _ _ e 0 _ _ (HU b Hb) (HU b Hb)) as A. replace (e * U b) with (e * U b + 0 * U b) by ring. eapply compact_ext with (2 := A). intros q Hq. cbv beta. ring. }
  assert (L : tends R0 (fun b => b * b * V b) (c * (PI * PI / 6) + e * - (PI * PI / 4))).
  { apply (HB_int F (fun b q => e * Q4 m b q) V (fun b => e * U b) c); auto; [intros b [Hb _]; auto|].
    apply (tends_ext (fun b => e * (b * b * U b))); [apply filter_forall; intros; ring|]. apply tends_mult; [apply tends_const|]. apply (Q4_lim m Hm). intros b [Hb _]. auto. }
  apply inv_INF_R0 in L.
  assert (L' : tends INF (fun T => V (/ T) / (T * T)) (c * (PI * PI / 6) + e * - (PI * PI / 4))).
  { eapply tends_ext; [|exact L]. generalize T_ev. apply filter_imp. intros T HT. cbv beta. field. lra. }
  assert (VC : forall b, 0 < b -> is_RInt (V := C_R_NormedModule) (compact_C (f b)) 0 1 (RtoC (V b))) by (intros b Hb; eapply compact_RtoC; [intros q Hq; now apply E|now apply HV]).
  split.
  - apply (tendsC_ext (fun T => RtoC (V (/ T) / (T * T)))); [|now apply tendsC_RtoC].
    generalize T_ev. apply filter_imp. intros T HT. rewrite (proj2 HJ _ _ _ _ _ (VC (/ T) ltac:(now apply Rinv_0_lt_compat))), RtoC_div; auto. nra.
  - eapply tends_ext; [|exact L']. generalize T_ev. apply filter_imp. intros T HT. rewrite (proj1 HJ _ _ _ _ _ (fst_int _ _ (VC (/ T) ltac:(now apply Rinv_0_lt_compat)))). reflexivity.
Qed.
Lemma glue_hot om p n I : om <> 0 -> 0 < p ->
  tendsC INF (fun T => integrateC J (compact_C (fun q => nth n (glue_parts q om p m (/ T)%R) (RtoC 0))) 0 1 I / RtoC (T * T))%C (RtoC (glue_lim om p n)) /\
  tends INF (fun T => integrateR J (compact_R (fun q => fst (nth n (glue_parts q om p m (/ T)) (RtoC 0)))) 0 1 I / (T * T)) (glue_lim om p n).
Proof.
  intros Ho Hp. apply (HB_hot (fun b q => nth n (glue_parts q om p m b) (RtoC 0)) (GR om p m n) (glue_c om p n) (glue_d om p n)).
  - intros. now apply glue_GR.
  - intros. now apply glue_good.
  - now apply glue_HB.
  - now apply glue_val.
Qed.
End Hot.
