(** * The legs of the bubbles at large loop momentum *)
From Coq Require Import Reals Lra Lia List Psatz.
From Coquelicot Require Import Coquelicot.
From Verif Require Import Num CField MCommon MConsts MThermal SpecInteg SpecInt SpecLim SpecHtl PCplx PDistr PVac PMass PReal PForms PForms2 PLim PLimC PCold PBound PColdG PHtl PHtl2 PDensity PHot PHot2.
Import List ListNotations.
Open Scope R_scope.
Local Notation PI2 := MThermal.PI2.

Section Hom.
Variables (pi2 r q om p e d : R).
Hypothesis Hpi : pi2 <> 0.
Hypothesis Hr : 0 < r.
Hypothesis Hq : 0 < q.
Hypothesis Hom : om <> 0.
Hypothesis Hp : 0 < p.
Hypothesis He : 0 < e.
Let Hs : 0 < om * om + p * p. Proof. nra. Qed.
Let NPp : 0 < NP q om p e d. Proof. now apply NPe_pos. Qed.
Let NMp : 0 < NM q om p e d. Proof. now apply NMe_pos. Qed.
Let S_h : Sr (r * om) (r * p) (r * r * d) = r * r * Sr om p d. Proof. unfold Sr. ring. Qed.
Let W_h : W (r * om) (r * p) (r * e) = r * r * r * W om p e. Proof. unfold W. ring. Qed.
Let X_h : X2 (r * om) (r * p) (r * e) (r * r * d) = r * r * r * (r * r * r) * X2 om p e d. Proof. unfold X2. rewrite S_h, W_h. ring. Qed.
Let Y_h : Y2 (r * om) (r * p) (r * e) (r * r * d) = r * r * r * (r * r * r) * Y2 om p e d. Proof. unfold Y2. rewrite S_h, W_h. ring. Qed.
Let P_h : NP (r * q) (r * om) (r * p) (r * e) (r * r * d) = r * r * (r * r) * NP q om p e d. Proof. unfold NP. rewrite S_h. ring. Qed.
Let M_h : NM (r * q) (r * om) (r * p) (r * e) (r * r * d) = r * r * (r * r) * NM q om p e d. Proof. unfold NM. rewrite S_h. ring. Qed.
Definition hdeg (x : R) : list R := [x * x; 1; 1; x * x * (x * x); x * x; x * x].
Let T_h : r * om * (r * om) + r * p * (r * p) = r * r * (om * om + p * p). Proof. ring. Qed.
Lemma legs_hom k : nth k (AL pi2 (r * q) (r * om) (r * p) (r * e) (r * r * d)) 0 / (r * r) = nth k (hdeg (/ r)) 0 * nth k (AL pi2 q om p e d) 0 /\
  nth k (BL pi2 (r * q) (r * om) (r * p) (r * e) (r * r * d)) 0 / (r * r) = nth k (hdeg (/ r)) 0 * nth k (BL pi2 q om p e d) 0.
Proof.
  pose proof (LA_hom r q om p e d Hr Hom He) as HL. pose proof (PH_hom r q om p e d Hr Hq Hom Hp He) as HPh.
  do 6 (destruct k as [|k]; [cbn [nth AL BL hdeg]; unfold A0, A1, A2, A3, B3, A4, B4, A5, B5, G0, Gl, Gt, GP, GM, PForms.HP, PForms.HM, U1, U4; rewrite ?HL, ?HPh, ?T_h, ?S_h, ?W_h, ?X_h, ?Y_h, ?P_h, ?M_h; generalize dependent (om * om + p * p); intros;
    (split; field; repeat split; auto; lra)|]).
  destruct k; cbn; split; unfold Rdiv; ring.
Qed.
End Hom.

Section Asym.
Variables (pi2 om p m d : R).
Hypothesis Hpi : pi2 <> 0.
Hypothesis Hom : om <> 0.
Hypothesis Hp : 0 < p.
Let s := om * om + p * p.
Let Hs : 0 < s. Proof. unfold s. nra. Qed.
Let ex (x : R) : R := energy (T := R) 1 (x * m).
Let ex_pos x : 0 < ex x. Proof. apply energy_pos'. lra. Qed.
Let ex_lim : tends R0 ex 1. Proof. apply energy_sc. lra. Qed.
Let X := tends_id_right 0.
Definition c_l : R := - ((s + d) * (p * s + om * s * PhiH om p + om * om * p) / (8 * pi2 * (p * p * p) * s)).
Definition c_t : R := (s + d) * (2 * p + om * PhiH om p) / (16 * pi2 * (p * p * p)).
Definition c_4 : R := (om * om + om * s * PhiH om p / p + s) / (8 * pi2 * (p * p) * s).
Definition c_5 : R := (1 + om * PhiH om p / (2 * p)) / (8 * pi2 * (p * p)).
Definition CA : list R := [0; c_l; c_t; 0; c_4; - c_5].
Definition CB : list R := [0; c_l; c_t; 0; - c_4; c_5].
Lemma legs1 k : tends R0 (fun x => nth k (hdeg x) 0 * nth k (AL pi2 1 (x * om) (x * p) (ex x) (x * x * d)) 0) (nth k CA 0) /\
                tends R0 (fun x => nth k (hdeg x) 0 * nth k (BL pi2 1 (x * om) (x * p) (ex x) (x * x * d)) 0) (nth k CB 0).
Proof.
  pose proof Rlt_0_1 as H1. pose proof (la_lim 1 om p H1 Hp ex d ex_lim) as L0. pose proof (gl5_lim 1 om p H1 Hom Hp ex d ex_lim) as L1. pose proof (gt3_lim 1 om p H1 Hom Hp ex d ex_lim) as L2.
  pose proof (gp_lim 1 om p H1 Hp ex d ex_lim) as L3. pose proof (gm_lim 1 om p H1 Hp ex d ex_lim) as L4. pose proof (hp_lim 1 om p H1 Hp ex d ex_lim) as L5. pose proof (hm_lim 1 om p H1 Hp ex d ex_lim) as L6.
  pose proof (u4_lim 1 om p H1 Hom Hp ex d ex_lim) as L7. pose proof (u1_lim 1 om p H1 Hom Hp ex d ex_lim) as L8.
  assert (Ez : forall x, x * om * (x * om) + x * p * (x * p) = x * x * s) by (intros; unfold s; ring).
  assert (D3 : pi2 * (p * p * p) <> 0) by (repeat apply Rmult_integral_contrapositive_currified; lra).
  destruct k as [|[|[|[|[|[|k]]]]]]; cbn [nth AL BL CA CB hdeg].
  - assert (L : tends R0 (fun x => x * x * A0 pi2 1 (x * om) (x * p) (ex x) (x * x * d)) 0); [|now split].
    apply (tends_ext (fun x => x * x * (/ (8 * pi2 * p) * la 1 om p x (ex x) d))).
    + apply (ev_right _ 0 1); [lra|]. intros x [Hx _]. unfold A0, G0. rewrite LA_sc by auto. field. repeat split; lra.
    + eapply tends_eq; [|tendf]. ring.
  - assert (L : tends R0 (fun x => 1 * A1 pi2 1 (x * om) (x * p) (ex x) (x * x * d)) c_l); [|now split].
    apply (tends_ext (fun x => / (64 * pi2 * (p * p * p) * s) * gl5 1 om p ex d x)).
    + apply (ev_right _ 0 1); [lra|]. intros x [Hx _]. unfold A1. rewrite Gl_sc, Ez by auto. field. repeat split; lra.
    + eapply tends_eq; [|tendf]. unfold c_l. fold s. field. repeat split; lra.
  - assert (L : tends R0 (fun x => 1 * A2 pi2 1 (x * om) (x * p) (ex x) (x * x * d)) c_t); [|now split].
    apply (tends_ext (fun x => - / (128 * pi2 * (p * p * p)) * gt3 1 om p ex d x)).
    + apply (ev_right _ 0 1); [lra|]. intros x [Hx _]. unfold A2. rewrite Gt_sc by auto. field. repeat split; lra.
    + eapply tends_eq; [|tendf]. unfold c_t. fold s. field. repeat split; lra.
  - split.
    + apply (tends_ext (fun x => x * x * (- (x * (gp 1 om p ex d x + gm 1 om p ex d x)) - / p * (gp 1 om p ex d x - gm 1 om p ex d x)) * / (16 * pi2))).
      * apply (ev_right _ 0 1); [lra|]. intros x [Hx _]. unfold A3. rewrite GP_sc, GM_sc by auto. field. repeat split; lra.
      * eapply tends_eq; [|tendf]. ring.
    + apply (tends_ext (fun x => x * x * (/ p * (gp 1 om p ex d x - gm 1 om p ex d x)) * / (16 * pi2))).
      * apply (ev_right _ 0 1); [lra|]. intros x [Hx _]. unfold B3. rewrite GP_sc, GM_sc by auto. field. repeat split; lra.
      * eapply tends_eq; [|tendf]. ring.
  - split.
    + apply (tends_ext (fun x => (- (x * (hp 1 om p ex d x + hm 1 om p ex d x)) + 4 * (om * om) * (x * x * (s + d)) + 8 * (om * om) - 2 * / p * u4 1 om p ex d x - / p * (hp 1 om p ex d x - hm 1 om p ex d x)) * / (64 * pi2 * (p * p) * s))).
      * apply (ev_right _ 0 1); [lra|]. intros x [Hx _]. unfold A4. rewrite HP_sc, HM_sc, U4_sc, Sr_sc, Ez by auto. fold s. field. repeat split; lra.
      * eapply tends_eq; [|tendf]. unfold c_4. fold s. field. repeat split; lra.
    + apply (tends_ext (fun x => (- (8 * (om * om)) + 2 * / p * u4 1 om p ex d x + / p * (hp 1 om p ex d x - hm 1 om p ex d x)) * / (64 * pi2 * (p * p) * s))).
      * apply (ev_right _ 0 1); [lra|]. intros x [Hx _]. unfold B4. rewrite HP_sc, HM_sc, U4_sc, Ez by auto. field. repeat split; lra.
      * eapply tends_eq; [|tendf]. unfold c_4. fold s. field. repeat split; lra.
  - split.
    + apply (tends_ext (fun x => / (8 * pi2 * p) * (- (x * x * la 1 om p x (ex x) d) / 2 - / p + / (8 * (p * p)) * u1 1 om p ex d x))).
      * apply (ev_right _ 0 1); [lra|]. intros x [Hx _]. unfold A5, G0. rewrite LA_sc, U1_sc by auto. field. repeat split; lra.
      * eapply tends_eq; [|tendf; lra]. unfold c_5, s in *. field. repeat split; lra.
    + apply (tends_ext (fun x => / (8 * pi2 * p) * (/ p - / (8 * (p * p)) * u1 1 om p ex d x))).
      * apply (ev_right _ 0 1); [lra|]. intros x [Hx _]. unfold B5. rewrite U1_sc by auto. field. repeat split; lra.
      * eapply tends_eq; [|tendf]. unfold c_5. field. repeat split; lra.
  - destruct k; cbn; split; (eapply tends_ext; [|apply tends_const]; apply filter_forall; intros; ring).
Qed.
Lemma legs_asym k : tends INF (fun q => nth k (AL pi2 q om p (energy q m) d) 0 / (q * q)) (nth k CA 0) /\
                    tends INF (fun q => nth k (BL pi2 q om p (energy q m) d) 0 / (q * q)) (nth k CB 0).
Proof.
  destruct (legs1 k) as [LA' LB']. apply inv_INF_R0 in LA'. apply inv_INF_R0 in LB'.
  assert (E : forall q, 0 < q -> let x := / q in nth k (AL pi2 q om p (energy q m) d) 0 / (q * q) = nth k (hdeg x) 0 * nth k (AL pi2 1 (x * om) (x * p) (ex x) (x * x * d)) 0 /\
     nth k (BL pi2 q om p (energy q m) d) 0 / (q * q) = nth k (hdeg x) 0 * nth k (BL pi2 1 (x * om) (x * p) (ex x) (x * x * d)) 0).
  { intros q Hq x. assert (Hx : 0 < x) by now apply Rinv_0_lt_compat.
    assert (Ho : x * om <> 0) by (apply Rmult_integral_contrapositive_currified; lra). assert (Hk : 0 < x * p) by (apply Rmult_lt_0_compat; auto).
    pose proof (legs_hom pi2 q 1 (x * om) (x * p) (ex x) (x * x * d) Hpi Hq Rlt_0_1 Ho Hk (ex_pos x) k) as H. fold x in H.
    replace (q * 1) with q in H by ring. replace (q * (x * om)) with om in H by (unfold x; field; lra). replace (q * (x * p)) with p in H by (unfold x; field; lra). replace (q * q * (x * x * d)) with d in H by (unfold x; field; lra).
    replace (q * ex x) with (energy (T := R) q m) in H; [exact H|]. unfold ex. rewrite <- energy_hom' by auto. f_equal; unfold x; field; lra. }
  split; (eapply tends_ext; [exists 0; intros q Hq; cbv beta; symmetry; apply (E q Hq)|assumption]).
Qed.
End Asym.
