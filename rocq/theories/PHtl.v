(** * Small external scales: limits of the real forms of the integrands *)
From Coq Require Import Reals Psatz Lia List.
From Coquelicot Require Import Coquelicot.
From Verif Require Import Num CField MCommon MThermal MThermalZM MThermalZP MPolar SpecInteg PCplx PDistr PVac PDress2 PCoh PCoh2 PLogs PMass PMassZ PMass2 PReal PForms PForms2 PCombo PComboR PLim PLimC PDeriv.
Import List ListNotations.
Open Scope R_scope.

Notation R0 := (at_right 0).

(** ln (1 + y) = y h(y) with h continuous at 0 *)
Definition lnq (y : R) : R := if Req_EM_T y 0 then 1 else ln (1 + y) / y.
Lemma lnq_eq y : ln (1 + y) = y * lnq y.
Proof. unfold lnq. destruct (Req_EM_T y 0) as [->|H]; [rewrite Rplus_0_r, ln_1; ring|field; auto]. Qed.
Lemma lnq_0 : continuous lnq 0.
Proof.
  assert (E0 : lnq 0 = 1) by (unfold lnq; destruct (Req_EM_T 0 0); [auto|lra]).
  intros P HP. rewrite E0 in HP. pose proof (is_lim_div_ln1p_0 P HP) as [e He].
  exists e. intros y Hy. unfold lnq. destruct (Req_EM_T y 0) as [->|H]; [now apply locally_singleton|]. apply He; auto.
Qed.
Lemma tends_lnq {F} {FF : Filter F} f : tends F f 0 -> tends F (fun x => lnq (f x)) 1.
Proof.
  intros H. apply (tends_eq _ (lnq 0)); [unfold lnq; destruct (Req_EM_T 0 0); [auto|lra]|]. apply tends_comp; auto. apply lnq_0.
Qed.

(** The phase of the hard-thermal-loop logarithm. *)
Definition PhiH (om k : R) : R := atan ((om * om - k * k) / (2 * k * om)) - (if Rlt_dec 0 om then PI / 2 else - (PI / 2)).

Section Lim.
Variables (q om k : R).
Hypothesis Hq : 0 < q.
Hypothesis Hom : om <> 0.
Hypothesis Hk : 0 < k.
Let s := om * om + k * k.
Lemma s_pos : 0 < s. Proof. unfold s. nra. Qed.
Let X := tends_id_right 0.

Lemma Sr_sc x dl : Sr (x * om) (x * k) (x * x * dl) = x * x * (s + dl).
Proof. unfold Sr, s. ring. Qed.
Definition NA (x e dl : R) : R := (x * (s + dl) + 2 * q * k) * (x * (s + dl) + 2 * q * k) + (2 * e * om) * (2 * e * om).
Definition NB (x e dl : R) : R := (x * (s + dl) - 2 * q * k) * (x * (s + dl) - 2 * q * k) + (2 * e * om) * (2 * e * om).
Lemma NP_sc x e dl : NP q (x * om) (x * k) e (x * x * dl) = x * x * NA x e dl.
Proof. unfold NP, NA. rewrite Sr_sc. ring. Qed.
Lemma NM_sc x e dl : NM q (x * om) (x * k) e (x * x * dl) = x * x * NB x e dl.
Proof. unfold NM, NB. rewrite Sr_sc. ring. Qed.
Lemma NA_pos x e dl : 0 < e -> 0 < NA x e dl.
Proof. intros He. pose proof (Y_pos om e Hom He). pose proof (Rle_0_sqr (x * (s + dl) + 2 * q * k)). unfold NA, Rsqr in *. lra. Qed.
Lemma NB_pos x e dl : 0 < e -> 0 < NB x e dl.
Proof. intros He. pose proof (Y_pos om e Hom He). pose proof (Rle_0_sqr (x * (s + dl) - 2 * q * k)). unfold NB, Rsqr in *. lra. Qed.
Definition la (x e dl : R) : R := 4 * (s + dl) * q * k / NB x e dl * lnq (x * (8 * (s + dl) * q * k / NB x e dl)).
Lemma LA_sc x e dl : 0 < x -> 0 < e -> LA q (x * om) (x * k) e (x * x * dl) = x * la x e dl.
Proof.
  intros Hx He. unfold LA, la. rewrite NP_sc, NM_sc. pose proof (NA_pos x e dl He) as HA. pose proof (NB_pos x e dl He) as HB.
  rewrite <- ln_div by (repeat apply Rmult_lt_0_compat; auto).
  replace (x * x * NA x e dl / (x * x * NB x e dl)) with (1 + x * (8 * (s + dl) * q * k / NB x e dl)).
  - rewrite lnq_eq. field. lra.
  - replace (NA x e dl) with (NB x e dl + 8 * x * (s + dl) * q * k) by (unfold NA, NB; ring). field. split; lra.
Qed.
Definition ph (x e dl : R) : R := atan ((x * x * ((s + dl) * (s + dl)) + 4 * (e * e) * (om * om) - 4 * (q * q) * (k * k)) / (8 * q * k * e * om)) - (if Rlt_dec 0 om then PI / 2 else - (PI / 2)).
Lemma PH_sc x e dl : 0 < x -> 0 < e -> PH q (x * om) (x * k) e (x * x * dl) = ph x e dl.
Proof.
  intros Hx He. unfold PH, PT, ph. rewrite Sr_sc. f_equal; [f_equal; field; repeat split; lra|].
  destruct (Rlt_dec 0 (x * om)), (Rlt_dec 0 om); auto; exfalso.
  - assert (om < 0) by lra. nra.
  - apply n. apply Rmult_lt_0_compat; auto.
Qed.

Section E.
Variable (e : R -> R) (dl : R).
Hypothesis He : tends R0 e q.
Lemma NA_lim : tends R0 (fun x => NA x (e x) dl) (4 * (q * q) * s).
Proof. unfold NA. eapply tends_eq; [|tendf]. unfold s. ring. Qed.
Lemma NB_lim : tends R0 (fun x => NB x (e x) dl) (4 * (q * q) * s).
Proof. unfold NB. eapply tends_eq; [|tendf]. unfold s. ring. Qed.
Lemma N_neq : 4 * (q * q) * s <> 0.
Proof. pose proof s_pos. apply Rgt_not_eq. repeat apply Rmult_lt_0_compat; lra. Qed.
Lemma la_lim : tends R0 (fun x => la x (e x) dl) ((s + dl) * k / (q * s)).
Proof.
  pose proof NB_lim as HB. pose proof N_neq as HN. pose proof s_pos.
  assert (H1 : tends R0 (fun x => x * (8 * (s + dl) * q * k / NB x (e x) dl)) 0) by (eapply tends_eq; [|tendf; exact HN]; ring).
  apply tends_lnq in H1. unfold la. eapply tends_eq; [|tendf; exact HN]. field. split; lra.
Qed.
Lemma ph_lim : tends R0 (fun x => ph x (e x) dl) (PhiH om k).
Proof.
  unfold ph, PhiH. apply tends_minus; [|apply tends_const].
  apply (tends_comp atan); [apply continuous_atan|].
  assert (HN : 8 * q * k * q * om <> 0) by (repeat apply Rmult_integral_contrapositive_currified; lra).
  eapply tends_eq; [|tendf; exact HN]. field. repeat split; lra.
Qed.
Lemma la0_lim : tends R0 (fun x => x * la x (e x) dl) 0.
Proof. eapply tends_eq; [|eapply tends_mult; [exact X|apply la_lim]]. ring. Qed.

(** Scaled building blocks. *)
Definition gl5 (x : R) : R :=
  2 * (la x (e x) dl * (x * x * (om * om) * ((s + dl) * (s + dl)) - 4 * (e x * e x) * (s * s)) - ph x (e x) dl * (4 * om * (s + dl) * e x * s)) - 8 * (om * om) * q * k * (s + dl).
Lemma Gl_sc x : 0 < x -> 0 < e x -> Gl q (x * om) (x * k) (e x) (x * x * dl) = x * x * x * (x * x) * gl5 x.
Proof. intros Hx Hex. unfold Gl, gl5, X2, Y2, W. rewrite LA_sc, PH_sc, Sr_sc by auto. unfold s. ring. Qed.
Lemma gl5_lim : tends R0 gl5 (- 8 * q * (s + dl) * (k * s + om * s * PhiH om k + om * om * k)).
Proof. pose proof la_lim. pose proof ph_lim. unfold gl5. eapply tends_eq; [|tendf]. pose proof s_pos. field. split; lra. Qed.
Definition gt3 (x : R) : R :=
  2 * (la x (e x) dl * (x * x * ((s + dl) * (s + dl)) - 4 * (e x * e x) * (om * om) - 4 * (q * q) * (k * k)) - ph x (e x) dl * (4 * (s + dl) * e x * om)) - 8 * q * k * (s + dl).
Lemma Gt_sc x : 0 < x -> 0 < e x -> Gt q (x * om) (x * k) (e x) (x * x * dl) = x * x * x * gt3 x.
Proof. intros Hx Hex. unfold Gt, gt3. rewrite LA_sc, PH_sc, Sr_sc by auto. unfold s. ring. Qed.
Lemma gt3_lim : tends R0 gt3 (- 8 * q * (s + dl) * (2 * k + om * PhiH om k)).
Proof. pose proof la_lim. pose proof ph_lim. unfold gt3. eapply tends_eq; [|tendf]. pose proof s_pos. unfold s in *. field. split; lra. Qed.
Definition gp (x : R) : R := 2 * (x * (s + dl) + 2 * q * k) / NA x (e x) dl.
Definition gm (x : R) : R := 2 * (x * (s + dl) - 2 * q * k) / NB x (e x) dl.
Lemma GP_sc x : 0 < x -> 0 < e x -> GP q (x * om) (x * k) (e x) (x * x * dl) = gp x / x.
Proof. intros Hx Hex. unfold GP, gp. rewrite NP_sc, Sr_sc. pose proof (NA_pos x (e x) dl Hex). field. split; lra. Qed.
Lemma GM_sc x : 0 < x -> 0 < e x -> GM q (x * om) (x * k) (e x) (x * x * dl) = gm x / x.
Proof. intros Hx Hex. unfold GM, gm. rewrite NM_sc, Sr_sc. pose proof (NB_pos x (e x) dl Hex). field. split; lra. Qed.
Lemma gp_lim : tends R0 gp (k / (q * s)).
Proof. pose proof NA_lim. pose proof N_neq as HN. pose proof s_pos. unfold gp. eapply tends_eq; [|tendf; exact HN]. field. split; lra. Qed.
Lemma gm_lim : tends R0 gm (- (k / (q * s))).
Proof. pose proof NB_lim. pose proof N_neq as HN. pose proof s_pos. unfold gm. eapply tends_eq; [|tendf; exact HN]. field. split; lra. Qed.
Definition x2 (x : R) : R := x * x * (om * om) * ((s + dl) * (s + dl)) - 4 * (e x * e x) * (s * s).
Definition y2 (x : R) : R := 4 * om * (s + dl) * e x * s.
Definition hp (x : R) : R := 2 * ((x * (s + dl) + 2 * q * k) * x2 x + x * (2 * e x * om * y2 x)) / NA x (e x) dl.
Definition hm (x : R) : R := 2 * ((x * (s + dl) - 2 * q * k) * x2 x + x * (2 * e x * om * y2 x)) / NB x (e x) dl.
Lemma HP_sc x : 0 < x -> 0 < e x -> HP q (x * om) (x * k) (e x) (x * x * dl) = x * x * x * hp x.
Proof. intros Hx Hex. unfold HP, hp, X2, Y2, W. rewrite NP_sc, Sr_sc. pose proof (NA_pos x (e x) dl Hex). unfold x2, y2. unfold s. field. split; lra. Qed.
Lemma HM_sc x : 0 < x -> 0 < e x -> HM q (x * om) (x * k) (e x) (x * x * dl) = x * x * x * hm x.
Proof. intros Hx Hex. unfold HM, hm, X2, Y2, W. rewrite NM_sc, Sr_sc. pose proof (NB_pos x (e x) dl Hex). unfold x2, y2. unfold s. field. split; lra. Qed.
Lemma hp_lim : tends R0 hp (- 4 * q * k * s).
Proof. pose proof NA_lim. pose proof N_neq as HN. pose proof s_pos. unfold hp, x2, y2. eapply tends_eq; [|tendf; exact HN]. field. split; lra. Qed.
Lemma hm_lim : tends R0 hm (4 * q * k * s).
Proof. pose proof NB_lim. pose proof N_neq as HN. pose proof s_pos. unfold hm, x2, y2. eapply tends_eq; [|tendf; exact HN]. field. split; lra. Qed.
Definition u4 (x : R) : R := 2 * om * (x * om * (s + dl) * (x * la x (e x) dl) - 2 * e x * s * ph x (e x) dl).
Lemma U4_sc x : 0 < x -> 0 < e x -> U4 q (x * om) (x * k) (e x) (x * x * dl) = x * x * x * u4 x.
Proof. intros Hx Hex. unfold U4, u4, W. rewrite LA_sc, PH_sc, Sr_sc by auto. unfold s. ring. Qed.
Lemma u4_lim : tends R0 u4 (- 4 * om * q * s * PhiH om k).
Proof. pose proof la_lim. pose proof ph_lim. unfold u4. eapply tends_eq; [|tendf]. ring. Qed.
Definition u1 (x : R) : R := 2 * (x * (s + dl) * (x * la x (e x) dl) - 2 * e x * om * ph x (e x) dl).
Lemma U1_sc x : 0 < x -> 0 < e x -> U1 q (x * om) (x * k) (e x) (x * x * dl) = x * u1 x.
Proof. intros Hx Hex. unfold U1, u1. rewrite LA_sc, PH_sc, Sr_sc by auto. ring. Qed.
Lemma u1_lim : tends R0 u1 (- 4 * q * om * PhiH om k).
Proof. pose proof la_lim. pose proof ph_lim. unfold u1. eapply tends_eq; [|tendf]. ring. Qed.
End E.

(** Bubbles with two masses of the order of the external scales. *)
Section Bub.
Variables (pi2 n dl : R) (n1 n2 e1 e2 : R -> R).
Hypothesis Hpi : pi2 <> 0.
Hypothesis H1 : tends R0 e1 q.
Hypothesis H2 : tends R0 e2 q.
Hypothesis N1 : tends R0 n1 n.
Hypothesis N2 : tends R0 n2 n.
Hypothesis P1 : forall x, 0 < x -> 0 < e1 x.
Hypothesis P2 : forall x, 0 < x -> 0 < e2 x.
Lemma dl_opp x : - (x * x * dl) = x * x * - dl. Proof. ring. Qed.
Ltac ev f := apply (tends_ext f); [apply (ev_right _ 0 1); [lra|]; intros x [Hx _]; pose proof (P1 x Hx); pose proof (P2 x Hx); rewrite ?dl_opp|].
Lemma F0_lim : tends R0 (fun x => F0 pi2 q (x * om) (x * k) (n1 x) (e1 x) (n2 x) (e2 x) (x * x * dl)) (n / (4 * pi2)).
Proof.
  ev (fun x => q / (8 * pi2 * k) * (n1 x * la x (e1 x) dl + n2 x * la x (e2 x) (- dl))).
  - unfold F0, G0. rewrite !dl_opp, !LA_sc by auto. field. repeat split; lra.
  - pose proof (la_lim e1 dl H1). pose proof (la_lim e2 (- dl) H2). pose proof s_pos. eapply tends_eq; [|tendf]. field. repeat split; lra.
Qed.
Lemma Fl_lim : tends R0 (fun x => Fl pi2 q (x * om) (x * k) (n1 x) (e1 x) (n2 x) (e2 x) (x * x * dl))
  (- (q * q * n / (4 * pi2 * (k * k * k))) * (k * s + om * s * PhiH om k + om * om * k)).
Proof.
  pose proof s_pos as Hs.
  ev (fun x => q / (64 * pi2 * (k * k * k) * s) * (n1 x * gl5 e1 dl x + n2 x * gl5 e2 (- dl) x)).
  - unfold Fl. rewrite !dl_opp, !Gl_sc by auto. replace (x * om * (x * om) + x * k * (x * k)) with (x * x * s) by (unfold s; ring). field. repeat split; lra.
  - pose proof (gl5_lim e1 dl H1). pose proof (gl5_lim e2 (- dl) H2). eapply tends_eq; [|tendf]. field. repeat split; lra.
Qed.
Lemma Ft_lim : tends R0 (fun x => Ft pi2 q (x * om) (x * k) (n1 x) (e1 x) (n2 x) (e2 x) (x * x * dl))
  (q * q * n * s / (8 * pi2 * (k * k * k)) * (2 * k + om * PhiH om k)).
Proof.
  ev (fun x => - (q / (128 * pi2 * (k * k * k)) * (n1 x * gt3 e1 dl x + n2 x * gt3 e2 (- dl) x))).
  - unfold Ft. rewrite !dl_opp, !Gt_sc by auto. field. repeat split; lra.
  - pose proof (gt3_lim e1 dl H1). pose proof (gt3_lim e2 (- dl) H2). eapply tends_eq; [|tendf]. field. repeat split; lra.
Qed.
Lemma D0_lim : tends R0 (fun x => x * x * x * x * D0 pi2 q (x * om) (x * k) (n1 x) (e1 x) (n2 x) (e2 x) (x * x * dl)) 0.
Proof.
  ev (fun x => x * x * ((- (n1 x * x * (gp e1 dl x + gm e1 dl x)) + q / k * (n2 x * (gp e2 (- dl) x - gm e2 (- dl) x) - n1 x * (gp e1 dl x - gm e1 dl x))) / (16 * pi2))).
  - unfold D0. rewrite !dl_opp, !GP_sc, !GM_sc by auto. field. repeat split; lra.
  - pose proof (gp_lim e1 dl H1). pose proof (gp_lim e2 (- dl) H2). pose proof (gm_lim e1 dl H1). pose proof (gm_lim e2 (- dl) H2). eapply tends_eq; [|tendf; lra]. ring.
Qed.
Lemma Dl_lim : tends R0 (fun x => x * x * Dl pi2 q (x * om) (x * k) (n1 x) (e1 x) (n2 x) (e2 x) (x * x * dl)) 0.
Proof.
  pose proof s_pos as Hs.
  ev (fun x => (- (n1 x * x * (hp e1 dl x + hm e1 dl x)) + 4 * (om * om) * n1 x * (x * x * (s + dl)) + 8 * (om * om) * (q * q) * (n1 x - n2 x)
   + 2 * (q / k) * (n2 x * u4 e2 (- dl) x - n1 x * u4 e1 dl x)
   + q / k * (n2 x * (hp e2 (- dl) x - hm e2 (- dl) x) - n1 x * (hp e1 dl x - hm e1 dl x))) / (64 * pi2 * (k * k) * s)).
  - unfold Dl. rewrite !dl_opp, !HP_sc, !HM_sc, !U4_sc, Sr_sc by auto. replace (x * om * (x * om) + x * k * (x * k)) with (x * x * s) by (unfold s; ring). field. repeat split; lra.
  - pose proof (hp_lim e1 dl H1). pose proof (hp_lim e2 (- dl) H2). pose proof (hm_lim e1 dl H1). pose proof (hm_lim e2 (- dl) H2). pose proof (u4_lim e1 dl H1). pose proof (u4_lim e2 (- dl) H2).
    eapply tends_eq; [|tendf]. 2: { repeat apply Rmult_integral_contrapositive_currified; lra. } field. repeat split; lra.
Qed.
Lemma Dt_lim : tends R0 (fun x => x * x * Dt pi2 q (x * om) (x * k) (n1 x) (e1 x) (n2 x) (e2 x) (x * x * dl)) 0.
Proof.
  ev (fun x => q / (8 * pi2 * k) * (- (n1 x * x * (x * (2 * la x (e1 x) dl))) / 4 + (n2 x - n1 x) * q / k + (n1 x * u1 e1 dl x - n2 x * u1 e2 (- dl) x) / (8 * (k * k)))).
  - unfold Dt, G0. rewrite !dl_opp, !U1_sc, !LA_sc by auto. field. repeat split; lra.
  - pose proof (u1_lim e1 dl H1). pose proof (u1_lim e2 (- dl) H2). pose proof (la_lim e1 dl H1).
    eapply tends_eq; [|tendf; try lra; apply Rgt_not_eq; nra]. pose proof s_pos. field; repeat split; lra.
Qed.
End Bub.

(** Quark polarization. *)
Section Quark.
Variables (pi2 ncr f0 : R) (e f : R -> R).
Hypothesis Hpi : pi2 <> 0.
Hypothesis Hn : ncr <> 0.
Hypothesis H1 : tends R0 e q.
Hypothesis H2 : tends R0 f f0.
Hypothesis P1 : forall x, 0 < x -> 0 < e x.
Lemma LA_sc0 x e' : 0 < x -> 0 < e' -> LA q (x * om) (x * k) e' 0 = x * la x e' 0.
Proof. intros. rewrite <- LA_sc by auto. f_equal. ring. Qed.
Lemma PH_sc0 x e' : 0 < x -> 0 < e' -> PH q (x * om) (x * k) e' 0 = ph x e' 0.
Proof. intros. rewrite <- PH_sc by auto. f_equal. ring. Qed.
Lemma FQl_lim : tends R0 (fun x => FQl pi2 ncr q (x * om) (x * k) (e x) (f x)) (- (s * q * f0 / (pi2 * ncr * (k * k))) * (1 + om * PhiH om k / (2 * k))).
Proof.
  pose proof s_pos as Hs.
  apply (tends_ext (fun x => - (s * (q * q) * f x / (2 * pi2 * ncr * (k * k) * e x)) * (1 - ((x * x * s - 4 * (e x * e x)) * la x (e x) 0 - 4 * om * e x * ph x (e x) 0) / (4 * q * k)))).
  - apply (ev_right _ 0 1); [lra|]. intros x [Hx _]. pose proof (P1 x Hx). unfold FQl. rewrite LA_sc0, PH_sc0 by auto. unfold s. field. repeat split; lra.
  - pose proof (la_lim e 0 H1). pose proof (ph_lim e 0 H1). eapply tends_eq; [|tendf]. 2,3: repeat apply Rmult_integral_contrapositive_currified; lra.
    field. repeat split; lra.
Qed.
Lemma FQt_lim : tends R0 (fun x => FQt pi2 ncr q (x * om) (x * k) (e x) (f x)) (- (q * f0 / (2 * pi2 * ncr)) * (1 - s / (k * k) * (1 + om * PhiH om k / (2 * k)))).
Proof.
  pose proof s_pos as Hs.
  apply (tends_ext (fun x => - (f x * (q * q) / (4 * pi2 * ncr * (k * k) * e x)) * (k * k - om * om - ((x * x * ((k * k - om * om) * s) + 4 * (q * q) * (k * k) + 4 * (om * om) * (e x * e x)) * la x (e x) 0 + 4 * om * s * e x * ph x (e x) 0) / (4 * q * k)))).
  - apply (ev_right _ 0 1); [lra|]. intros x [Hx _]. pose proof (P1 x Hx). unfold FQt. rewrite LA_sc0, PH_sc0 by auto. unfold s. field. repeat split; lra.
  - pose proof (la_lim e 0 H1). pose proof (ph_lim e 0 H1). eapply tends_eq; [|tendf]. 2,3: repeat apply Rmult_integral_contrapositive_currified; lra.
    unfold s in *. field. repeat split; lra.
Qed.
End Quark.
End Lim.
