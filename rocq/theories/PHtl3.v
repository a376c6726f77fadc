(** * Hard-thermal-loop limits: gluon and ghost loops *)
From Coq Require Import Reals Psatz Lia List.
From Coquelicot Require Import Coquelicot.
From Verif Require Import Num CField MCommon MThermal MThermalZM MThermalZP MPolar MHtl SpecInteg SpecHtl PCplx PDistr PVac PDress2 PCoh PCoh2 PLogs PMass PMassZ PMass2 PReal PForms PForms2 PCombo PComboR PLim PLimC PDeriv PHtl PHtl2.
Import List ListNotations.
Open Scope R_scope.

Definition GHr (s m2 im2 im0 i00 di jm j0 dj : R) : R :=
  - (s - m2) / 4 * dj + (2 * s - m2) * (im2 / 4) * (jm - j0)
   + - (s + m2) * s * (im2 / 2) * im0 + s * s * (im2 / 2) * i00 + (s + m2) * (s + m2) / 4 * di.
Definition GPr (s m2 im2 x00 xs x0 is i0 dxs dx0 ds d0 jm j0 dj d2j Jm J0 dJ d2J : R) : R :=
  (3 * s * s * (im2 * im2 / 2) - 1) * x00
   + ((3 * s * s + 8 * s * m2 + 4 * m2 * m2) * (im2 * im2 / 2) + 4) * xs
   - (3 * s * s + 4 * s * m2 + m2 * m2) * (im2 * im2) * x0
   + 2 * (s + 2 * m2) * s * im2 * is - 2 * (s + m2) * s * im2 * i0
   - (2 * s + 3 * m2) * im2 * jm + (2 * s + m2) * im2 * j0
   - ((s + 2 * m2) * (s + 2 * m2) * im2 + 8 * m2) * dxs + (s + m2) * (s + m2) * im2 * dx0
   - 2 * s * (s + 4 * m2) * ds + (s + m2) * (s + m2) * d0
   + (s + 3 * m2) * dj - m2 * m2 * d2j + (Jm - J0) * im2 + (- dJ + d2J * m2 / 2).
Ltac c2r := unfold Rdiv; repeat first [rewrite RtoC_plus | rewrite RtoC_minus | rewrite RtoC_opp | rewrite RtoC_mult]; rewrite ?RtoC_inv_all; unfold Cdiv; reflexivity.
Lemma GHc_r s m2 im2 im0 i00 di jm j0 dj : GHc (RtoC s) (RtoC m2) (RtoC im2) (RtoC im0) (RtoC i00) (RtoC di) (RtoC jm) (RtoC j0) (RtoC dj) = RtoC (GHr s m2 im2 im0 i00 di jm j0 dj).
Proof. unfold GHc, GHr. c2r. Qed.
Lemma GPc_r s m2 im2 x00 xs x0 is i0 dxs dx0 ds d0 jm j0 dj d2j Jm J0 dJ d2J :
  GPc (RtoC s) (RtoC m2) (RtoC im2) (RtoC x00) (RtoC xs) (RtoC x0) (RtoC is) (RtoC i0) (RtoC dxs) (RtoC dx0) (RtoC ds) (RtoC d0) (RtoC jm) (RtoC j0) (RtoC dj) (RtoC d2j) (RtoC Jm) (RtoC J0) (RtoC dJ) (RtoC d2J)
  = RtoC (GPr s m2 im2 x00 xs x0 is i0 dxs dx0 ds d0 jm j0 dj d2j Jm J0 dJ d2J).
Proof. unfold GPc, GPr. c2r. Qed.

(** ** Tadpoles *)
Lemma tends_quot {F} {FF : Filter F} (g h : R -> R) (a D : R) : is_derive g a D -> F (fun x => h x <> 0) -> tends F h 0 ->
  tends F (fun x => (g (h x + a) - g a) / h x) D.
Proof.
  intros Hd Hn Hh P [e He]. apply is_derive_Reals in Hd. destruct (Hd e (cond_pos e)) as [d Hd'].
  assert (L : locally 0 (fun y => Rabs y < d)). { exists d. intros y Hy. unfold ball in Hy; simpl in Hy. unfold AbsRing_ball, abs, minus, plus, opp in Hy; simpl in Hy. now rewrite Ropp_0, Rplus_0_r in Hy. }
  generalize (filter_and _ _ Hn (Hh _ L : F (fun x => Rabs (h x) < d))). unfold filtermap. apply filter_imp. intros x [H1 H2]. apply He.
  specialize (Hd' (h x) H1 H2). unfold ball; simpl. unfold AbsRing_ball, abs, minus, plus, opp; simpl. rewrite (Rplus_comm (h x) a). exact Hd'.
Qed.

Section Glue.
Variables (q om k m T : R).
Hypothesis Hq : 0 < q.
Hypothesis Hom : om <> 0.
Hypothesis Hk : 0 < k.
Hypothesis Hm : m <> 0.
Hypothesis HT : 0 < T.
Let s := om * om + k * k.
Let Hs : 0 < s. Proof. unfold s. nra. Qed.
Let Hm2 : 0 < m * m. Proof. nra. Qed.
Let beta := / T.
Let Hb : 0 < beta. Proof. unfold beta. now apply Rinv_0_lt_compat. Qed.
Let X := tends_id_right 0.
Let x2m : tends R0 (fun x => x * m * (x * m)) 0. Proof. eapply tends_eq; [|tendf]. ring. Qed.
Let Hq2 : 0 < q * q. Proof. nra. Qed.
Lemma cont_sc g D : is_derive g (q * q) D -> tends R0 (fun x => g (x * m * (x * m) + q * q)) (g (q * q)).
Proof.
  intros H. apply (tends_comp g); [apply (ex_derive_continuous (K := R_AbsRing) (V := R_NormedModule)); now exists D|].
  eapply tends_eq; [|apply tends_plus; [exact x2m|apply tends_const]]. ring.
Qed.
Lemma quot_sc g D : is_derive g (q * q) D -> tends R0 (fun x => (g (x * m * (x * m) + q * q) - g (q * q)) / (x * m * (x * m))) D.
Proof.
  intros H. apply (tends_quot g (fun x => x * m * (x * m))); auto.
  apply (ev_right _ 0 1); [lra|]. intros x [Hx _]. assert (x * m <> 0) by (apply Rmult_integral_contrapositive_currified; lra). now apply Rmult_integral_contrapositive_currified.
Qed.
Let nb := ns beta (q * q).
Let sq : sqrt (q * q) = q. Proof. apply sqrt_square; lra. Qed.
Lemma gf_q : gf beta (q * q) = nb / q. Proof. unfold gf. now rewrite sq. Qed.
Lemma gl_q : gl beta (q * q) = nb * q. Proof. unfold gl. now rewrite sq. Qed.
Lemma gf'_q : gf' beta (q * q) = (- (beta * nb * (1 + nb)) / q - nb / (q * q)) / (2 * q). Proof. unfold gf'. now rewrite sq. Qed.
Lemma gl'_q : gl' beta (q * q) = (nb - beta * nb * (1 + nb) * q) / (2 * q). Proof. unfold gl'. now rewrite sq. Qed.
Lemma bose_q : bose_distribution_zero_chempot q beta = nb.
Proof. unfold nb. now rewrite <- bose_ns, sq. Qed.
Lemma nE_gf mu : nE q mu beta = gf beta (mu * mu + q * q).
Proof. unfold nE. rewrite energy_R. reflexivity. Qed.
Lemma nE_sc : tends R0 (fun x => nE q (x * m) beta) (nb / q).
Proof.
  apply (tends_ext (fun x => gf beta (x * m * (x * m) + q * q))); [apply filter_forall; intros; now rewrite nE_gf|].
  rewrite <- gf_q. eapply cont_sc. apply gf_d; auto.
Qed.
Lemma n0_sc : tends R0 (fun x : R => n0 q beta) (nb / q).
Proof. unfold n0. rewrite bose_q. apply tends_const. Qed.
Ltac gtad f := apply (tends_ext f); [apply filter_forall; intros|].
Notation pp := (PI * PI).
Lemma jm_sc : tends R0 (fun x => j_m_i q (x * m) beta) (q * nb / (2 * pp)).
Proof.
  gtad (fun x => q * q / (2 * pp) * gf beta (x * m * (x * m) + q * q)). now rewrite f_j.
  eapply tends_eq; [|apply tends_mult; [apply tends_const|eapply cont_sc; apply gf_d; auto]]. rewrite gf_q. pose proof PI_neq0. field. split; lra.
Qed.
Lemma j0_eq : j_0_i q beta = q * nb / (2 * pp).
Proof. unfold j_0_i. numcbn. rewrite bose_q. change PI2 with pp. field. apply PI_neq0. Qed.
Lemma dj_sc : tends R0 (fun x => d_j_m_i q (x * m) beta) (- nb / (4 * pp * q)).
Proof.
  gtad (fun x => - / (4 * pp) * gf beta (x * m * (x * m) + q * q)). now rewrite f_dj.
  eapply tends_eq; [|apply tends_mult; [apply tends_const|eapply cont_sc; apply gf_d; auto]]. rewrite gf_q. pose proof PI_neq0. field. split; lra.
Qed.
Lemma djl_sc : tends R0 (fun x => d_j_m_l_i q (x * m) beta) (q * nb / (4 * pp)).
Proof.
  gtad (fun x => / (4 * pp) * gl beta (x * m * (x * m) + q * q)). now rewrite f_djl.
  eapply tends_eq; [|apply tends_mult; [apply tends_const|eapply cont_sc; apply gl_d; auto]]. rewrite gl_q. pose proof PI_neq0. field. lra.
Qed.
Lemma djt_sc : tends R0 (fun x => d_j_m_t_i q (x * m) beta) (- (q * nb) / (4 * pp)).
Proof.
  gtad (fun x => - (q * q / (4 * pp)) * gf beta (x * m * (x * m) + q * q)). now rewrite f_djt.
  eapply tends_eq; [|apply tends_mult; [apply tends_const|eapply cont_sc; apply gf_d; auto]]. rewrite gf_q. pose proof PI_neq0. field. split; lra.
Qed.
Lemma d2jt_sc : tends R0 (fun x => d2_j_m_t_i q (x * m) beta) (nb / (8 * pp * q)).
Proof.
  gtad (fun x => / (8 * pp) * gf beta (x * m * (x * m) + q * q)). now rewrite f_d2jt.
  eapply tends_eq; [|apply tends_mult; [apply tends_const|eapply cont_sc; apply gf_d; auto]]. rewrite gf_q. pose proof PI_neq0. field. split; lra.
Qed.
Lemma gf'_ex : exists D, is_derive (gf' beta) (q * q) D.
Proof.
  pose proof (ns_den beta Hb (q * q) Hq2) as Hd. pose proof (sqrt_lt_R0 (q * q) Hq2). unfold gf', ns. eexists. auto_derive; [|reflexivity]. repeat split; auto; try lra.
Qed.
Lemma gl'_ex : exists D, is_derive (gl' beta) (q * q) D.
Proof.
  pose proof (ns_den beta Hb (q * q) Hq2) as Hd. pose proof (sqrt_lt_R0 (q * q) Hq2). unfold gl', ns. eexists. auto_derive; [|reflexivity]. repeat split; auto; try lra.
Qed.
Lemma xm_neq x : 0 < x -> x * m <> 0.
Proof. intros. apply Rmult_integral_contrapositive_currified; lra. Qed.
Lemma d2j_sc : tends R0 (fun x => d2_j_m_i q (x * m) beta) (- / (4 * pp) * gf' beta (q * q)).
Proof.
  apply (tends_ext (fun x => - / (4 * pp) * gf' beta (x * m * (x * m) + q * q))).
  - apply (ev_right _ 0 1); [lra|]. intros x [Hx _]. rewrite f_d2j; auto. now apply xm_neq.
  - destruct gf'_ex as [D HD]. apply tends_mult; [apply tends_const|eapply cont_sc; exact HD].
Qed.
Lemma d2jl_sc : tends R0 (fun x => d2_j_m_l_i q (x * m) beta) (/ (4 * pp) * gl' beta (q * q)).
Proof.
  apply (tends_ext (fun x => / (4 * pp) * gl' beta (x * m * (x * m) + q * q))).
  - apply (ev_right _ 0 1); [lra|]. intros x [Hx _]. rewrite f_d2jl; auto. now apply xm_neq.
  - destruct gl'_ex as [D HD]. apply tends_mult; [apply tends_const|eapply cont_sc; exact HD].
Qed.
Lemma j0t_eq : j_0_t_i q beta = q * q * (q * q) / (6 * pp) * gf beta (q * q).
Proof. unfold j_0_t_i. numcbn. rewrite bose_q, gf_q. change PI2 with pp. pose proof PI_neq0. field. split; lra. Qed.
Lemma j0l_eq : j_0_l_i q beta = - (q * q / (2 * pp)) * gl beta (q * q).
Proof. unfold j_0_l_i. numcbn. rewrite bose_q, gl_q. change PI2 with pp. pose proof PI_neq0. field. lra. Qed.
Lemma dqt_sc : tends R0 (fun x => (j_m_t_i q (x * m) beta - j_0_t_i q beta) / (x * m * (x * m))) (q * q * (q * q) / (6 * pp) * gf' beta (q * q)).
Proof.
  gtad (fun x => q * q * (q * q) / (6 * pp) * ((gf beta (x * m * (x * m) + q * q) - gf beta (q * q)) / (x * m * (x * m)))). rewrite f_jt, j0t_eq. unfold Rdiv. ring.
  apply tends_mult; [apply tends_const|apply quot_sc, gf_d; auto].
Qed.
Lemma dql_sc : tends R0 (fun x => (j_m_l_i q (x * m) beta - j_0_l_i q beta) / (x * m * (x * m))) (- (q * q / (2 * pp)) * gl' beta (q * q)).
Proof.
  gtad (fun x => - (q * q / (2 * pp)) * ((gl beta (x * m * (x * m) + q * q) - gl beta (q * q)) / (x * m * (x * m)))). rewrite f_jl, j0l_eq. unfold Rdiv. ring.
  apply tends_mult; [apply tends_const|apply quot_sc, gl_d; auto].
Qed.

(** ** Assembly *)
Definition eS (x : R) : R := energy q (x * m).
Notation FF f x n1 e1 n2 e2 d := (f PI2 q (x * om) (x * k) n1 e1 n2 e2 d).
Lemma eS_pos x : 0 < x -> 0 < eS x.
Proof. intros _. apply energy_pos'; auto. Qed.
Lemma q_pos (x : R) : 0 < x -> 0 < q. Proof. auto. Qed.
Lemma eS_sc : tends R0 eS q. Proof. apply energy_sc; auto. Qed.
Lemma q_sc : tends R0 (fun _ : R => q) q. Proof. apply tends_const. Qed.
(** the scaled combination *)
Definition CMB (x00 xs x0 is i0 dxs dx0 ds d0 jm j0 dj d2j : R -> R) (qJ dJ d2J : R -> R) (x : R) : R :=
  let r := s / (m * m) in
  (3 * r * r / 2 - 1) * x00 x + ((3 * r * r + 8 * r + 4) / 2 + 4) * xs x - (3 * r * r + 4 * r + 1) * x0 x
  + 2 * (s + 2 * (m * m)) * r * (x * x) * is x - 2 * (s + m * m) * r * (x * x) * i0 x
  - (2 * r + 3) * jm x + (2 * r + 1) * j0 x
  - ((s + 2 * (m * m)) * (s + 2 * (m * m)) / (m * m) + 8 * (m * m)) * dxs x + (s + m * m) * (s + m * m) / (m * m) * dx0 x
  - 2 * s * (s + 4 * (m * m)) * ds x + (s + m * m) * (s + m * m) * d0 x
  + (s + 3 * (m * m)) * (x * x) * dj x - m * m * (m * m) * (x * x) * (x * x) * d2j x + qJ x + (- dJ x + d2J x * (m * m) * (x * x) / 2).
Lemma GPr_CMB (x00 xs x0 is i0 dxs dx0 ds d0 jm j0 dj d2j Jm J0 dJ d2J : R -> R) x : 0 < x ->
  GPr (x * om * (x * om) + x * k * (x * k)) (x * m * (x * m)) (/ (x * m) * / (x * m)) (x00 x) (xs x) (x0 x) (is x) (i0 x) (dxs x) (dx0 x) (ds x) (d0 x) (jm x) (j0 x) (dj x) (d2j x) (Jm x) (J0 x) (dJ x) (d2J x)
  = CMB x00 xs x0 is i0 (fun x => x * x * dxs x) (fun x => x * x * dx0 x) (fun x => x * x * x * x * ds x) (fun x => x * x * x * x * d0 x) jm j0 dj d2j (fun x => (Jm x - J0 x) / (x * m * (x * m))) dJ d2J x.
Proof. intros Hx. unfold GPr, CMB. unfold s. field. split; lra. Qed.
Lemma CMB_lim (x00 xs x0 is i0 dxs dx0 ds d0 jm j0 dj d2j qJ dJ d2J : R -> R) xl il jl djl d2jl ql dJl d2Jl :
  tends R0 x00 xl -> tends R0 xs xl -> tends R0 x0 xl -> tends R0 is il -> tends R0 i0 il ->
  tends R0 dxs 0 -> tends R0 dx0 0 -> tends R0 ds 0 -> tends R0 d0 0 ->
  tends R0 jm jl -> tends R0 j0 jl -> tends R0 dj djl -> tends R0 d2j d2jl -> tends R0 qJ ql -> tends R0 dJ dJl -> tends R0 d2J d2Jl ->
  tends R0 (CMB x00 xs x0 is i0 dxs dx0 ds d0 jm j0 dj d2j qJ dJ d2J) (4 * xl - 2 * jl + ql - dJl).
Proof.
  intros. unfold CMB. cbv zeta. eapply tends_eq; [|tendf; lra]. field. lra.
Qed.

Definition NS (x : R) : R := nE q (x * m) beta.
Definition N0 (x : R) : R := n0 q beta.
Definition ee (x : R) : R := q.
Definition BS (f : R -> R -> R -> R -> R -> R -> R -> R -> R -> R) (x : R) : R := f PI2 q (x * om) (x * k) (NS x) (eS x) (NS x) (eS x) (x * x * 0).
Definition BM (f : R -> R -> R -> R -> R -> R -> R -> R -> R -> R) (x : R) : R := f PI2 q (x * om) (x * k) (NS x) (eS x) (N0 x) (ee x) (x * x * - (m * m)).
Definition B0 (f : R -> R -> R -> R -> R -> R -> R -> R -> R -> R) (x : R) : R := f PI2 q (x * om) (x * k) (N0 x) (ee x) (N0 x) (ee x) (x * x * 0).
Lemma same_sc x : 0 < x -> bubbles_same q (x * om) (x * k) (x * m) beta = map RtoC [BS F0 x; BS Fl x; BS Ft x; BS D0 x; BS Dl x; BS Dt x].
Proof. intros Hx. destruct (ev_pos om k Hom Hk x Hx). rewrite same_form by auto. unfold BS, FL. replace (x * x * 0) with 0 by ring. reflexivity. Qed.
Lemma m0_sc x : 0 < x -> bubbles_m0 q (x * om) (x * k) (x * m) beta = map RtoC [BM F0 x; BM Fl x; BM Ft x; BM D0 x; BM Dl x; BM Dt x].
Proof. intros Hx. destruct (ev_pos om k Hom Hk x Hx). rewrite m0_form by auto. unfold BM, FL. replace (x * x * - (m * m)) with (- (x * m * (x * m))) by ring. reflexivity. Qed.
Lemma zero_sc x : 0 < x -> bubbles_0 q (x * om) (x * k) beta = map RtoC [B0 F0 x; B0 Fl x; B0 Ft x; B0 D0 x; B0 Dl x; B0 Dt x].
Proof. intros Hx. destruct (ev_pos om k Hom Hk x Hx). rewrite zero_form by auto. unfold B0, FL. replace (x * x * 0) with 0 by ring. reflexivity. Qed.
Let wt := om * om / s.
Let wl := k * k / s.
Definition Jx (t l : R) : R := wt * t + wl * l.
Lemma parts_sc x : 0 < x -> glue_parts q (x * om) (x * k) (x * m) beta = map RtoC
  [GHr (x * om * (x * om) + x * k * (x * k)) (x * m * (x * m)) (/ (x * m) * / (x * m)) (BM F0 x) (B0 F0 x) (BM D0 x) (j_m_i q (x * m) beta) (j_0_i q beta) (d_j_m_i q (x * m) beta);
   GPr (x * om * (x * om) + x * k * (x * k)) (x * m * (x * m)) (/ (x * m) * / (x * m)) (B0 Fl x) (BS Fl x) (BM Fl x) (BS F0 x) (BM F0 x) (BS Dl x) (BM Dl x) (BS D0 x) (BM D0 x)
     (j_m_i q (x * m) beta) (j_0_i q beta) (d_j_m_i q (x * m) beta) (d2_j_m_i q (x * m) beta)
     (Jx (j_m_t_i q (x * m) beta) (j_m_l_i q (x * m) beta)) (Jx (j_0_t_i q beta) (j_0_l_i q beta)) (Jx (d_j_m_t_i q (x * m) beta) (d_j_m_l_i q (x * m) beta)) (Jx (d2_j_m_t_i q (x * m) beta) (d2_j_m_l_i q (x * m) beta));
   GPr (x * om * (x * om) + x * k * (x * k)) (x * m * (x * m)) (/ (x * m) * / (x * m)) (B0 Ft x) (BS Ft x) (BM Ft x) (BS F0 x) (BM F0 x) (BS Dt x) (BM Dt x) (BS D0 x) (BM D0 x)
     (j_m_i q (x * m) beta) (j_0_i q beta) (d_j_m_i q (x * m) beta) (d2_j_m_i q (x * m) beta)
     (j_m_t_i q (x * m) beta) (j_0_t_i q beta) (d_j_m_t_i q (x * m) beta) (d2_j_m_t_i q (x * m) beta)].
Proof.
  intros Hx. rewrite glue_GLUE_R, same_sc, m0_sc, zero_sc by auto. unfold GLUE, tadpoles, tadpoles_0. cbn [nth map].
  assert (Es : sC (RtoC (x * om)) (x * k) = RtoC (x * om * (x * om) + x * k * (x * k))) by (unfold sC; now rewrite RtoC_plus, !(RtoC_mult (x * om) (x * om)), !(RtoC_mult (x * k) (x * k))).
  assert (Hn : RtoC (x * x * s) <> RtoC 0) by (apply RtoC_neq0, Rgt_not_eq; repeat apply Rmult_lt_0_compat; auto).
  assert (Ew : (/ sC (RtoC (x * om)) (x * k) * (RtoC (x * om) * RtoC (x * om)))%C = RtoC wt).
  { rewrite Es. replace (x * om * (x * om) + x * k * (x * k)) with (x * x * s) by (unfold s; ring). rewrite <- RtoC_inv_all, <- !RtoC_mult. f_equal. unfold wt. field. split; lra. }
  assert (El : (/ sC (RtoC (x * om)) (x * k) * (RtoC (x * k) * RtoC (x * k)))%C = RtoC wl).
  { rewrite Es. replace (x * om * (x * om) + x * k * (x * k)) with (x * x * s) by (unfold s; ring). rewrite <- RtoC_inv_all, <- !RtoC_mult. f_equal. unfold wl. field. split; lra. }
  rewrite Ew, El, Es. rewrite <- (RtoC_inv_all (x * m)), <- (RtoC_mult (x * m) (x * m)), <- (RtoC_mult (/ (x * m)) (/ (x * m))).
  unfold Jx. rewrite <- !(RtoC_mult wt), <- !(RtoC_mult wl), <- !(RtoC_plus (wt * _)).
  rewrite GHc_r, !GPc_r. reflexivity.
Qed.

Let NSs : tends R0 NS (nb / q) := nE_sc.
Let N0s : tends R0 N0 (nb / q) := n0_sc.
Let es : tends R0 eS q := eS_sc.
Let qs : tends R0 ee q := q_sc.
Let Pe : forall x, 0 < x -> 0 < eS x := eS_pos.
Let Pq : forall x, 0 < x -> 0 < ee x := q_pos.
Let Hpi : PI2 <> 0 := PI2n.
Ltac bl L := repeat split; [apply (L q om k Hq Hom Hk PI2 (nb / q) 0 NS NS eS eS) | apply (L q om k Hq Hom Hk PI2 (nb / q) (- (m * m)) NS N0 eS ee) | apply (L q om k Hq Hom Hk PI2 (nb / q) 0 N0 N0 ee ee)]; auto.
Lemma F0_3 : tends R0 (BS F0) (nb / q / (4 * PI2)) /\ tends R0 (BM F0) (nb / q / (4 * PI2)) /\ tends R0 (B0 F0) (nb / q / (4 * PI2)).
Proof. bl F0_lim. Qed.
Definition FlL : R := - (q * q * (nb / q) / (4 * PI2 * (k * k * k))) * (k * s + om * s * PhiH om k + om * om * k).
Definition FtL : R := q * q * (nb / q) * s / (8 * PI2 * (k * k * k)) * (2 * k + om * PhiH om k).
Lemma Fl_3 : tends R0 (BS Fl) FlL /\ tends R0 (BM Fl) FlL /\ tends R0 (B0 Fl) FlL.
Proof. bl Fl_lim. Qed.
Lemma Ft_3 : tends R0 (BS Ft) FtL /\ tends R0 (BM Ft) FtL /\ tends R0 (B0 Ft) FtL.
Proof. bl Ft_lim. Qed.
Lemma D0_3 : tends R0 (fun x => x * x * x * x * BS D0 x) 0 /\ tends R0 (fun x => x * x * x * x * BM D0 x) 0 /\ tends R0 (fun x => x * x * x * x * B0 D0 x) 0.
Proof. bl D0_lim. Qed.
Lemma Dl_3 : tends R0 (fun x => x * x * BS Dl x) 0 /\ tends R0 (fun x => x * x * BM Dl x) 0 /\ tends R0 (fun x => x * x * B0 Dl x) 0.
Proof. bl Dl_lim. Qed.
Lemma Dt_3 : tends R0 (fun x => x * x * BS Dt x) 0 /\ tends R0 (fun x => x * x * BM Dt x) 0 /\ tends R0 (fun x => x * x * B0 Dt x) 0.
Proof. bl Dt_lim. Qed.
Let j0s : tends R0 (fun _ : R => j_0_i q beta) (q * nb / (2 * pp)).
Proof. rewrite j0_eq. apply tends_const. Qed.
(** derivatives of the boundary terms *)
Lemma boundary_d : is_derive (boundary_T T) q ((2 * q * nb - q * q * (beta * nb * (1 + nb))) / (12 * pp)).
Proof.
  pose proof (ns_den beta Hb (q * q) Hq2) as Hd. rewrite sq in Hd. pose proof PI_neq0. unfold boundary_T, nb, ns, beta, Rdiv in *. rewrite sq. auto_derive; [lra|]. field. repeat split; lra.
Qed.
Lemma nb_eq : nb = / (exp (q / T) - 1).
Proof. unfold nb, ns, beta. now rewrite sq. Qed.
Definition D4 (x : R) : R := x * x * x * x * BM D0 x.
Lemma ghost_htl : tendsC R0 (fun x => ghost_self_energy_thermal_part_landau_i q (x * om) (x * k) (x * m) beta) (RtoC 0).
Proof.
  apply (tendsC_ext (fun x => RtoC (- (s - m * m) * (x * x) / 4 * d_j_m_i q (x * m) beta + (2 * (s / (m * m)) - 1) / 4 * (j_m_i q (x * m) beta - j_0_i q beta)
    + - (s + m * m) * (s / (m * m)) * (x * x) / 2 * BM F0 x + s * (s / (m * m)) * (x * x) / 2 * B0 F0 x + (s + m * m) * (s + m * m) / 4 * D4 x))).
  { apply (ev_right _ 0 1); [lra|]. intros x [Hx _]. change (ghost_self_energy_thermal_part_landau_i q (x * om) (x * k) (x * m) beta) with (nth 0 (glue_parts q (x * om) (x * k) (x * m) beta) (RtoC 0)).
    rewrite parts_sc by auto. cbn [map nth]. f_equal. unfold GHr, s, D4. field. split; lra. }
  apply tendsC_RtoC. destruct F0_3 as (_ & A1 & A2). destruct D0_3 as (_ & A3 & _). pose proof jm_sc as A4. pose proof dj_sc as A5. pose proof j0s.
  change (tends R0 D4 0) in A3. eapply tends_eq; [|tendf; lra]. rewrite j0_eq. field. repeat split; auto; try lra. apply PI_neq0.
Qed.
Lemma glue_t_htl : exists D, is_derive (boundary_T T) q D /\
  tendsC R0 (fun x => polarization_glue_t_thermal_part_landau_i q (x * om) (x * k) (x * m) beta) (RtoC (- (boson_weight T q * (T * T * htl_T om k)) + D)).
Proof.
  eexists. split; [apply boundary_d|].
  apply (tendsC_ext (fun x => RtoC (CMB (B0 Ft) (BS Ft) (BM Ft) (BS F0) (BM F0) (fun x => x * x * BS Dt x) (fun x => x * x * BM Dt x) (fun x => x * x * x * x * BS D0 x) (fun x => x * x * x * x * BM D0 x) (fun x => j_m_i q (x * m) beta) (fun _ => j_0_i q beta) (fun x => d_j_m_i q (x * m) beta) (fun x => d2_j_m_i q (x * m) beta)
    (fun x => (j_m_t_i q (x * m) beta - j_0_t_i q beta) / (x * m * (x * m))) (fun x => d_j_m_t_i q (x * m) beta) (fun x => d2_j_m_t_i q (x * m) beta) x))).
  { apply (ev_right _ 0 1); [lra|]. intros x [Hx _]. symmetry. change (polarization_glue_t_thermal_part_landau_i q (x * om) (x * k) (x * m) beta) with (nth 2 (glue_parts q (x * om) (x * k) (x * m) beta) (RtoC 0)).
    rewrite parts_sc by auto. cbn [map nth]. f_equal.
    apply (GPr_CMB (B0 Ft) (BS Ft) (BM Ft) (BS F0) (BM F0) (BS Dt) (BM Dt) (BS D0) (BM D0) (fun x => j_m_i q (x * m) beta) (fun _ => j_0_i q beta) (fun x => d_j_m_i q (x * m) beta) (fun x => d2_j_m_i q (x * m) beta)
      (fun x => j_m_t_i q (x * m) beta) (fun _ => j_0_t_i q beta) (fun x => d_j_m_t_i q (x * m) beta) (fun x => d2_j_m_t_i q (x * m) beta) x Hx). }
  eapply tendsC_eq; [|apply tendsC_RtoC; eapply CMB_lim; first [apply Ft_3|apply F0_3|apply Dt_3|apply D0_3|exact jm_sc|exact j0s|exact dj_sc|exact d2j_sc|exact dqt_sc|exact djt_sc|exact d2jt_sc]].
  f_equal. rewrite gf'_q. unfold FtL, boson_weight, htl_T, htl_L, htl_phase. fold (PhiH om k). replace (q / (exp (q / T) - 1)) with (q * nb) by (rewrite nb_eq; reflexivity).
  change PI2 with pp. pose proof PI_neq0. fold s. unfold beta. field. repeat split; lra.
Qed.
Lemma glue_l_htl : exists D, is_derive (boundary_L om k T) q D /\
  tendsC R0 (fun x => polarization_glue_l_thermal_part_landau_i q (x * om) (x * k) (x * m) beta) (RtoC (- (boson_weight T q * (T * T * htl_L om k)) + D)).
Proof.
  eexists. split; [apply (is_derive_scal (boundary_T T)); apply boundary_d|].
  apply (tendsC_ext (fun x => RtoC (CMB (B0 Fl) (BS Fl) (BM Fl) (BS F0) (BM F0) (fun x => x * x * BS Dl x) (fun x => x * x * BM Dl x) (fun x => x * x * x * x * BS D0 x) (fun x => x * x * x * x * BM D0 x) (fun x => j_m_i q (x * m) beta) (fun _ => j_0_i q beta) (fun x => d_j_m_i q (x * m) beta) (fun x => d2_j_m_i q (x * m) beta)
    (fun x => (Jx (j_m_t_i q (x * m) beta) (j_m_l_i q (x * m) beta) - Jx (j_0_t_i q beta) (j_0_l_i q beta)) / (x * m * (x * m))) (fun x => Jx (d_j_m_t_i q (x * m) beta) (d_j_m_l_i q (x * m) beta)) (fun x => Jx (d2_j_m_t_i q (x * m) beta) (d2_j_m_l_i q (x * m) beta)) x))).
  { apply (ev_right _ 0 1); [lra|]. intros x [Hx _]. symmetry. change (polarization_glue_l_thermal_part_landau_i q (x * om) (x * k) (x * m) beta) with (nth 1 (glue_parts q (x * om) (x * k) (x * m) beta) (RtoC 0)).
    rewrite parts_sc by auto. cbn [map nth]. f_equal.
    apply (GPr_CMB (B0 Fl) (BS Fl) (BM Fl) (BS F0) (BM F0) (BS Dl) (BM Dl) (BS D0) (BM D0) (fun x => j_m_i q (x * m) beta) (fun _ => j_0_i q beta) (fun x => d_j_m_i q (x * m) beta) (fun x => d2_j_m_i q (x * m) beta)
      (fun x => Jx (j_m_t_i q (x * m) beta) (j_m_l_i q (x * m) beta)) (fun _ => Jx (j_0_t_i q beta) (j_0_l_i q beta)) (fun x => Jx (d_j_m_t_i q (x * m) beta) (d_j_m_l_i q (x * m) beta)) (fun x => Jx (d2_j_m_t_i q (x * m) beta) (d2_j_m_l_i q (x * m) beta)) x Hx). }
  assert (QJ : tends R0 (fun x => (Jx (j_m_t_i q (x * m) beta) (j_m_l_i q (x * m) beta) - Jx (j_0_t_i q beta) (j_0_l_i q beta)) / (x * m * (x * m))) (Jx (q * q * (q * q) / (6 * pp) * gf' beta (q * q)) (- (q * q / (2 * pp)) * gl' beta (q * q)))).
  { unfold Jx. eapply tends_ext; [|apply tends_plus; apply tends_mult; [apply tends_const|exact dqt_sc|apply tends_const|exact dql_sc]]. apply filter_forall. intros x. cbv beta. unfold Rdiv. ring. }
  assert (DJ : tends R0 (fun x => Jx (d_j_m_t_i q (x * m) beta) (d_j_m_l_i q (x * m) beta)) (Jx (- (q * nb) / (4 * pp)) (q * nb / (4 * pp)))).
  { unfold Jx. apply tends_plus; apply tends_mult; first [apply tends_const|exact djt_sc|exact djl_sc]. }
  assert (D2J : tends R0 (fun x => Jx (d2_j_m_t_i q (x * m) beta) (d2_j_m_l_i q (x * m) beta)) (Jx (nb / (8 * pp * q)) (/ (4 * pp) * gl' beta (q * q)))).
  { unfold Jx. apply tends_plus; apply tends_mult; first [apply tends_const|exact d2jt_sc|exact d2jl_sc]. }
  eapply tendsC_eq; [|apply tendsC_RtoC; eapply CMB_lim; first [apply Fl_3|apply F0_3|apply Dl_3|apply D0_3|exact jm_sc|exact j0s|exact dj_sc|exact d2j_sc|exact QJ|exact DJ|exact D2J]].
  f_equal. rewrite gf'_q, gl'_q. unfold Jx, wt, wl, FlL, boson_weight, htl_L, htl_phase, scal; cbn [Hierarchy.ModuleSpace.scal]; unfold mult; cbn. fold (PhiH om k). replace (q / (exp (q / T) - 1)) with (q * nb) by (rewrite nb_eq; reflexivity).
  change PI2 with pp. pose proof PI_neq0. unfold s in *. unfold beta. field. repeat split; lra.
Qed.
End Glue.

(** ** Boundary terms vanish at both ends *)
Lemma boundary_T_0 T : 0 < T -> tends R0 (boundary_T T) 0.
Proof.
  intros HT. apply (tends_squeeze0 _ (fun q => T / (12 * (PI * PI)) * q)).
  - apply (ev_right _ 0 1); [lra|]. intros q [Hq _]. pose proof PI_RGT_0. unfold boundary_T. pose proof (exp_ineq1 (q / T)) as L. assert (Hy : 0 < q / T) by (apply Rdiv_lt_0_compat; auto).
    specialize (L ltac:(lra)). assert (Hd : 0 < exp (q / T) - 1) by lra. assert (Hp : 0 < 12 * (PI * PI)) by nra.
    rewrite Rabs_pos_eq. 2: { apply Rmult_le_pos; [|left; now apply Rinv_0_lt_compat]. apply Rmult_le_pos; [nra|left; now apply Rinv_0_lt_compat]. }
    replace (T / (12 * (PI * PI)) * q) with (T * q / (12 * (PI * PI))) by (field; nra). apply Rmult_le_compat_r; [left; now apply Rinv_0_lt_compat|].
    replace (T * q) with (q * q * / (q / T)) by (field; lra). apply Rmult_le_compat_l; [nra|]. apply Rinv_le_contravar; lra.
  - pose proof (tends_id_right 0). eapply tends_eq; [|tendf]. ring.
Qed.
Lemma boundary_T_inf T : 0 < T -> tends INF (boundary_T T) 0.
Proof.
  intros HT. apply (squeeze_inv _ (256 * (T * T * (T * T)) / (12 * (PI * PI)))). intros q Hq. pose proof PI_RGT_0. unfold boundary_T.
  assert (Hy : 0 < q / T) by (apply Rdiv_lt_0_compat; lra). pose proof (exp_quartic (q / T) ltac:(lra)) as L. assert (Hp : 0 < 12 * (PI * PI)) by nra.
  assert (H4 : 0 < q / T * (q / T) * (q / T * (q / T)) / 256) by (assert (0 < q / T * (q / T)) by (apply Rmult_lt_0_compat; auto); apply Rdiv_lt_0_compat; [apply Rmult_lt_0_compat; auto|lra]).
  assert (Hd : 0 < exp (q / T) - 1) by lra.
  rewrite Rabs_pos_eq. 2: { apply Rmult_le_pos; [|left; now apply Rinv_0_lt_compat]. apply Rmult_le_pos; [nra|left; now apply Rinv_0_lt_compat]. }
  apply Rle_trans with (q * q * / (q / T * (q / T) * (q / T * (q / T)) / 256) / (12 * (PI * PI))).
  - apply Rmult_le_compat_r; [left; now apply Rinv_0_lt_compat|]. apply Rmult_le_compat_l; [nra|]. apply Rinv_le_contravar; lra.
  - replace (q * q * / (q / T * (q / T) * (q / T * (q / T)) / 256) / (12 * (PI * PI))) with (256 * (T * T * (T * T)) / (12 * (PI * PI)) * / (q * q)) by (field; repeat split; lra).
    unfold Rdiv at 2. apply Rmult_le_compat_l; [|apply Rinv_le_contravar; nra]. apply Rmult_le_pos; [|left; now apply Rinv_0_lt_compat]. repeat apply Rmult_le_pos; lra.
Qed.
Lemma boundary_L_0 om k T : 0 < T -> tends R0 (boundary_L om k T) 0.
Proof. intros HT. eapply tends_eq; [|apply tends_mult; [apply tends_const|now apply boundary_T_0]]. ring. Qed.
Lemma boundary_L_inf om k T : 0 < T -> tends INF (boundary_L om k T) 0.
Proof. intros HT. eapply tends_eq; [|apply tends_mult; [apply tends_const|now apply boundary_T_inf]]. ring. Qed.
