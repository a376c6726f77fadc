(** * Combination formulas at real frequency; limits of the combinations *)
From Coq Require Import Reals Lra List.
From Coquelicot Require Import Coquelicot.
From Verif Require Import Num CField MCommon MThermal MThermalZM MThermalZP MPolar SpecInteg PCplx PDistr PVac PDress2 PCoh PCoh2 PLogs PMass PMassZ PMass2 PReal PCombo PLim PLimC.
Import List ListNotations.
Open Scope R_scope.

Section ComboR.
Variables (q om p m beta : R).
Notation m2 := (RtoC m * RtoC m)%C.
Notation im2 := (/ RtoC m * / RtoC m)%C.
Lemma ghost_comboR : ghost_self_energy_thermal_part_landau_i q om p m beta =
  GHc (sC (RtoC om) p) m2 im2 (i_m_0_i q om p m beta) (i_0_0_i q om p beta) (d_i_m_0_i q om p m beta) (RtoC (j_m_i q m beta)) (RtoC (j_0_i q beta)) (RtoC (d_j_m_i q m beta)).
Proof. rewrite ghost_R, ghost_combo. rewrite (d_i_m_0_i_CR q (RtoC om) p m beta), (d_i_m_0_i_RR q om p m beta). rewrite (i_m_0_i_CR q (RtoC om) p m beta), (i_m_0_i_RR q om p m beta). rewrite (i_0_0_i_R q om p beta). reflexivity. Qed.
Lemma glue_l_comboR : polarization_glue_l_thermal_part_landau_i q om p m beta =
  GPc (sC (RtoC om) p) m2 im2 (i_0_0_l_i q om p beta) (i_m_m_l_i_same_mass q om p m beta) (i_m_0_l_i q om p m beta) (i_m_m_i_same_mass q om p m beta) (i_m_0_i q om p m beta) (d_i_m_m_l_i_same_mass q om p m beta) (d_i_m_0_l_i q om p m beta) (d_i_m_m_i_same_mass q om p m beta) (d_i_m_0_i q om p m beta)
    (RtoC (j_m_i q m beta)) (RtoC (j_0_i q beta)) (RtoC (d_j_m_i q m beta)) (RtoC (d2_j_m_i q m beta))
    (TLc (RtoC om * RtoC om)%C (RtoC p * RtoC p)%C (/ (sC (RtoC om) p))%C (RtoC (j_m_t_i q m beta)) (RtoC (j_m_l_i q m beta))) (TLc (RtoC om * RtoC om)%C (RtoC p * RtoC p)%C (/ (sC (RtoC om) p))%C (RtoC (j_0_t_i q beta)) (RtoC (j_0_l_i q beta))) (TLc (RtoC om * RtoC om)%C (RtoC p * RtoC p)%C (/ (sC (RtoC om) p))%C (RtoC (d_j_m_t_i q m beta)) (RtoC (d_j_m_l_i q m beta))) (TLc (RtoC om * RtoC om)%C (RtoC p * RtoC p)%C (/ (sC (RtoC om) p))%C (RtoC (d2_j_m_t_i q m beta)) (RtoC (d2_j_m_l_i q m beta))).
Proof. rewrite glue_l_R, glue_l_combo. rewrite (d_i_m_m_l_i_same_mass_CR q (RtoC om) p m beta), (d_i_m_m_l_i_same_mass_RR q om p m beta). rewrite (i_m_m_l_i_same_mass_CR q (RtoC om) p m beta), (i_m_m_l_i_same_mass_RR q om p m beta). rewrite (d_i_m_m_i_same_mass_CR q (RtoC om) p m beta), (d_i_m_m_i_same_mass_RR q om p m beta). rewrite (i_m_m_i_same_mass_CR q (RtoC om) p m beta), (i_m_m_i_same_mass_RR q om p m beta). rewrite (d_i_m_0_l_i_CR q (RtoC om) p m beta), (d_i_m_0_l_i_RR q om p m beta). rewrite (d_i_m_0_i_CR q (RtoC om) p m beta), (d_i_m_0_i_RR q om p m beta). rewrite (i_m_0_l_i_CR q (RtoC om) p m beta), (i_m_0_l_i_RR q om p m beta). rewrite (i_m_0_i_CR q (RtoC om) p m beta), (i_m_0_i_RR q om p m beta). rewrite (i_0_0_l_i_R q om p beta). reflexivity. Qed.
Lemma glue_t_comboR : polarization_glue_t_thermal_part_landau_i q om p m beta =
  GPc (sC (RtoC om) p) m2 im2 (i_0_0_t_i q om p beta) (i_m_m_t_i_same_mass q om p m beta) (i_m_0_t_i q om p m beta) (i_m_m_i_same_mass q om p m beta) (i_m_0_i q om p m beta) (d_i_m_m_t_i_same_mass q om p m beta) (d_i_m_0_t_i q om p m beta) (d_i_m_m_i_same_mass q om p m beta) (d_i_m_0_i q om p m beta)
    (RtoC (j_m_i q m beta)) (RtoC (j_0_i q beta)) (RtoC (d_j_m_i q m beta)) (RtoC (d2_j_m_i q m beta))
    (RtoC (j_m_t_i q m beta)) (RtoC (j_0_t_i q beta)) (RtoC (d_j_m_t_i q m beta)) (RtoC (d2_j_m_t_i q m beta)).
Proof. rewrite glue_t_R, glue_t_combo. rewrite (d_i_m_m_t_i_same_mass_CR q (RtoC om) p m beta), (d_i_m_m_t_i_same_mass_RR q om p m beta). rewrite (i_m_m_t_i_same_mass_CR q (RtoC om) p m beta), (i_m_m_t_i_same_mass_RR q om p m beta). rewrite (d_i_m_m_i_same_mass_CR q (RtoC om) p m beta), (d_i_m_m_i_same_mass_RR q om p m beta). rewrite (i_m_m_i_same_mass_CR q (RtoC om) p m beta), (i_m_m_i_same_mass_RR q om p m beta). rewrite (d_i_m_0_t_i_CR q (RtoC om) p m beta), (d_i_m_0_t_i_RR q om p m beta). rewrite (d_i_m_0_i_CR q (RtoC om) p m beta), (d_i_m_0_i_RR q om p m beta). rewrite (i_m_0_t_i_CR q (RtoC om) p m beta), (i_m_0_t_i_RR q om p m beta). rewrite (i_m_0_i_CR q (RtoC om) p m beta), (i_m_0_i_RR q om p m beta). rewrite (i_0_0_t_i_R q om p beta). reflexivity. Qed.
Lemma zp_ghost_comboR : zp_ghost_self_energy_thermal_part_landau_i q om m beta =
  GHc (RtoC om * RtoC om)%C m2 im2 (zp_i_m_0_i q om m beta) (zp_i_0_0_i q om beta) (zp_d_i_m_0_i q om m beta) (RtoC (j_m_i q m beta)) (RtoC (j_0_i q beta)) (RtoC (d_j_m_i q m beta)).
Proof. rewrite zp_ghost_R, zp_ghost_combo. rewrite (zp_d_i_m_0_i_CR q (RtoC om) m beta), (zp_d_i_m_0_i_RR q om m beta). rewrite (zp_i_m_0_i_CR q (RtoC om) m beta), (zp_i_m_0_i_RR q om m beta). rewrite (zp_i_0_0_i_R q om beta). reflexivity. Qed.
Lemma zp_glue_l_comboR : zp_polarization_glue_l_thermal_part_landau_i q om m beta =
  GPc (RtoC om * RtoC om)%C m2 im2 (zp_i_0_0_l_i q om beta) (zp_i_m_m_l_i_same_mass q om m beta) (zp_i_m_0_l_i q om m beta) (zp_i_m_m_i_same_mass q om m beta) (zp_i_m_0_i q om m beta) (zp_d_i_m_m_l_i_same_mass q om m beta) (zp_d_i_m_0_l_i q om m beta) (zp_d_i_m_m_i_same_mass q om m beta) (zp_d_i_m_0_i q om m beta)
    (RtoC (j_m_i q m beta)) (RtoC (j_0_i q beta)) (RtoC (d_j_m_i q m beta)) (RtoC (d2_j_m_i q m beta))
    (RtoC (j_m_t_i q m beta)) (RtoC (j_0_t_i q beta)) (RtoC (d_j_m_t_i q m beta)) (RtoC (d2_j_m_t_i q m beta)).
Proof. rewrite zp_glue_l_R, zp_glue_l_combo. rewrite (zp_d_i_m_m_l_i_same_mass_CR q (RtoC om) m beta), (zp_d_i_m_m_l_i_same_mass_RR q om m beta). rewrite (zp_d_i_m_m_i_same_mass_CR q (RtoC om) m beta), (zp_d_i_m_m_i_same_mass_RR q om m beta). rewrite (zp_i_m_m_l_i_same_mass_CR q (RtoC om) m beta), (zp_i_m_m_l_i_same_mass_RR q om m beta). rewrite (zp_i_m_m_i_same_mass_CR q (RtoC om) m beta), (zp_i_m_m_i_same_mass_RR q om m beta). rewrite (zp_d_i_m_0_l_i_CR q (RtoC om) m beta), (zp_d_i_m_0_l_i_RR q om m beta). rewrite (zp_i_m_0_l_i_CR q (RtoC om) m beta), (zp_i_m_0_l_i_RR q om m beta). rewrite (zp_d_i_m_0_i_CR q (RtoC om) m beta), (zp_d_i_m_0_i_RR q om m beta). rewrite (zp_i_m_0_i_CR q (RtoC om) m beta), (zp_i_m_0_i_RR q om m beta). rewrite (zp_i_0_0_l_i_R q om beta). reflexivity. Qed.
Lemma zp_glue_t_comboR : zp_polarization_glue_t_thermal_part_landau_i q om m beta =
  GPc (RtoC om * RtoC om)%C m2 im2 (zp_i_0_0_t_i q om beta) (zp_i_m_m_t_i_same_mass q om m beta) (zp_i_m_0_t_i q om m beta) (zp_i_m_m_i_same_mass q om m beta) (zp_i_m_0_i q om m beta) (zp_d_i_m_m_t_i_same_mass q om m beta) (zp_d_i_m_0_t_i q om m beta) (zp_d_i_m_m_i_same_mass q om m beta) (zp_d_i_m_0_i q om m beta)
    (RtoC (j_m_i q m beta)) (RtoC (j_0_i q beta)) (RtoC (d_j_m_i q m beta)) (RtoC (d2_j_m_i q m beta))
    (RtoC (j_m_t_i q m beta)) (RtoC (j_0_t_i q beta)) (RtoC (d_j_m_t_i q m beta)) (RtoC (d2_j_m_t_i q m beta)).
Proof. exact zp_glue_l_comboR. Qed.
End ComboR.

Section Lim.
Context {F : (R -> Prop) -> Prop} {FF : Filter F}.
Lemma GHc_tends m2 im2 (fs fim0 fi00 fdi fjm fj0 fdj : R -> C) (s im0 i00 di jm j0 dj : C) : tendsC F fs s -> tendsC F fim0 im0 -> tendsC F fi00 i00 -> tendsC F fdi di -> tendsC F fjm jm -> tendsC F fj0 j0 -> tendsC F fdj dj ->
  tendsC F (fun x => GHc (fs x) m2 im2 (fim0 x) (fi00 x) (fdi x) (fjm x) (fj0 x) (fdj x)) (GHc s m2 im2 im0 i00 di jm j0 dj).
Proof. intros. unfold GHc. tendCf; intros E; inversion E; lra. Qed.
Lemma GPc_tends m2 im2 (fs fx00 fxs fx0 fis fi0 fdxs fdx0 fds fd0 fjm fj0 fdj fd2j fJm fJ0 fdJ fd2J : R -> C) (s x00 xs x0 is i0 dxs dx0 ds d0 jm j0 dj d2j Jm J0 dJ d2J : C) : tendsC F fs s -> tendsC F fx00 x00 -> tendsC F fxs xs -> tendsC F fx0 x0 -> tendsC F fis is -> tendsC F fi0 i0 -> tendsC F fdxs dxs -> tendsC F fdx0 dx0 -> tendsC F fds ds -> tendsC F fd0 d0 -> tendsC F fjm jm -> tendsC F fj0 j0 -> tendsC F fdj dj -> tendsC F fd2j d2j -> tendsC F fJm Jm -> tendsC F fJ0 J0 -> tendsC F fdJ dJ -> tendsC F fd2J d2J ->
  tendsC F (fun x => GPc (fs x) m2 im2 (fx00 x) (fxs x) (fx0 x) (fis x) (fi0 x) (fdxs x) (fdx0 x) (fds x) (fd0 x) (fjm x) (fj0 x) (fdj x) (fd2j x) (fJm x) (fJ0 x) (fdJ x) (fd2J x)) (GPc s m2 im2 x00 xs x0 is i0 dxs dx0 ds d0 jm j0 dj d2j Jm J0 dJ d2J).
Proof. intros. unfold GPc. tendCf; intros E; inversion E; lra. Qed.
End Lim.

(** One formula for the three kinematics: [wt], [wl] are the weights of the
    transverse and longitudinal tadpoles in the longitudinal projection. *)
Notation nn k l := (nth k l (RtoC 0)).
Definition GLUE (s wt wl m2 im2 : C) (bs bm b0 tm t0 : list C) : list C :=
  [ GHc s m2 im2 (nn 0 bm) (nn 0 b0) (nn 3 bm) (nn 0 tm) (nn 0 t0) (nn 3 tm);
    GPc s m2 im2 (nn 1 b0) (nn 1 bs) (nn 1 bm) (nn 0 bs) (nn 0 bm) (nn 4 bs) (nn 4 bm) (nn 3 bs) (nn 3 bm)
      (nn 0 tm) (nn 0 t0) (nn 3 tm) (nn 6 tm)
      (wt * nn 2 tm + wl * nn 1 tm)%C (wt * nn 2 t0 + wl * nn 1 t0)%C (wt * nn 5 tm + wl * nn 4 tm)%C (wt * nn 8 tm + wl * nn 7 tm)%C;
    GPc s m2 im2 (nn 2 b0) (nn 2 bs) (nn 2 bm) (nn 0 bs) (nn 0 bm) (nn 5 bs) (nn 5 bm) (nn 3 bs) (nn 3 bm)
      (nn 0 tm) (nn 0 t0) (nn 3 tm) (nn 6 tm)
      (nn 2 tm) (nn 2 t0) (nn 5 tm) (nn 8 tm) ].

Section Glue.
Variables (q p m beta : R).
Notation m2 := (RtoC m * RtoC m)%C.
Notation im2 := (/ RtoC m * / RtoC m)%C.
Let tm := map RtoC (tadpoles q m beta).
Let t0 := map RtoC (tadpoles_0 q beta).
Lemma glue_GLUE (om : C) : glue_parts q om p m beta =
  GLUE (sC om p) (/ sC om p * (om * om))%C (/ sC om p * (RtoC p * RtoC p))%C m2 im2 (bubbles_same q om p m beta) (bubbles_m0 q om p m beta) (bubbles_0 q om p beta) tm t0.
Proof.
  unfold glue_parts, GLUE, tm, t0, bubbles_same, bubbles_m0, bubbles_0, tadpoles, tadpoles_0. cbn [nth map].
  rewrite ghost_combo, glue_l_combo, glue_t_combo. unfold TLc. rewrite !Cmult_plus_distr_l, !Cmult_assoc. reflexivity.
Qed.
Lemma glue_GLUE_R (om : R) : glue_parts q om p m beta =
  GLUE (sC (RtoC om) p) (/ sC (RtoC om) p * (RtoC om * RtoC om))%C (/ sC (RtoC om) p * (RtoC p * RtoC p))%C m2 im2
    (bubbles_same q om p m beta) (bubbles_m0 q om p m beta) (bubbles_0 q om p beta) tm t0.
Proof. rewrite glue_R, glue_GLUE, same_RR, m0_RR, zero_R, same_CR, m0_CR. reflexivity. Qed.
Lemma zm_glue_GLUE : zm_glue_parts q p m beta =
  GLUE (RtoC p * RtoC p)%C (RtoC 0) (RtoC 1) m2 im2 (zm_bubbles_same q p m beta) (zm_bubbles_m0 q p m beta) (zm_bubbles_0 q p beta) tm t0.
Proof.
  unfold zm_glue_parts, GLUE, tm, t0, zm_bubbles_same, zm_bubbles_m0, zm_bubbles_0, tadpoles, tadpoles_0. cbn [nth map].
  rewrite zm_ghost_combo, zm_glue_l_combo, zm_glue_t_combo. rewrite !Cmult_0_l, !Cmult_1_l, !Cplus_0_l. reflexivity.
Qed.
Lemma zp_glue_GLUE (om : C) : zp_glue_parts q om m beta =
  GLUE (om * om)%C (RtoC 1) (RtoC 0) m2 im2 (zp_bubbles_same q om m beta) (zp_bubbles_m0 q om m beta) (zp_bubbles_0 q om beta) tm t0.
Proof.
  unfold zp_glue_parts, GLUE, tm, t0, zp_bubbles_same, zp_bubbles_m0, zp_bubbles_0, tadpoles, tadpoles_0. cbn [nth map].
  rewrite zp_ghost_combo, zp_glue_l_combo, zp_glue_t_combo. rewrite !Cmult_0_l, !Cmult_1_l, !Cplus_0_r. reflexivity.
Qed.
Lemma zp_glue_GLUE_R (om : R) : zp_glue_parts q om m beta =
  GLUE (RtoC om * RtoC om)%C (RtoC 1) (RtoC 0) m2 im2 (zp_bubbles_same q om m beta) (zp_bubbles_m0 q om m beta) (zp_bubbles_0 q om beta) tm t0.
Proof. rewrite zp_glue_R, zp_glue_GLUE, zp_same_RR, zp_m0_RR, zp_zero_R, zp_same_CR, zp_m0_CR. reflexivity. Qed.
End Glue.

Lemma GLUE_tends {F : (R -> Prop) -> Prop} {FF : Filter F} m2 im2 (fs fwt fwl : R -> C) (fbs fbm fb0 ftm ft0 : R -> list C)
  (s wt wl : C) (bs bm b0 tm t0 : list C) :
  tendsC F fs s -> tendsC F fwt wt -> tendsC F fwl wl ->
  (forall n, tendsC F (fun x => nn n (fbs x)) (nn n bs)) -> (forall n, tendsC F (fun x => nn n (fbm x)) (nn n bm)) -> (forall n, tendsC F (fun x => nn n (fb0 x)) (nn n b0)) ->
  (forall n, tendsC F (fun x => nn n (ftm x)) (nn n tm)) -> (forall n, tendsC F (fun x => nn n (ft0 x)) (nn n t0)) ->
  forall n, tendsC F (fun x => nn n (GLUE (fs x) (fwt x) (fwl x) m2 im2 (fbs x) (fbm x) (fb0 x) (ftm x) (ft0 x))) (nn n (GLUE s wt wl m2 im2 bs bm b0 tm t0)).
Proof.
  intros Hs Hwt Hwl H1 H2 H3 H4 H5 n. unfold GLUE. destruct n as [|[|[|[|n]]]]; cbn [nth]; [| | |apply tendsC_const|apply tendsC_const].
  - apply GHc_tends; auto.
  - apply GPc_tends; auto; apply tendsC_plus; apply tendsC_mult; auto.
  - apply GPc_tends; auto.
Qed.
