(** * Dimensional homogeneity of the thermal integrands: collected statements *)
From Coq Require Import Reals ZArith Lra Lia List.
From Coquelicot Require Import Coquelicot.
From Verif Require Import Num CField MCommon MThermal MThermalZM MThermalZP MPolar SpecInteg SpecHom PCplx PVac PMass PHom PExInteg.
Import List ListNotations.
Open Scope R_scope.

Section Lists.
Variable lam : R.
Hypothesis Hl : 0 < lam.
Let HR := HomR lam Hl.
Let HC := HomC lam Hl.
Local Existing Instance HR.
Local Existing Instance HC.

Lemma scaled_cons k ks x x' l l' : hom lam k x x' -> l = scaled lam ks l' -> x :: l = scaled lam (k :: ks) (x' :: l').
Proof. intros H ->. unfold scaled. cbn [combine map fst snd]. f_equal. exact H. Qed.
Lemma scaled_app ks1 ks2 l1 l1' l2 l2' : length ks1 = length l1' -> l1 = scaled lam ks1 l1' -> l2 = scaled lam ks2 l2' -> l1 ++ l2 = scaled lam (ks1 ++ ks2) (l1' ++ l2').
Proof.
  intros H -> ->. unfold scaled. rewrite <- map_app. f_equal. revert l1' H. induction ks1 as [|k ks1 IH]; intros [|x l1']; simpl; intros H; try discriminate; auto. now rewrite IH by lia.
Qed.
Ltac sc H := apply scaled_cons; [eapply H; eassumption|].
Ltac sct H := apply scaled_cons; [apply h_toC; eapply H; eassumption|].
Ltac nil := reflexivity.

Section Generic.
Context {T : Type} {NT : Num T} {HT : HomNum lam T} {T1 : Type} {NT1 : Num T1} {HT1 : HomNum lam T1} {T2 : Type} {NT2 : Num T2} {HT2 : HomNum lam T2}.
Variables (nc : nat) (q q' p p' beta beta' m m' mq mq' mu mu' : R) (om om' : T) (m1 m1' : T1) (m2 m2' : T2).
Hypotheses (Hq : hom lam 1 q q') (Hp : hom lam 1 p p') (Hb : hom lam (-1) beta beta') (Hm : hom lam 1 m m') (Hmq : hom lam 1 mq mq') (Hmu : hom lam 1 mu mu')
  (Hom : hom lam 1 om om') (H1 : hom lam 1 m1 m1') (H2 : hom lam 1 m2 m2').
Lemma mm_hom : bubbles_mm q om p m1 m2 beta = scaled lam bubble_dim (bubbles_mm q' om' p' m1' m2' beta').
Proof. sc i_m_m_i_hom. sc i_m_m_l_i_hom. sc i_m_m_t_i_hom. sc d_i_m_m_i_hom. sc d_i_m_m_l_i_hom. sc d_i_m_m_t_i_hom. nil. Qed.
Lemma same_hom : bubbles_same q om p m1 beta = scaled lam bubble_dim (bubbles_same q' om' p' m1' beta').
Proof. sc i_m_m_i_same_mass_hom. sc i_m_m_l_i_same_mass_hom. sc i_m_m_t_i_same_mass_hom. sc d_i_m_m_i_same_mass_hom. sc d_i_m_m_l_i_same_mass_hom. sc d_i_m_m_t_i_same_mass_hom. nil. Qed.
Lemma m0_hom : bubbles_m0 q om p m1 beta = scaled lam bubble_dim (bubbles_m0 q' om' p' m1' beta').
Proof. sc i_m_0_i_hom. sc i_m_0_l_i_hom. sc i_m_0_t_i_hom. sc d_i_m_0_i_hom. sc d_i_m_0_l_i_hom. sc d_i_m_0_t_i_hom. nil. Qed.
Lemma zero_hom : bubbles_0 q om p beta = scaled lam bubble_dim (bubbles_0 q' om' p' beta').
Proof. sc i_0_0_i_hom. sc i_0_0_l_i_hom. sc i_0_0_t_i_hom. sc d_i_0_0_i_hom. sc d_i_0_0_l_i_hom. sc d_i_0_0_t_i_hom. nil. Qed.
Lemma zp_mm_hom : zp_bubbles_mm q om m1 m2 beta = scaled lam bubble_dim (zp_bubbles_mm q' om' m1' m2' beta').
Proof. sc zp_i_m_m_i_hom. sc zp_i_m_m_l_i_hom. sc zp_i_m_m_t_i_hom. sc zp_d_i_m_m_i_hom. sc zp_d_i_m_m_l_i_hom. sc zp_d_i_m_m_t_i_hom. nil. Qed.
Lemma zp_same_hom : zp_bubbles_same q om m1 beta = scaled lam bubble_dim (zp_bubbles_same q' om' m1' beta').
Proof. sc zp_i_m_m_i_same_mass_hom. sc zp_i_m_m_l_i_same_mass_hom. sc zp_i_m_m_t_i_same_mass_hom. sc zp_d_i_m_m_i_same_mass_hom. sc zp_d_i_m_m_l_i_same_mass_hom. sc zp_d_i_m_m_t_i_same_mass_hom. nil. Qed.
Lemma zp_m0_hom : zp_bubbles_m0 q om m1 beta = scaled lam bubble_dim (zp_bubbles_m0 q' om' m1' beta').
Proof. sc zp_i_m_0_i_hom. sc zp_i_m_0_l_i_hom. sc zp_i_m_0_t_i_hom. sc zp_d_i_m_0_i_hom. sc zp_d_i_m_0_l_i_hom. sc zp_d_i_m_0_t_i_hom. nil. Qed.
Lemma zp_zero_hom : zp_bubbles_0 q om beta = scaled lam bubble_dim (zp_bubbles_0 q' om' beta').
Proof. sc zp_i_0_0_i_hom. sc zp_i_0_0_l_i_hom. sc zp_i_0_0_t_i_hom. sc zp_d_i_0_0_i_hom. sc zp_d_i_0_0_l_i_hom. sc zp_d_i_0_0_t_i_hom. nil. Qed.
Lemma zm_mm_hom : zm_bubbles_mm q p m1 m2 beta = scaled lam bubble_dim (zm_bubbles_mm q' p' m1' m2' beta').
Proof. sc zm_i_m_m_i_hom. sc zm_i_m_m_l_i_hom. sc zm_i_m_m_t_i_hom. sc zm_d_i_m_m_i_hom. sc zm_d_i_m_m_l_i_hom. sc zm_d_i_m_m_t_i_hom. nil. Qed.
Lemma zm_same_hom : zm_bubbles_same q p m1 beta = scaled lam bubble_dim (zm_bubbles_same q' p' m1' beta').
Proof. sct zm_i_m_m_i_same_mass_hom. sct zm_i_m_m_l_i_same_mass_hom. sct zm_i_m_m_t_i_same_mass_hom. sct zm_d_i_m_m_i_same_mass_hom. sct zm_d_i_m_m_l_i_same_mass_hom. sct zm_d_i_m_m_t_i_same_mass_hom. nil. Qed.
Lemma zm_m0_hom : zm_bubbles_m0 q p m1 beta = scaled lam bubble_dim (zm_bubbles_m0 q' p' m1' beta').
Proof. sc zm_i_m_0_i_hom. sc zm_i_m_0_l_i_hom. sc zm_i_m_0_t_i_hom. sct zm_d_i_m_0_i_hom. sct zm_d_i_m_0_l_i_hom. sc zm_d_i_m_0_t_i_hom. nil. Qed.
Lemma zm_zero_hom : zm_bubbles_0 q p beta = scaled lam bubble_dim (zm_bubbles_0 q' p' beta').
Proof. sct zm_i_0_0_i_hom. sct zm_i_0_0_l_i_hom. sct zm_i_0_0_t_i_hom. sct zm_d_i_0_0_i_hom. sct zm_d_i_0_0_l_i_hom. sct zm_d_i_0_0_t_i_hom. nil. Qed.
Lemma tad_hom : map toC (tadpoles q m1 beta) = scaled lam tadpole_dim (map toC (tadpoles q' m1' beta')).
Proof. cbn [map tadpoles]. sct j_m_i_hom. sct j_m_l_i_hom. sct j_m_t_i_hom. sct d_j_m_i_hom. sct d_j_m_l_i_hom. sct d_j_m_t_i_hom. sct d2_j_m_i_hom. sct d2_j_m_l_i_hom. sct d2_j_m_t_i_hom. nil. Qed.
Lemma tad0_hom : map RtoC (tadpoles_0 q beta) = scaled lam tadpole_dim (map RtoC (tadpoles_0 q' beta')).
Proof. change RtoC with (@toC R NumR). cbn [map tadpoles_0]. sct j_0_i_hom. sct j_0_l_i_hom. sct j_0_t_i_hom. sct d_j_0_i_hom. sct d_j_0_l_i_hom. sct d_j_0_t_i_hom. sct d2_j_0_i_hom. sct d2_j_0_l_i_hom. sct d2_j_0_t_i_hom. nil. Qed.
Lemma glue_hom : glue_parts q om p m beta = scaled lam glue_dim (glue_parts q' om' p' m' beta').
Proof. sc ghost_self_energy_thermal_part_landau_i_hom. sc polarization_glue_l_thermal_part_landau_i_hom. sc polarization_glue_t_thermal_part_landau_i_hom. nil. Qed.
Lemma zp_glue_hom : zp_glue_parts q om m beta = scaled lam glue_dim (zp_glue_parts q' om' m' beta').
Proof. sc zp_ghost_self_energy_thermal_part_landau_i_hom. sc zp_polarization_glue_l_thermal_part_landau_i_hom. sc zp_polarization_glue_t_thermal_part_landau_i_hom. nil. Qed.
Lemma zm_glue_hom : zm_glue_parts q p m beta = scaled lam glue_dim (zm_glue_parts q' p' m' beta').
Proof. sc zm_ghost_self_energy_thermal_part_landau_i_hom. sc zm_polarization_glue_l_thermal_part_landau_i_hom. sc zm_polarization_glue_t_thermal_part_landau_i_hom. nil. Qed.
Lemma quark_hom : all_quark nc q om p mq beta mu = scaled lam quark_dim (all_quark nc q' om' p' mq' beta' mu').
Proof.
  unfold all_quark, quark_parts, zp_quark_parts, zm_quark_parts. cbn [app].
  sc polarization_quark_l_thermal_part_landau_i_hom. sc polarization_quark_t_thermal_part_landau_i_hom.
  sct zp_polarization_quark_l_thermal_part_landau_i_hom. sct zp_polarization_quark_t_thermal_part_landau_i_hom.
  sct zm_polarization_quark_l_thermal_part_landau_i_hom. sct zm_polarization_quark_t_thermal_part_landau_i_hom. nil.
Qed.
Lemma quark0_hom : all_quark0 nc q om p mq mu = scaled lam quark_dim (all_quark0 nc q' om' p' mq' mu').
Proof.
  unfold all_quark0, quark_parts_zero_temp, zp_quark_parts_zero_temp, zm_quark_parts_zero_temp. cbn [app].
  sc polarization_quark_l_thermal_part_zero_temp_landau_i_hom. sc polarization_quark_t_thermal_part_zero_temp_landau_i_hom.
  sct zp_polarization_quark_l_thermal_part_zero_temp_landau_i_hom. sct zp_polarization_quark_t_thermal_part_zero_temp_landau_i_hom.
  sct zm_polarization_quark_l_thermal_part_zero_temp_landau_i_hom. sct zm_polarization_quark_t_thermal_part_zero_temp_landau_i_hom. nil.
Qed.
End Generic.
End Lists.

Section Final.
Variables (lam q p beta m mq mu : R) (nc : nat).
Hypothesis Hl : 0 < lam.
Let HR := HomR lam Hl.
Let HC := HomC lam Hl.
Local Existing Instance HR.
Local Existing Instance HC.
Lemma h1 (x : R) : hom lam 1 (lam * x) x.
Proof. unfold hom. cbn [nmul ofR NumR]. now rewrite powerRZ_1. Qed.
Lemma h1C (x : C) : hom lam 1 (RtoC lam * x)%C x.
Proof. unfold hom. cbn [nmul ofR NumC]. now rewrite powerRZ_1. Qed.
Lemma hb (x : R) : hom lam (-1) (x / lam) x.
Proof. unfold hom. cbn [nmul ofR NumR]. change (-1)%Z with (- (1))%Z. rewrite pw_opp by auto. rewrite powerRZ_1. unfold Rdiv. ring. Qed.
Ltac go := intros; repeat match goal with |- _ /\ _ => split end;
  [ apply mm_hom | apply same_hom | apply m0_hom | apply zero_hom ]; auto using h1, h1C, hb.
Lemma homs_gen_R (om m1 m2 : R) :
  bubbles_mm (lam * q) (lam * om) (lam * p) (lam * m1) (lam * m2) (beta / lam) = scaled lam bubble_dim (bubbles_mm q om p m1 m2 beta) /\
  bubbles_same (lam * q) (lam * om) (lam * p) (lam * m1) (beta / lam) = scaled lam bubble_dim (bubbles_same q om p m1 beta) /\
  bubbles_m0 (lam * q) (lam * om) (lam * p) (lam * m1) (beta / lam) = scaled lam bubble_dim (bubbles_m0 q om p m1 beta) /\
  bubbles_0 (lam * q) (lam * om) (lam * p) (beta / lam) = scaled lam bubble_dim (bubbles_0 q om p beta).
Proof. go. Qed.
Lemma homs_gen_C (om m1 m2 : C) :
  bubbles_mm (lam * q) (RtoC lam * om)%C (lam * p) (RtoC lam * m1)%C (RtoC lam * m2)%C (beta / lam) = scaled lam bubble_dim (bubbles_mm q om p m1 m2 beta) /\
  bubbles_same (lam * q) (RtoC lam * om)%C (lam * p) (RtoC lam * m1)%C (beta / lam) = scaled lam bubble_dim (bubbles_same q om p m1 beta) /\
  bubbles_m0 (lam * q) (RtoC lam * om)%C (lam * p) (RtoC lam * m1)%C (beta / lam) = scaled lam bubble_dim (bubbles_m0 q om p m1 beta) /\
  bubbles_0 (lam * q) (RtoC lam * om)%C (lam * p) (beta / lam) = scaled lam bubble_dim (bubbles_0 q om p beta).
Proof. go. Qed.
Ltac gozp := intros; repeat match goal with |- _ /\ _ => split end;
  [ apply zp_mm_hom | apply zp_same_hom | apply zp_m0_hom | apply zp_zero_hom ]; auto using h1, h1C, hb.
Lemma homs_zp_R (om m1 m2 : R) :
  zp_bubbles_mm (lam * q) (lam * om) (lam * m1) (lam * m2) (beta / lam) = scaled lam bubble_dim (zp_bubbles_mm q om m1 m2 beta) /\
  zp_bubbles_same (lam * q) (lam * om) (lam * m1) (beta / lam) = scaled lam bubble_dim (zp_bubbles_same q om m1 beta) /\
  zp_bubbles_m0 (lam * q) (lam * om) (lam * m1) (beta / lam) = scaled lam bubble_dim (zp_bubbles_m0 q om m1 beta) /\
  zp_bubbles_0 (lam * q) (lam * om) (beta / lam) = scaled lam bubble_dim (zp_bubbles_0 q om beta).
Proof. gozp. Qed.
Lemma homs_zp_C (om m1 m2 : C) :
  zp_bubbles_mm (lam * q) (RtoC lam * om)%C (RtoC lam * m1)%C (RtoC lam * m2)%C (beta / lam) = scaled lam bubble_dim (zp_bubbles_mm q om m1 m2 beta) /\
  zp_bubbles_same (lam * q) (RtoC lam * om)%C (RtoC lam * m1)%C (beta / lam) = scaled lam bubble_dim (zp_bubbles_same q om m1 beta) /\
  zp_bubbles_m0 (lam * q) (RtoC lam * om)%C (RtoC lam * m1)%C (beta / lam) = scaled lam bubble_dim (zp_bubbles_m0 q om m1 beta) /\
  zp_bubbles_0 (lam * q) (RtoC lam * om)%C (beta / lam) = scaled lam bubble_dim (zp_bubbles_0 q om beta).
Proof. gozp. Qed.
Ltac gozm := intros; repeat match goal with |- _ /\ _ => split end;
  [ apply zm_mm_hom | apply zm_same_hom | apply zm_m0_hom | apply zm_zero_hom ]; auto using h1, h1C, hb.
Lemma homs_zm_R (m1 m2 : R) :
  zm_bubbles_mm (lam * q) (lam * p) (lam * m1) (lam * m2) (beta / lam) = scaled lam bubble_dim (zm_bubbles_mm q p m1 m2 beta) /\
  zm_bubbles_same (lam * q) (lam * p) (lam * m1) (beta / lam) = scaled lam bubble_dim (zm_bubbles_same q p m1 beta) /\
  zm_bubbles_m0 (lam * q) (lam * p) (lam * m1) (beta / lam) = scaled lam bubble_dim (zm_bubbles_m0 q p m1 beta) /\
  zm_bubbles_0 (lam * q) (lam * p) (beta / lam) = scaled lam bubble_dim (zm_bubbles_0 q p beta).
Proof. gozm. Qed.
Lemma homs_zm_C (m1 m2 : C) :
  zm_bubbles_mm (lam * q) (lam * p) (RtoC lam * m1)%C (RtoC lam * m2)%C (beta / lam) = scaled lam bubble_dim (zm_bubbles_mm q p m1 m2 beta) /\
  zm_bubbles_same (lam * q) (lam * p) (RtoC lam * m1)%C (beta / lam) = scaled lam bubble_dim (zm_bubbles_same q p m1 beta) /\
  zm_bubbles_m0 (lam * q) (lam * p) (RtoC lam * m1)%C (beta / lam) = scaled lam bubble_dim (zm_bubbles_m0 q p m1 beta) /\
  zm_bubbles_0 (lam * q) (lam * p) (beta / lam) = scaled lam bubble_dim (zm_bubbles_0 q p beta).
Proof. gozm. Qed.
Lemma homs_tad (mc : C) :
  map RtoC (tadpoles (lam * q) (lam * m) (beta / lam)) = scaled lam tadpole_dim (map RtoC (tadpoles q m beta)) /\
  tadpoles (lam * q) (RtoC lam * mc)%C (beta / lam) = scaled lam tadpole_dim (tadpoles q mc beta) /\
  map RtoC (tadpoles_0 (lam * q) (beta / lam)) = scaled lam tadpole_dim (map RtoC (tadpoles_0 q beta)).
Proof.
  repeat match goal with |- _ /\ _ => split end.
  - exact (tad_hom lam Hl _ _ _ _ _ _ (h1 q) (hb beta) (h1 m)).
  - exact (tad_hom lam Hl _ _ _ _ _ _ (h1 q) (hb beta) (h1C mc)).
  - apply (tad0_hom lam Hl); auto using h1, hb.
Qed.
Lemma homs_pol_R (om : R) :
  glue_parts (lam * q) (lam * om) (lam * p) (lam * m) (beta / lam) = scaled lam glue_dim (glue_parts q om p m beta) /\
  zp_glue_parts (lam * q) (lam * om) (lam * m) (beta / lam) = scaled lam glue_dim (zp_glue_parts q om m beta) /\
  zm_glue_parts (lam * q) (lam * p) (lam * m) (beta / lam) = scaled lam glue_dim (zm_glue_parts q p m beta) /\
  all_quark nc (lam * q) (lam * om) (lam * p) (lam * mq) (beta / lam) (lam * mu) = scaled lam quark_dim (all_quark nc q om p mq beta mu) /\
  all_quark0 nc (lam * q) (lam * om) (lam * p) (lam * mq) (lam * mu) = scaled lam quark_dim (all_quark0 nc q om p mq mu).
Proof. repeat match goal with |- _ /\ _ => split end; [apply glue_hom|apply zp_glue_hom|apply zm_glue_hom|apply quark_hom|apply quark0_hom]; auto using h1, hb. Qed.
Lemma homs_pol_C (om : C) :
  glue_parts (lam * q) (RtoC lam * om)%C (lam * p) (lam * m) (beta / lam) = scaled lam glue_dim (glue_parts q om p m beta) /\
  zp_glue_parts (lam * q) (RtoC lam * om)%C (lam * m) (beta / lam) = scaled lam glue_dim (zp_glue_parts q om m beta) /\
  all_quark nc (lam * q) (RtoC lam * om)%C (lam * p) (lam * mq) (beta / lam) (lam * mu) = scaled lam quark_dim (all_quark nc q om p mq beta mu) /\
  all_quark0 nc (lam * q) (RtoC lam * om)%C (lam * p) (lam * mq) (lam * mu) = scaled lam quark_dim (all_quark0 nc q om p mq mu).
Proof. repeat match goal with |- _ /\ _ => split end; [apply glue_hom|apply zp_glue_hom|apply quark_hom|apply quark0_hom]; auto using h1, h1C, hb. Qed.
Lemma homs_mixed (om m1 : R) (m2 omc m1c : C) :
  bubbles_mm (lam * q) (lam * om) (lam * p) (lam * m1) (RtoC lam * m2)%C (beta / lam) = scaled lam bubble_dim (bubbles_mm q om p m1 m2 beta) /\
  bubbles_mm (lam * q) (RtoC lam * omc)%C (lam * p) (RtoC lam * m1c)%C (lam * m1) (beta / lam) = scaled lam bubble_dim (bubbles_mm q omc p m1c m1 beta) /\
  bubbles_same (lam * q) (lam * om) (lam * p) (RtoC lam * m2)%C (beta / lam) = scaled lam bubble_dim (bubbles_same q om p m2 beta) /\
  bubbles_m0 (lam * q) (RtoC lam * omc)%C (lam * p) (lam * m1) (beta / lam) = scaled lam bubble_dim (bubbles_m0 q omc p m1 beta).
Proof. repeat match goal with |- _ /\ _ => split end; [apply mm_hom|apply mm_hom|apply same_hom|apply m0_hom]; auto using h1, h1C, hb. Qed.
End Final.

Lemma ex_scale : i_0_0_i 1 (1 : R) 1 1 = RtoC (ln 5 / (8 * (PI * PI) * (exp 1 - 1))) /\
  i_0_0_i 2 (2 : R) 2 (1 / 2) = RtoC (ln 5 / (16 * (PI * PI) * (exp 1 - 1))).
Proof.
  split; [apply ex_massless|].
  destruct (homs_gen_R 2 1 1 1 ltac:(lra) 1 0 0) as (_ & _ & _ & H). apply (f_equal (fun l => nth 0 l (RtoC 0))) in H.
  unfold bubbles_0, scaled, bubble_dim in H. cbn [nth combine map fst snd] in H. rewrite !Rmult_1_r in H. rewrite H, ex_massless.
  change (-1)%Z with (- (1))%Z. rewrite pw_opp, powerRZ_1 by lra. rewrite <- RtoC_mult. f_equal. pose proof PI_neq0. pose proof (exp_m1 1 ltac:(lra)). field. split; auto.
Qed.
