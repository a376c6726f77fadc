(** * Conjugation symmetry of the thermal integrands at complex frequency *)
From Coq Require Import Reals Psatz List.
From Coquelicot Require Import Coquelicot.
From Verif Require Import Num CField MCommon MThermal MThermalZP MPolar SpecInteg PCplx PVac PSym.
Import List ListNotations.
Open Scope R_scope.

Lemma conj_Ci : Cconj Ci = (- Ci)%C.
Proof. apply Ceq; simpl; ring. Qed.
#[global] Hint Rewrite conj_plus conj_opp conj_minus conj_mult conj_inv conj_div conj_RtoC conj_Ci : cj.
Lemma zp_r_0_conj (om : C) (en : R) (d : C) : Cconj (zp_r_0 om en d) = zp_r_0 (- Cconj om)%C en (Cconj d).
Proof. unfold zp_r_0. numcbn. autorewrite with cj. rewrite sqopp. ring. Qed.
Lemma zp_r_0_conj_R (om : C) (en : R) (d : R) : Cconj (zp_r_0 om en d) = zp_r_0 (- Cconj om)%C en d.
Proof. unfold zp_r_0. numcbn. autorewrite with cj. rewrite sqopp. ring. Qed.
Lemma zp_r_0_same_mass_conj (om : C) (en : R) : Cconj (zp_r_0_same_mass om en) = zp_r_0_same_mass (- Cconj om)%C en.
Proof. unfold zp_r_0_same_mass. numcbn. autorewrite with cj. rewrite sqopp. ring. Qed.
#[global] Hint Rewrite zp_r_0_conj zp_r_0_conj_R zp_r_0_same_mass_conj : cj.
Lemma mc (a b c d : C) : (a + b * (c * - Ci * d))%C = (a - b * (c * Ci * d))%C.
Proof. ring. Qed.
Lemma mc' (a b c d : C) : (a - b * (c * - Ci * d))%C = (a + b * (c * Ci * d))%C.
Proof. ring. Qed.
Section ZP.
Variables (q beta : R) (om : C).
Ltac zunf := unfold zp_i_m_m_t_i, zp_i_m_m_t_i_same_mass, zp_i_m_0_t_i, zp_i_0_0_t_i, zp_d_i_m_m_t_i, zp_d_i_m_m_t_i_same_mass, zp_d_i_m_0_t_i, zp_d_i_0_0_t_i;
  unfold zp_i_m_m_i, zp_i_m_m_l_i, zp_d_i_m_m_i, zp_d_i_m_m_l_i, zp_i_m_m_i_same_mass, zp_i_m_m_l_i_same_mass, zp_d_i_m_m_i_same_mass, zp_d_i_m_m_l_i_same_mass,
  zp_i_m_0_i, zp_i_m_0_l_i, zp_d_i_m_0_i, zp_d_i_m_0_l_i, zp_i_0_0_i, zp_i_0_0_l_i, zp_d_i_0_0_i, zp_d_i_0_0_l_i.
Ltac cz := zunf; cbv zeta; numcbn; autorewrite with cj; rewrite ?oppopp, ?sqopp, ?mc, ?mc'; unfold Cdiv; ring.
Lemma zp_bubbles_mm_conj (m1 m2 : R) : zp_bubbles_mm q (Cconj om) m1 m2 beta = map Cconj (zp_bubbles_mm q om m1 m2 beta).
Proof. unfold zp_bubbles_mm. cbn [map]. lsplit; cz. Qed.
Lemma zp_bubbles_same_conj (m : R) : zp_bubbles_same q (Cconj om) m beta = map Cconj (zp_bubbles_same q om m beta).
Proof. unfold zp_bubbles_same. cbn [map]. lsplit; cz. Qed.
Lemma zp_bubbles_m0_conj (m : R) : zp_bubbles_m0 q (Cconj om) m beta = map Cconj (zp_bubbles_m0 q om m beta).
Proof. unfold zp_bubbles_m0. cbn [map]. lsplit; cz. Qed.
Lemma zp_bubbles_0_conj : zp_bubbles_0 q (Cconj om) beta = map Cconj (zp_bubbles_0 q om beta).
Proof. unfold zp_bubbles_0. cbn [map]. lsplit; cz. Qed.
Lemma zp_glue_parts_conj (m : R) : zp_glue_parts q (Cconj om) m beta = map Cconj (zp_glue_parts q om m beta).
Proof.
  pose proof (zp_bubbles_same_conj m) as A. pose proof (zp_bubbles_m0_conj m) as B. pose proof zp_bubbles_0_conj as D.
  unfold zp_bubbles_same in A. cbn [map] in A. lsix A A1 A2 A3 A4 A5 A6. unfold zp_bubbles_m0 in B. cbn [map] in B. lsix B B1 B2 B3 B4 B5 B6. unfold zp_bubbles_0 in D. cbn [map] in D. lsix D D1 D2 D3 D4 D5 D6.
  unfold zp_glue_parts. cbn [map]. lsplit; unfold zp_ghost_self_energy_thermal_part_landau_i, zp_polarization_glue_t_thermal_part_landau_i, zp_polarization_glue_l_thermal_part_landau_i;
    rewrite ?A1, ?A2, ?A3, ?A4, ?A5, ?A6, ?B1, ?B2, ?B3, ?B4, ?B5, ?B6, ?D1, ?D2, ?D3, ?D4, ?D5, ?D6; cbv zeta; numcbn; autorewrite with cj; reflexivity.
Qed.
Lemma zp_quark_parts_conj nc (mq mu : R) : zp_quark_parts nc q (Cconj om) mq beta mu = map Cconj (zp_quark_parts nc q om mq beta mu).
Proof. unfold zp_quark_parts. cbn [map]. lsplit; unfold zp_polarization_quark_t_thermal_part_landau_i, zp_polarization_quark_l_thermal_part_landau_i; cbv zeta; numcbn; autorewrite with cj; reflexivity. Qed.
Lemma zp_quark_parts_zero_temp_conj nc (mq mu : R) : zp_quark_parts_zero_temp nc q (Cconj om) mq mu = map Cconj (zp_quark_parts_zero_temp nc q om mq mu).
Proof. unfold zp_quark_parts_zero_temp. cbn [map]. lsplit; unfold zp_polarization_quark_t_thermal_part_zero_temp_landau_i, zp_polarization_quark_l_thermal_part_zero_temp_landau_i; cbv zeta; numcbn; autorewrite with cj; reflexivity. Qed.
End ZP.

(** ** General momentum: the logarithms stay off their cut *)
Definition okc (om : C) (en : R) : Prop := fst om <> 0 /\ snd om <> en /\ snd om <> - en.
Lemma okc_opp om en : okc om en -> okc (- om)%C en.
Proof. intros (A & B & D). unfold okc. simpl. repeat split; lra. Qed.
Lemma slit_ratio (a : R) (z : C) : snd z <> 0 -> slit ((RtoC a + z) / (RtoC (- a)%R + z))%C.
Proof.
  intros H. destruct z as (x, y). simpl in H. unfold slit, Cdiv, Cinv. simpl. set (n := (- a + x) * ((- a + x) * 1) + (0 + y) * ((0 + y) * 1)).
  assert (Hn : 0 < n). { unfold n. assert (0 < y * y) by (destruct (Rtotal_order y 0) as [?|[?|?]]; [nra|contradiction|nra]). pose proof (Rle_0_sqr (- a + x)) as K. unfold Rsqr in K. nra. }
  destruct (Req_dec a 0) as [->|Ha].
  - right. replace ((0 + x) * ((- 0 + x) / n) - (0 + y) * (- (0 + y) / n)) with (1 * (n / n)) by (unfold n; unfold Rdiv; ring). unfold Rdiv. rewrite Rinv_r; lra.
  - left. replace ((a + x) * (- (0 + y) / n) + (0 + y) * ((- a + x) / n)) with (- (2 * a * y) / n) by (field; lra).
    unfold Rdiv. apply Rmult_integral_contrapositive. split; [|apply Rinv_neq_0_compat; lra]. apply Ropp_neq_0_compat. apply Rmult_integral_contrapositive. split; [lra|auto].
Qed.
Section Gen.
Lemma r_0_conj (om : C) (p en : R) (d : C) : Cconj (r_0 om p en d) = r_0 (- Cconj om)%C p en (Cconj d).
Proof. unfold r_0. numcbn. autorewrite with cj. rewrite sqopp. ring. Qed.
Lemma r_0_conj_R (om : C) (p en : R) (d : R) : Cconj (r_0 om p en d) = r_0 (- Cconj om)%C p en d.
Proof. unfold r_0. numcbn. autorewrite with cj. rewrite sqopp. ring. Qed.
Lemma r_0_same_mass_conj (om : C) (p en : R) : Cconj (r_0_same_mass om p en) = r_0_same_mass (- Cconj om)%C p en.
Proof. unfold r_0_same_mass. numcbn. autorewrite with cj. rewrite sqopp. ring. Qed.
Hint Rewrite r_0_conj r_0_conj_R r_0_same_mass_conj : cj.
Lemma snd_r_0 (om : C) (p en : R) (d : C) : snd d = 0 -> snd (r_0 om p en d) = 2 * fst om * (snd om + en).
Proof. intros H. unfold r_0. numcbn. simpl. rewrite H. ring. Qed.
Lemma okc_im om en x : okc om en -> x = 2 * fst om * (snd om + en) -> x <> 0.
Proof. intros (A & _ & B) ->. apply Rmult_integral_contrapositive. split; [apply Rmult_integral_contrapositive; split; lra|lra]. Qed.
Lemma conj_Cln z w : slit z -> Cconj z = w -> Cconj (Cln z) = Cln w.
Proof. intros H <-. now rewrite Cln_conj. Qed.
Lemma tlog_conj q (om : C) (p en : R) (d : C) : okc om en -> snd d = 0 -> Cconj (tlog q om p en d) = tlog q (- Cconj om)%C p en (Cconj d).
Proof.
  intros Hk Hd. unfold tlog. numcbn. apply conj_Cln; [apply slit_ratio; rewrite ?Ropp_mult_distr_l; apply (okc_im om en); auto; rewrite snd_r_0; auto|]. autorewrite with cj. reflexivity.
Qed.
Lemma tlog_conj_R q (om : C) (p en : R) (d : R) : okc om en -> Cconj (tlog q om p en d) = tlog q (- Cconj om)%C p en d.
Proof.
  intros Hk. unfold tlog. numcbn. apply conj_Cln; [apply slit_ratio; apply (okc_im om en); auto; unfold r_0; numcbn; simpl; ring|]. autorewrite with cj. reflexivity.
Qed.
Lemma tlog_same_mass_conj q (om : C) (p en : R) : okc om en -> Cconj (tlog_same_mass q om p en) = tlog_same_mass q (- Cconj om)%C p en.
Proof.
  intros Hk. unfold tlog_same_mass. numcbn. apply conj_Cln; [apply slit_ratio; apply (okc_im om en); auto; unfold r_0_same_mass; numcbn; simpl; ring|]. autorewrite with cj. reflexivity.
Qed.
Lemma tlog_zero_mass_conj q (om : C) (p : R) : okc om q -> Cconj (tlog_zero_mass q om p) = tlog_zero_mass q (- Cconj om)%C p.
Proof.
  intros Hk. unfold tlog_zero_mass. numcbn. apply conj_Cln; [apply slit_ratio; apply (okc_im om q); auto; unfold r_0_same_mass; numcbn; simpl; ring|]. autorewrite with cj. reflexivity.
Qed.
Ltac cl := numcbn; autorewrite with cj; rewrite ?sqopp, ?invopp; unfold Cminus, Cdiv; ring.
Lemma tlog_l_conj q (om : C) (p en : R) (d : C) : okc om en -> snd d = 0 -> Cconj (tlog_l q om p en d) = tlog_l q (- Cconj om)%C p en (Cconj d).
Proof. intros Hk Hd. unfold tlog_l. cbv zeta. rewrite <- tlog_conj by auto. cl. Qed.
Lemma tlog_l_conj_R q (om : C) (p en : R) (d : R) : okc om en -> Cconj (tlog_l q om p en d) = tlog_l q (- Cconj om)%C p en d.
Proof. intros Hk. unfold tlog_l. cbv zeta. rewrite <- tlog_conj_R by auto. cl. Qed.
Lemma tlog_l_same_mass_conj q (om : C) (p en : R) : okc om en -> Cconj (tlog_l_same_mass q om p en) = tlog_l_same_mass q (- Cconj om)%C p en.
Proof. intros Hk. unfold tlog_l_same_mass. cbv zeta. rewrite <- tlog_same_mass_conj by auto. cl. Qed.
Lemma tlog_l_zero_mass_conj q (om : C) (p : R) : okc om q -> Cconj (tlog_l_zero_mass q om p) = tlog_l_zero_mass q (- Cconj om)%C p.
Proof. intros Hk. unfold tlog_l_zero_mass. cbv zeta. rewrite <- tlog_zero_mass_conj by auto. cl. Qed.
Lemma tlog_t_conj q (om : C) (p en : R) (d : C) : okc om en -> snd d = 0 -> Cconj (tlog_t q om p en d) = tlog_t q (- Cconj om)%C p en (Cconj d).
Proof. intros Hk Hd. unfold tlog_t. cbv zeta. rewrite <- tlog_conj by auto. cl. Qed.
Lemma tlog_t_conj_R q (om : C) (p en : R) (d : R) : okc om en -> Cconj (tlog_t q om p en d) = tlog_t q (- Cconj om)%C p en d.
Proof. intros Hk. unfold tlog_t. cbv zeta. rewrite <- tlog_conj_R by auto. cl. Qed.
Lemma tlog_t_same_mass_conj q (om : C) (p en : R) : okc om en -> Cconj (tlog_t_same_mass q om p en) = tlog_t_same_mass q (- Cconj om)%C p en.
Proof. intros Hk. unfold tlog_t_same_mass. cbv zeta. rewrite <- tlog_same_mass_conj by auto. cl. Qed.
Lemma tlog_t_zero_mass_conj q (om : C) (p : R) : okc om q -> Cconj (tlog_t_zero_mass q om p) = tlog_t_zero_mass q (- Cconj om)%C p.
Proof. intros Hk. unfold tlog_t_zero_mass. cbv zeta. rewrite <- tlog_zero_mass_conj by auto. cl. Qed.
End Gen.
#[global] Hint Rewrite r_0_conj r_0_conj_R r_0_same_mass_conj : cj.
#[global] Hint Rewrite tlog_conj tlog_conj_R tlog_same_mass_conj tlog_zero_mass_conj tlog_l_conj tlog_l_conj_R tlog_l_same_mass_conj tlog_l_zero_mass_conj tlog_t_conj tlog_t_conj_R tlog_t_same_mass_conj tlog_t_zero_mass_conj
  using first [assumption|apply okc_opp; assumption|simpl; ring] : cj.
Section GP.
Variables (q p beta : R) (om : C).
Ltac cg := cbv zeta; numcbn; autorewrite with cj; rewrite ?oppopp, ?sqopp, ?invopp; unfold Cminus, Cdiv; ring.
Lemma bubbles_mm_conj (m1 m2 : R) : okc om (energy q m1) -> okc om (energy q m2) -> bubbles_mm q (Cconj om) p m1 m2 beta = map Cconj (bubbles_mm q om p m1 m2 beta).
Proof. intros. unfold bubbles_mm. cbn [map]. lsplit; unfold i_m_m_i, i_m_m_l_i, i_m_m_t_i, d_i_m_m_i, d_i_m_m_l_i, d_i_m_m_t_i; cg. Qed.
Lemma bubbles_same_conj (m : R) : okc om (energy q m) -> bubbles_same q (Cconj om) p m beta = map Cconj (bubbles_same q om p m beta).
Proof. intros. unfold bubbles_same. cbn [map]. lsplit; unfold i_m_m_i_same_mass, i_m_m_l_i_same_mass, i_m_m_t_i_same_mass, d_i_m_m_i_same_mass, d_i_m_m_l_i_same_mass, d_i_m_m_t_i_same_mass; cg. Qed.
Lemma bubbles_m0_conj (m : R) : okc om (energy q m) -> okc om q -> bubbles_m0 q (Cconj om) p m beta = map Cconj (bubbles_m0 q om p m beta).
Proof. intros. unfold bubbles_m0. cbn [map]. lsplit; unfold i_m_0_i, i_m_0_l_i, i_m_0_t_i, d_i_m_0_i, d_i_m_0_l_i, d_i_m_0_t_i; cg. Qed.
Lemma bubbles_0_conj : okc om q -> bubbles_0 q (Cconj om) p beta = map Cconj (bubbles_0 q om p beta).
Proof. intros. unfold bubbles_0. cbn [map]. lsplit; unfold i_0_0_i, i_0_0_l_i, i_0_0_t_i, d_i_0_0_i, d_i_0_0_l_i, d_i_0_0_t_i; cg. Qed.
Lemma glue_parts_conj (m : R) : okc om (energy q m) -> okc om q -> glue_parts q (Cconj om) p m beta = map Cconj (glue_parts q om p m beta).
Proof.
  intros H1 H2. pose proof (bubbles_same_conj m H1) as A. pose proof (bubbles_m0_conj m H1 H2) as B. pose proof (bubbles_0_conj H2) as D.
  unfold bubbles_same in A. cbn [map] in A. lsix A A1 A2 A3 A4 A5 A6. unfold bubbles_m0 in B. cbn [map] in B. lsix B B1 B2 B3 B4 B5 B6. unfold bubbles_0 in D. cbn [map] in D. lsix D D1 D2 D3 D4 D5 D6.
  unfold glue_parts. cbn [map]. lsplit; unfold ghost_self_energy_thermal_part_landau_i, polarization_glue_l_thermal_part_landau_i, polarization_glue_t_thermal_part_landau_i;
    rewrite ?A1, ?A2, ?A3, ?A4, ?A5, ?A6, ?B1, ?B2, ?B3, ?B4, ?B5, ?B6, ?D1, ?D2, ?D3, ?D4, ?D5, ?D6; cbv zeta; numcbn; autorewrite with cj; reflexivity.
Qed.
Lemma quark_parts_conj nc (mq mu : R) : okc om (energy q mq) -> quark_parts nc q (Cconj om) p mq beta mu = map Cconj (quark_parts nc q om p mq beta mu).
Proof. intros. unfold quark_parts. cbn [map]. lsplit; unfold polarization_quark_l_thermal_part_landau_i, polarization_quark_t_thermal_part_landau_i; cg. Qed.
Lemma quark_parts_zero_temp_conj nc (mq mu : R) : okc om (energy q mq) -> quark_parts_zero_temp nc q (Cconj om) p mq mu = map Cconj (quark_parts_zero_temp nc q om p mq mu).
Proof. intros. unfold quark_parts_zero_temp. cbn [map]. lsplit; unfold polarization_quark_l_thermal_part_zero_temp_landau_i, polarization_quark_t_thermal_part_zero_temp_landau_i; cg. Qed.
End GP.
