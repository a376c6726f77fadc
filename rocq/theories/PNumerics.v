(** * The thermal integrands agree with the Python reference *)
From Coq Require Import Reals List Lra Lia.
From Coquelicot Require Import Coquelicot.
From Verif Require Import Num CField MCommon MThermal MThermalZM MThermalZP MPolar SpecInteg SpecNumerics PCplx PDistr PVac PLogs PCoh PMass PMassZ PMass2.
Import List ListNotations.
Open Scope R_scope.

Ltac npy := unfold n_, jj, npi2, sq, cu.

Lemma py_en_eq (q : R) (m : C) : py_en q m = energy q m.
Proof. unfold py_en, energy, energy_squared. npy. numcbn. f_equal. pushRtoC. ring. Qed.
Lemma csq_eq (q : R) (m : C) : Csqrt (RtoC q * RtoC q + m * m)%C = energy q m.
Proof. exact (py_en_eq q m). Qed.
Lemma en_sq (q : R) (m : C) : (energy q m * energy q m = RtoC q * RtoC q + m * m)%C.
Proof. unfold energy, energy_squared. numcbn. rewrite Csqrt_sqr. pushRtoC. ring. Qed.
Lemma py_en_sq (q m : C) : sq (py_en q m) = (q * q + m * m)%C.
Proof. unfold py_en. npy. apply Csqrt_sqr. Qed.
Lemma py_bose_eq (q : R) (m : C) (beta : R) : py_bose q m beta = bose_distribution_zero_chempot (energy q m) beta.
Proof.
  unfold py_bose. rewrite py_en_eq. unfold bose_distribution_zero_chempot, statistic_distribution_exponential_zero_chempot. npy. numcbn.
  rewrite (Cmult_comm (RtoC beta)). unfold Cdiv. now rewrite Cmult_1_l.
Qed.
Lemma py_tlog_eq (q : R) (om : C) (p : R) (en d : C) : py_tlog q om p en d = CL q om p en d.
Proof.
  unfold py_tlog, CL, CR. cbv zeta. npy. f_equal. unfold Cdiv. f_equal; [ring|f_equal; ring].
Qed.

Ltac ztac E := unfold IP, IM, CR; npy; unfold Cdiv; rewrite Cmult_1_l; f_equal; ring [E Ci2].
Lemma IPz (q p : R) (en m m' om : C) : (en * en = RtoC q * RtoC q + m * m)%C ->
  (n_ 1 / (sq (om + jj (n_ 1) * en) + sq (py_en (RtoC q + RtoC p) m')))%C = IP q om p en (m' * m' - m * m)%C.
Proof. intros E. rewrite py_en_sq. ztac E. Qed.
Lemma IMz (q p : R) (en m m' om : C) : (en * en = RtoC q * RtoC q + m * m)%C ->
  (n_ 1 / (sq (om + jj (n_ 1) * en) + sq (py_en (RtoC q - RtoC p) m')))%C = IM q om p en (m' * m' - m * m)%C.
Proof. intros E. rewrite py_en_sq. ztac E. Qed.
Lemma IPz' (q p : R) (en m m' om : C) : (en * en = RtoC q * RtoC q + m * m)%C ->
  (n_ 1 / (sq (om + jj (n_ 1) * en) + sq (RtoC p + RtoC q) + sq m'))%C = IP q om p en (m' * m' - m * m)%C.
Proof. intros E. ztac E. Qed.
Lemma IMz' (q p : R) (en m m' om : C) : (en * en = RtoC q * RtoC q + m * m)%C ->
  (n_ 1 / (sq (om + jj (n_ 1) * en) + sq (RtoC p - RtoC q) + sq m'))%C = IM q om p en (m' * m' - m * m)%C.
Proof. intros E. ztac E. Qed.
(* the prefactors of the logarithms *)
Lemma XZ (q : R) (en m m' om : C) : (en * en = RtoC q * RtoC q + m * m)%C ->
  (sq (om + jj (n_ 1) * en) + sq (RtoC q) + sq m')%C = CR om (RtoC 0) en (m' * m' - m * m)%C.
Proof. intros E. unfold CR. npy. ring [E Ci2]. Qed.
Lemma XZe (q : R) (en m m' om : C) : (en * en = RtoC q * RtoC q + m * m)%C ->
  (sq (om + jj (n_ 1) * en) + sq (py_en q m'))%C = CR om (RtoC 0) en (m' * m' - m * m)%C.
Proof. intros E. rewrite py_en_sq. unfold CR. npy. ring [E Ci2]. Qed.

Lemma dsym (x y : C) : (x - y = - (y - x))%C.
Proof. ring. Qed.

Section General.
Variables (q p beta : R) (om m1 m2 : C).
Hypothesis Hp : p <> 0.
Hypothesis Hom : om <> RtoC 0.
Hypothesis Hs : (om * om + RtoC (p * p))%C <> RtoC 0.
Hypothesis He1 : energy q m1 <> RtoC 0.
Hypothesis He2 : energy q m2 <> RtoC 0.

Ltac side := repeat split; auto; try (apply RtoC_neq0; lra).
Ltac gene := 
  pose proof (en_sq q m1) as E1; pose proof (en_sq q m2) as E2;
  pose proof (RtoC_neq0 p Hp) as Hp'; pose proof (RtoC_neq0 PI PI_neq0) as Hpi; pose proof (RtoC_sum0 om p Hs) as Hs';
  repeat match goal with |- context [CL ?a ?b ?c ?d ?e] => generalize (CL a b c d e); intros ?x end;
  repeat match goal with |- context [IP ?a ?b ?c ?d ?e] => generalize (IP a b c d e); intros ?x end;
  repeat match goal with |- context [IM ?a ?b ?c ?d ?e] => generalize (IM a b c d e); intros ?x end;
  revert He1 He2 E1 E2; generalize (bose_distribution_zero_chempot (energy q m1) beta), (bose_distribution_zero_chempot (energy q m2) beta);
  generalize (energy q m1), (energy q m2); intros e1 e2 b1 b2 He1' He2' E1 E2; unfold CR; npy; unfold PI2; pushRtoC.
Ltac prep := canon; unfold py_i_m_m_i, py_i_m_m_l_i, py_i_m_m_t_i, py_d_i_m_m_i, py_d_i_m_m_l_i, py_d_i_m_m_t_i, py_tlog_t, py_tlog_l; cbv zeta;
  rewrite ?(IPz _ _ _ _ _ _ (en_sq q m1)), ?(IPz _ _ _ _ _ _ (en_sq q m2)), ?(IMz _ _ _ _ _ _ (en_sq q m1)), ?(IMz _ _ _ _ _ _ (en_sq q m2));
  rewrite ?py_bose_eq, ?py_en_eq, ?csq_eq;
  rewrite ?(IPz _ _ _ _ _ _ (en_sq q m1)), ?(IPz _ _ _ _ _ _ (en_sq q m2)), ?(IMz _ _ _ _ _ _ (en_sq q m1)), ?(IMz _ _ _ _ _ _ (en_sq q m2)),
   ?(IPz' _ _ _ _ _ _ (en_sq q m1)), ?(IPz' _ _ _ _ _ _ (en_sq q m2)), ?(IMz' _ _ _ _ _ _ (en_sq q m1)), ?(IMz' _ _ _ _ _ _ (en_sq q m2)),
   ?(XZ _ _ _ _ _ (en_sq q m1)), ?(XZ _ _ _ _ _ (en_sq q m2));
  rewrite ?py_tlog_eq; unfold sq;
  replace (m1 * m1 - m2 * m2)%C with (- (m2 * m2 - m1 * m1))%C by ring; gene.

Lemma eq_0 : i_m_m_i q om p m1 m2 beta = py_i_m_m_i q om p m1 m2 beta.
Proof. prep. field. side. Qed.
Lemma eq_l : i_m_m_l_i q om p m1 m2 beta = py_i_m_m_l_i q om p m1 m2 beta.
Proof. prep. Time field [E1 E2 Ci2]. side. Qed.
Lemma eq_t : i_m_m_t_i q om p m1 m2 beta = py_i_m_m_t_i q om p m1 m2 beta.
Proof. prep. Time field [E1 E2 Ci2]. side. Qed.
Lemma eq_d0 : d_i_m_m_i q om p m1 m2 beta = py_d_i_m_m_i q om p m1 m2 beta.
Proof. prep. Time field [E1 E2 Ci2]. side. Qed.
Lemma eq_dl : d_i_m_m_l_i q om p m1 m2 beta = py_d_i_m_m_l_i q om p m1 m2 beta.
Proof. prep. Time field [E1 E2 Ci2]. side. Qed.
Lemma eq_dt : d_i_m_m_t_i q om p m1 m2 beta = py_d_i_m_m_t_i q om p m1 m2 beta.
Proof. prep. Time field [E1 E2 Ci2]. side. Qed.
End General.

(** ** Zero momentum *)
Ltac jtac' := unfold JZ; npy; unfold Cdiv; rewrite Cmult_1_l; f_equal; ring.
Lemma J1 (om en d : C) : (n_ 1 / (om * om + jj (n_ 2) * om * en + d))%C = JZ om en d. Proof. jtac'. Qed.
Lemma J2 (om en d : C) : (n_ 1 / (om * om - jj (n_ 2) * om * en + d))%C = JZ (- om) en d. Proof. jtac'. Qed.
Lemma J3 (om en d : C) : (n_ 1 / (om * om + jj (n_ 2) * om * en - d))%C = JZ om en (- d). Proof. jtac'. Qed.
Lemma J4 (om en d : C) : (n_ 1 / (om * om - jj (n_ 2) * om * en - d))%C = JZ (- om) en (- d). Proof. jtac'. Qed.
Lemma J5 (om en a b : C) : (n_ 1 / (om * om + jj (n_ 2) * en * om + a - b))%C = JZ om en (a - b). Proof. jtac'. Qed.
Lemma J6 (om en a b : C) : (n_ 1 / (om * om - jj (n_ 2) * en * om + a - b))%C = JZ (- om) en (a - b). Proof. jtac'. Qed.
Lemma J7 (om en a b : C) : (n_ 1 / sq (om * om + jj (n_ 2) * en * om + a - b))%C = (JZ om en (a - b) * JZ om en (a - b))%C.
Proof. rewrite <- J5. npy. unfold Cdiv. rewrite !Cmult_1_l. apply Cinv_mult. Qed.
Lemma J8 (om en a b : C) : (n_ 1 / sq (om * om - jj (n_ 2) * en * om + a - b))%C = (JZ (- om) en (a - b) * JZ (- om) en (a - b))%C.
Proof. rewrite <- J6. npy. unfold Cdiv. rewrite !Cmult_1_l. apply Cinv_mult. Qed.
Lemma J9 (om en d : C) : (n_ 1 / CR om (RtoC 0) en d)%C = JZ om en d.
Proof. unfold CR. jtac'. Qed.
Lemma J10 (om en d : C) : (n_ 1 / sq (CR om (RtoC 0) en d))%C = (JZ om en d * JZ om en d)%C.
Proof. rewrite <- J9. npy. unfold Cdiv. rewrite !Cmult_1_l. apply Cinv_mult. Qed.
Lemma py_tlog_1o_eq (q om en d : C) : py_tlog_1o q om en d = (RtoC 4 * q * JZ om en d)%C.
Proof. unfold py_tlog_1o, JZ. cbv zeta. npy. unfold Cdiv. f_equal. f_equal. ring. Qed.

Section ZeroMom.
Variables (q beta : R) (om m1 m2 : C).
Hypothesis He1 : energy q m1 <> RtoC 0.
Hypothesis He2 : energy q m2 <> RtoC 0.
Ltac side := repeat split; auto; try (apply RtoC_neq0; lra).
Ltac prep := canonzp; unfold py_i_m_m_i_zp, py_i_m_m_l_i_zp, py_i_m_m_t_i_zp, py_d_i_m_m_i_zp, py_d_i_m_m_l_i_zp; cbv zeta;
  rewrite ?py_bose_eq, ?py_tlog_1o_eq; rewrite ?py_en_eq;
  rewrite <- ?py_en_eq with (m := m1); rewrite <- ?py_en_eq with (m := m2);
  rewrite ?(XZe q (py_en q m1) m1 m2 _ (py_en_sq q m1)), ?(XZe q (py_en q m2) m2 m1 _ (py_en_sq q m2));
  rewrite ?J10, ?J9, ?J7, ?J8, ?J5, ?J6, ?J1, ?J2, ?J3, ?J4, ?py_en_eq; unfold sq;
  replace (m1 * m1 - m2 * m2)%C with (- (m2 * m2 - m1 * m1))%C by ring;
  pose proof (RtoC_neq0 PI PI_neq0) as Hpi;
  repeat match goal with |- context [JZ ?a ?b ?c] => generalize (JZ a b c); intros ?x end;
  revert He1 He2; generalize (bose_distribution_zero_chempot (energy q m1) beta), (bose_distribution_zero_chempot (energy q m2) beta);
  generalize (energy q m1), (energy q m2); intros e1 e2 b1 b2 He1' He2'; npy; unfold PI2; pushRtoC.

Lemma zeq_0 : zp_i_m_m_i q om m1 m2 beta = py_i_m_m_i_zp q om m1 m2 beta.
Proof. prep. field. side. Qed.
Lemma zeq_l : zp_i_m_m_l_i q om m1 m2 beta = py_i_m_m_l_i_zp q om m1 m2 beta.
Proof. prep. field. side. Qed.
Lemma zeq_t : zp_i_m_m_t_i q om m1 m2 beta = py_i_m_m_t_i_zp q om m1 m2 beta.
Proof. prep. field. side. Qed.
Lemma zeq_d0 : zp_d_i_m_m_i q om m1 m2 beta = py_d_i_m_m_i_zp q om m1 m2 beta.
Proof. prep. field. side. Qed.
Lemma zeq_dl : zp_d_i_m_m_l_i q om m1 m2 beta = py_d_i_m_m_l_i_zp q om m1 m2 beta.
Proof. prep. field. side. Qed.
Lemma zeq_dt : zp_d_i_m_m_t_i q om m1 m2 beta = py_d_i_m_m_l_i_zp q om m1 m2 beta.
Proof. prep. field. side. Qed.
End ZeroMom.

(** ** Tadpoles *)
Lemma py_bosm_eq (q : R) (m : C) (beta : R) : py_bosm q m beta = bose_distribution_zero_chempot (- energy q m)%C beta.
Proof.
  unfold py_bosm. rewrite py_en_eq. unfold bose_distribution_zero_chempot, statistic_distribution_exponential_zero_chempot. npy. numcbn.
  unfold Cdiv. now rewrite Cmult_1_l.
Qed.
Lemma tadpoles_C q (m : C) beta : energy q m <> RtoC 0 -> tadpoles q m beta = py_tadpoles q m beta.
Proof.
  intros He. unfold tadpoles, py_tadpoles, j_m_i, j_m_l_i, j_m_t_i, d_j_m_i, d_j_m_l_i, d_j_m_t_i, d2_j_m_i, d2_j_m_l_i, d2_j_m_t_i,
    py_d_j_m_t_i, py_d2_j_m_t_i, py_d2_j_m_l_i, py_jnnm, py_j_m_i, py_j_m_l_i, py_j_m_t_i, py_d_j_m_i, py_d_j_m_l_i, py_d2_j_m_i.
  cbv zeta. rewrite !py_bose_eq, !py_bosm_eq, !py_en_eq. numcbn.
  generalize (bose_distribution_zero_chempot (energy q m) beta) (bose_distribution_zero_chempot (- energy q m)%C beta). revert He. generalize (energy q m). intros e He b b'.
  pose proof (RtoC_neq0 PI PI_neq0) as Hpi. npy. unfold PI2. pushRtoC.
  repeat (apply (f_equal2 cons); [field; repeat split; auto; apply RtoC_neq0; lra|]). reflexivity.
Qed.
Lemma energy_pos_R q (m : R) : 0 < q -> energy q (RtoC m) <> RtoC 0.
Proof.
  intros Hq. rewrite energy_RC. apply RtoC_neq0. unfold energy, energy_squared. numcbn. apply Rgt_not_eq. apply sqrt_lt_R0. nra.
Qed.
Lemma tadpoles_real q (m : R) beta : 0 < q -> map RtoC (tadpoles q m beta) = py_tadpoles q m beta.
Proof. intros Hq. rewrite <- tadpoles_R. apply tadpoles_C. now apply energy_pos_R. Qed.
Lemma tadpoles_zero q beta : 0 < q -> map RtoC (tadpoles_0 q beta) = py_tadpoles q (RtoC 0) beta.
Proof. intros Hq. rewrite <- tadpoles_0_R by auto. now apply tadpoles_real. Qed.

(** ** The lists of bubbles *)
Lemma bubbles_C q p beta (om m1 m2 : C) : p <> 0 -> om <> RtoC 0 -> (om * om + RtoC (p * p))%C <> RtoC 0 ->
  energy q m1 <> RtoC 0 -> energy q m2 <> RtoC 0 -> bubbles_mm q om p m1 m2 beta = py_bubbles q om p m1 m2 beta.
Proof.
  intros. unfold bubbles_mm, py_bubbles. now rewrite eq_0, eq_l, eq_t, eq_d0, eq_dl, eq_dt.
Qed.
Lemma bubbles_zp_C q beta (om m1 m2 : C) : energy q m1 <> RtoC 0 -> energy q m2 <> RtoC 0 ->
  zp_bubbles_mm q om m1 m2 beta = py_bubbles_zp q om m1 m2 beta.
Proof.
  intros. unfold zp_bubbles_mm, py_bubbles_zp. now rewrite zeq_0, zeq_l, zeq_t, zeq_d0, zeq_dl, zeq_dt.
Qed.

Ltac nthE E k := let H := fresh "H" in pose proof (f_equal (fun l => nth k l (RtoC 0)) E) as H; cbn [nth map bubbles_same bubbles_m0 bubbles_0 zp_bubbles_same zp_bubbles_m0 zp_bubbles_0 py_bubbles py_bubbles_zp tadpoles tadpoles_0 py_tadpoles] in H.

Ltac bub E := nthE E 0%nat; nthE E 1%nat; nthE E 2%nat; nthE E 3%nat; nthE E 4%nat; nthE E 5%nat.
Ltac tad E := nthE E 0%nat; nthE E 1%nat; nthE E 2%nat; nthE E 3%nat; nthE E 4%nat; nthE E 5%nat; nthE E 6%nat; nthE E 7%nat; nthE E 8%nat.
Ltac rewall := repeat match goal with H : ?a = ?b |- context [?a] => rewrite H; clear H end.
Ltac genpy := repeat match goal with
  | |- context [py_i_m_m_i ?a ?b ?c ?d ?e ?f] => generalize (py_i_m_m_i a b c d e f); intros ?x
  | |- context [py_i_m_m_l_i ?a ?b ?c ?d ?e ?f] => generalize (py_i_m_m_l_i a b c d e f); intros ?x
  | |- context [py_i_m_m_t_i ?a ?b ?c ?d ?e ?f] => generalize (py_i_m_m_t_i a b c d e f); intros ?x
  | |- context [py_d_i_m_m_i ?a ?b ?c ?d ?e ?f] => generalize (py_d_i_m_m_i a b c d e f); intros ?x
  | |- context [py_d_i_m_m_l_i ?a ?b ?c ?d ?e ?f] => generalize (py_d_i_m_m_l_i a b c d e f); intros ?x
  | |- context [py_d_i_m_m_t_i ?a ?b ?c ?d ?e ?f] => generalize (py_d_i_m_m_t_i a b c d e f); intros ?x
  | |- context [py_i_m_m_i_zp ?a ?b ?c ?d ?e] => generalize (py_i_m_m_i_zp a b c d e); intros ?x
  | |- context [py_i_m_m_l_i_zp ?a ?b ?c ?d ?e] => generalize (py_i_m_m_l_i_zp a b c d e); intros ?x
  | |- context [py_d_i_m_m_i_zp ?a ?b ?c ?d ?e] => generalize (py_d_i_m_m_i_zp a b c d e); intros ?x
  | |- context [py_d_i_m_m_l_i_zp ?a ?b ?c ?d ?e] => generalize (py_d_i_m_m_l_i_zp a b c d e); intros ?x
  | |- context [py_j_m_i ?a ?b ?c] => generalize (py_j_m_i a b c); intros ?x
  | |- context [py_j_m_l_i ?a ?b ?c] => generalize (py_j_m_l_i a b c); intros ?x
  | |- context [py_j_m_t_i ?a ?b ?c] => generalize (py_j_m_t_i a b c); intros ?x
  | |- context [py_d_j_m_i ?a ?b ?c] => generalize (py_d_j_m_i a b c); intros ?x
  | |- context [py_d_j_m_l_i ?a ?b ?c] => generalize (py_d_j_m_l_i a b c); intros ?x
  | |- context [py_d_j_m_t_i ?a ?b ?c] => generalize (py_d_j_m_t_i a b c); intros ?x
  | |- context [py_d2_j_m_i ?a ?b ?c] => generalize (py_d2_j_m_i a b c); intros ?x
  | |- context [py_d2_j_m_l_i ?a ?b ?c] => generalize (py_d2_j_m_l_i a b c); intros ?x
  | |- context [py_d2_j_m_t_i ?a ?b ?c] => generalize (py_d2_j_m_t_i a b c); intros ?x
  end.

(** ** Ghost self-energy, gluon polarization *)
Section Glue.
Variables (q p beta m : R) (om : C).
Hypothesis Hq : 0 < q.
Hypothesis Hp : p <> 0.
Hypothesis Hm : m <> 0.
Hypothesis Hom : om <> RtoC 0.
Hypothesis Hs : (om * om + RtoC (p * p))%C <> RtoC 0.
Lemma same_py : bubbles_same q om p m beta = py_bubbles q om p m m beta.
Proof. rewrite <- (proj1 (special_CR q om m p beta Hq Hp Hs)), mm_CRR. apply bubbles_C; auto using energy_pos_R. Qed.
Lemma m0_py : bubbles_m0 q om p m beta = py_bubbles q om p m (RtoC 0) beta.
Proof. rewrite <- (proj1 (proj2 (special_CR q om m p beta Hq Hp Hs))), mm_CRR. apply bubbles_C; auto using energy_pos_R. Qed.
Lemma zero_py : bubbles_0 q om p beta = py_bubbles q om p (RtoC 0) (RtoC 0) beta.
Proof. rewrite <- (proj2 (proj2 (special_C q om (RtoC 0) p beta Hq Hp Hs))), <- (proj1 (proj2 (special_C q om (RtoC 0) p beta Hq Hp Hs))). apply bubbles_C; auto using energy_pos_R. Qed.

Ltac start := bub same_py; bub m0_py; bub zero_py; tad (tadpoles_real q m beta Hq); tad (tadpoles_zero q beta Hq); numcbn; pushRtoC; rewall; change (n_ 0) with (RtoC 0) in *; genpy.

Lemma ghost_py : ghost_self_energy_thermal_part_landau_i q om p m beta = py_ghost_se q om p m beta.
Proof.
  unfold ghost_self_energy_thermal_part_landau_i, py_ghost_se. cbv zeta. change (n_ 0) with (RtoC 0). start.
  npy. pushRtoC. pose proof (RtoC_neq0 m Hm). field; repeat split; auto; apply RtoC_neq0; lra.
Qed.
Lemma glue_l_py : polarization_glue_l_thermal_part_landau_i q om p m beta = py_gluon_pol_l q om p m beta.
Proof.
  unfold polarization_glue_l_thermal_part_landau_i, py_gluon_pol_l, py_j_m_l_p_i, py_d_j_m_l_p_i, py_d2_j_m_l_p_i. cbv zeta. change (n_ 0) with (RtoC 0). start.
  npy. pushRtoC. pose proof (RtoC_neq0 m Hm). pose proof (RtoC_sum0 om p Hs). field; repeat split; auto; apply RtoC_neq0; lra.
Qed.
Lemma glue_t_py : polarization_glue_t_thermal_part_landau_i q om p m beta = py_gluon_pol_t q om p m beta.
Proof.
  unfold polarization_glue_t_thermal_part_landau_i, py_gluon_pol_t. cbv zeta. change (n_ 0) with (RtoC 0). start.
  npy. pushRtoC. pose proof (RtoC_neq0 m Hm). pose proof (RtoC_sum0 om p Hs). field; repeat split; auto; apply RtoC_neq0; lra.
Qed.
End Glue.

Section GlueZp.
Variables (q beta m : R) (om : C).
Hypothesis Hq : 0 < q.
Hypothesis Hm : m <> 0.
Lemma zp_same_py : zp_bubbles_same q om m beta = py_bubbles_zp q om m m beta.
Proof. rewrite <- (proj1 (special_zp_CR q om m beta Hq)), zp_mm_CRR. apply bubbles_zp_C; auto using energy_pos_R. Qed.
Lemma zp_m0_py : zp_bubbles_m0 q om m beta = py_bubbles_zp q om m (RtoC 0) beta.
Proof. rewrite <- (proj1 (proj2 (special_zp_CR q om m beta Hq))), zp_mm_CRR. apply bubbles_zp_C; auto using energy_pos_R. Qed.
Lemma zp_zero_py : zp_bubbles_0 q om beta = py_bubbles_zp q om (RtoC 0) (RtoC 0) beta.
Proof. rewrite <- (proj2 (proj2 (special_zp_C q om (RtoC 0) beta Hq))), <- (proj1 (proj2 (special_zp_C q om (RtoC 0) beta Hq))). apply bubbles_zp_C; auto using energy_pos_R. Qed.
Ltac start := bub zp_same_py; bub zp_m0_py; bub zp_zero_py; tad (tadpoles_real q m beta Hq); tad (tadpoles_zero q beta Hq); numcbn; pushRtoC; rewall; change (n_ 0) with (RtoC 0) in *; genpy.
Lemma zp_ghost_py : zp_ghost_self_energy_thermal_part_landau_i q om m beta = py_ghost_se_zp q om m beta.
Proof.
  unfold zp_ghost_self_energy_thermal_part_landau_i, py_ghost_se_zp. cbv zeta. change (n_ 0) with (RtoC 0). start.
  npy. pushRtoC. pose proof (RtoC_neq0 m Hm). field; repeat split; auto; apply RtoC_neq0; lra.
Qed.
Lemma zp_glue_l_py : zp_polarization_glue_l_thermal_part_landau_i q om m beta = py_gluon_pol_l_zp q om m beta.
Proof.
  unfold zp_polarization_glue_l_thermal_part_landau_i, py_gluon_pol_l_zp. cbv zeta. change (n_ 0) with (RtoC 0). start.
  npy. pushRtoC. pose proof (RtoC_neq0 m Hm). field; repeat split; auto; apply RtoC_neq0; lra.
Qed.
End GlueZp.

(** ** Quark polarization *)
Lemma fermi_RC (en beta mu : R) : fermi_distribution_double (RtoC en) beta (RtoC mu) = RtoC (fermi_distribution_double en beta mu).
Proof.
  unfold fermi_distribution_double, statistic_distribution_exponential. numcbn. pushRtoC.
  rewrite <- ?RtoC_opp, <- ?RtoC_minus, <- ?RtoC_mult, !Cexp_RtoC. pushRtoC. reflexivity.
Qed.
Lemma py_fermi_double_eq (q mq beta mu : R) : py_fermi_double q mq beta mu = RtoC (fermi_distribution_double (energy q mq) beta mu).
Proof.
  rewrite <- fermi_RC. unfold py_fermi_double, py_fermi, fermi_distribution_double, statistic_distribution_exponential. rewrite py_en_eq, energy_RC. npy. numcbn.
  unfold Cdiv. rewrite !Cmult_1_l. rewrite !(Cmult_comm (RtoC beta)). reflexivity.
Qed.
Section Quark.
Variables (nc : nat) (q p beta mq mu : R) (om : C).
Hypothesis Hnc : (0 < nc)%nat.
Hypothesis Hq : 0 < q.
Hypothesis Hp : p <> 0.
Let scale := RtoC (3 / INR nc).
Ltac prep := rewrite ?tlog_same_Cq; cbv zeta; change (nopp om) with (Copp om); rewrite ?py_fermi_double_eq, ?py_en_eq, ?energy_RC, ?py_tlog_eq; change (n_ 0) with (RtoC 0);
  repeat match goal with |- context [CL ?a ?b ?c ?d ?e] => generalize (CL a b c d e); intros ?x end;
  generalize (fermi_distribution_double (energy q mq) beta mu); intros n;
  pose proof (en_sq q mq) as E; rewrite energy_RC in E; revert E; pose proof (energy_pos_R q mq Hq) as He; rewrite energy_RC in He; revert He; generalize (energy q mq); intros en He E;
  unfold scale; npy; numcbn; unfold PI2; 
  assert (Hn : RtoC (INR nc) <> RtoC 0) by (apply RtoC_neq0, not_0_INR; lia); revert Hn; generalize (INR nc); intros nc' Hn;
  pushRtoC; pose proof (RtoC_neq0 p Hp); pose proof (RtoC_neq0 PI PI_neq0); assert (RtoC q <> RtoC 0) by (apply RtoC_neq0; lra).
Lemma quark_l_py : polarization_quark_l_thermal_part_landau_i nc q om p mq beta mu = (scale * py_gluon_pol_quark_l q om p mq beta mu)%C.
Proof. unfold polarization_quark_l_thermal_part_landau_i, py_gluon_pol_quark_l. prep. field [Ci2]; repeat split; auto; apply RtoC_neq0; lra. Qed.
Lemma quark_t_py : polarization_quark_t_thermal_part_landau_i nc q om p mq beta mu = (scale * py_gluon_pol_quark_t q om p mq beta mu)%C.
Proof. unfold polarization_quark_t_thermal_part_landau_i, py_gluon_pol_quark_t, py_gluon_pol_quark_trace, py_gluon_pol_quark_l. prep.
  field [Ci2 E]; repeat split; auto; apply RtoC_neq0; lra. Qed.
Lemma zp_quark_l_py : (om * om + RtoC 4 * (RtoC q * RtoC q + RtoC mq * RtoC mq))%C <> RtoC 0 -> zp_polarization_quark_l_thermal_part_landau_i nc q om mq beta mu = (scale * py_gluon_pol_quark_l_zp q om mq beta mu)%C.
Proof. intros Hd. unfold zp_polarization_quark_l_thermal_part_landau_i, py_gluon_pol_quark_l_zp. prep. rewrite <- E in Hd. field; repeat split; auto; apply RtoC_neq0; lra. Qed.
End Quark.
