(** * Properties C68-C73: agreement with the project's Python reference

    SpecNumerics.v transcribes /repo/tests/numerics.py, the script that printed
    the numbers hard-coded in the Rust unit tests. The theorems below compare the
    Rust functions with the script's formulas at all inputs. *)
From Coq Require Import Reals List Lra Lia.
From Coquelicot Require Import Coquelicot.
From Verif Require Import Num MCommon MVacuum MThermal MThermalZM MThermalZP MPolar SpecVac SpecInteg SpecNumerics PNumProps.
Import List ListNotations.
Open Scope R_scope.

(** C68. The Rust code writes the logarithm with one square root and combines
    logarithms; the script uses two square roots. The branches agree on the whole
    plane cut along the non-positive real axis. *)
Theorem C68_vacuum_complex : forall s : C, off_cut s ->
  gh_g s = (py_g s / RtoC 12)%C /\ gl_f s = py_f s /\ gl_f_xi s = py_f_xi s /\
  gl_f_q s = py_f_q s /\ gl_f_q_crossed s = py_f_q_crossed s.
Proof. exact np_vac_C. Qed.
Print Assumptions C68_vacuum_complex.

Theorem C68_vacuum_real : forall s : R, 0 < s ->
  RtoC (gh_g s) = (py_g s / RtoC 12)%C /\ RtoC (gl_f s) = py_f s /\ RtoC (gl_f_xi s) = py_f_xi s /\
  RtoC (gl_f_q s) = py_f_q s /\ RtoC (gl_f_q_crossed s) = py_f_q_crossed s.
Proof. exact np_vac_R. Qed.
Print Assumptions C68_vacuum_real.

Theorem C68_dressing_complex : forall (s : C) (r mq f0 xi : R), off_cut s -> mq <> 0 ->
  ym_gluon_dressing_inv s f0 xi = py_ym_gluon_dressing_inv s xi f0 /\
  qcd_gluon_dressing_inv r s mq f0 xi = py_qcd_gluon_dressing_inv r s mq xi f0 /\
  qcd_gluon_dressing_crossed_inv r s mq f0 xi = py_qcd_gluon_dressing_crossed_inv r s mq xi f0.
Proof. exact np_dress_C. Qed.
Print Assumptions C68_dressing_complex.

Theorem C68_dressing_real : forall s r mq f0 xi : R, 0 < s -> mq <> 0 ->
  RtoC (ym_gluon_dressing_inv s f0 xi) = py_ym_gluon_dressing_inv s xi f0 /\
  RtoC (qcd_gluon_dressing_inv r s mq f0 xi) = py_qcd_gluon_dressing_inv r s mq xi f0 /\
  RtoC (qcd_gluon_dressing_crossed_inv r s mq f0 xi) = py_qcd_gluon_dressing_crossed_inv r s mq xi f0.
Proof. exact np_dress_R. Qed.
Print Assumptions C68_dressing_real.

Example C68_example : py_f_q (RtoC (4 / 3)) = RtoC (4 / 9 * (ln 3 / 2 - 2 / 3)).
Proof. exact ex_py_f_q. Qed.

(** C69. *)
Theorem C69_tadpoles_complex : forall (q : R) (m : C) (beta : R), (RtoC q * RtoC q + m * m)%C <> RtoC 0 ->
  tadpoles q m beta = py_tadpoles q m beta.
Proof. exact np_tad_C. Qed.
Print Assumptions C69_tadpoles_complex.

Theorem C69_tadpoles_real : forall q m beta : R, 0 < q ->
  map RtoC (tadpoles q m beta) = py_tadpoles q m beta /\
  map RtoC (tadpoles_0 q beta) = py_tadpoles q (RtoC 0) beta.
Proof. exact (fun q m beta Hq => conj (PNumerics.tadpoles_real q m beta Hq) (PNumerics.tadpoles_zero q beta Hq)). Qed.
Print Assumptions C69_tadpoles_real.

Example C69_example : py_j_m_i (RtoC 1) (RtoC 0) (RtoC (ln 2)) = RtoC (/ (2 * (PI * PI))).
Proof. exact ex_py_tad. Qed.

(** C70. *)
Theorem C70_bubbles_complex : forall (q p beta : R) (om m1 m2 m : C),
  0 < q -> p <> 0 -> om <> RtoC 0 -> (om * om + RtoC p * RtoC p)%C <> RtoC 0 ->
  (RtoC q * RtoC q + m1 * m1)%C <> RtoC 0 -> (RtoC q * RtoC q + m2 * m2)%C <> RtoC 0 -> (RtoC q * RtoC q + m * m)%C <> RtoC 0 ->
  bubbles_mm q om p m1 m2 beta = py_bubbles q om p m1 m2 beta /\
  bubbles_same q om p m beta = py_bubbles q om p m m beta /\
  bubbles_m0 q om p m beta = py_bubbles q om p m (RtoC 0) beta /\
  bubbles_0 q om p beta = py_bubbles q om p (RtoC 0) (RtoC 0) beta.
Proof. exact np_bub_C. Qed.
Print Assumptions C70_bubbles_complex.

Theorem C70_bubbles_real : forall q p beta om m1 m2 m : R, 0 < q -> p <> 0 -> om <> 0 ->
  bubbles_mm q om p m1 m2 beta = py_bubbles q om p m1 m2 beta /\
  bubbles_same q om p m beta = py_bubbles q om p m m beta /\
  bubbles_m0 q om p m beta = py_bubbles q om p m (RtoC 0) beta /\
  bubbles_0 q om p beta = py_bubbles q om p (RtoC 0) (RtoC 0) beta.
Proof. exact np_bub_R. Qed.
Print Assumptions C70_bubbles_real.

Example C70_example : py_i_m_m_i (RtoC 3) (RtoC 1) (RtoC 1) (RtoC 4) (RtoC 0) (RtoC 1) =
  RtoC (3 / (16 * (PI * PI)) * (ln (41 / 125) / (5 * (exp 5 - 1)) + ln (17 / 5) / (3 * (exp 3 - 1)))).
Proof. exact ex_py_bub. Qed.

(** C71. The script has no transverse derivative at zero momentum; the Rust
    function returns the longitudinal one. *)
Theorem C71_zero_momentum_complex : forall (q beta : R) (om m1 m2 m : C), 0 < q ->
  (RtoC q * RtoC q + m1 * m1)%C <> RtoC 0 -> (RtoC q * RtoC q + m2 * m2)%C <> RtoC 0 -> (RtoC q * RtoC q + m * m)%C <> RtoC 0 ->
  zp_bubbles_mm q om m1 m2 beta = py_bubbles_zp q om m1 m2 beta /\
  zp_bubbles_same q om m beta = py_bubbles_zp q om m m beta /\
  zp_bubbles_m0 q om m beta = py_bubbles_zp q om m (RtoC 0) beta /\
  zp_bubbles_0 q om beta = py_bubbles_zp q om (RtoC 0) (RtoC 0) beta.
Proof. exact np_zp_C. Qed.
Print Assumptions C71_zero_momentum_complex.

Theorem C71_zero_momentum_real : forall q beta om m1 m2 m : R, 0 < q ->
  zp_bubbles_mm q om m1 m2 beta = py_bubbles_zp q om m1 m2 beta /\
  zp_bubbles_same q om m beta = py_bubbles_zp q om m m beta /\
  zp_bubbles_m0 q om m beta = py_bubbles_zp q om m (RtoC 0) beta /\
  zp_bubbles_0 q om beta = py_bubbles_zp q om (RtoC 0) (RtoC 0) beta.
Proof. exact np_zp_R. Qed.
Print Assumptions C71_zero_momentum_real.

Example C71_example : py_i_m_m_i_zp (RtoC 1) (RtoC 2) (RtoC 0) (RtoC 0) (RtoC (ln 2)) = RtoC (/ (8 * (PI * PI))).
Proof. exact ex_py_zp. Qed.

(** C72. *)
Theorem C72_general_complex : forall (q p beta m : R) (om : C),
  0 < q -> p <> 0 -> m <> 0 -> om <> RtoC 0 -> (om * om + RtoC p * RtoC p)%C <> RtoC 0 ->
  glue_parts q om p m beta = [py_ghost_se q om p m beta; py_gluon_pol_l q om p m beta; py_gluon_pol_t q om p m beta].
Proof. exact np_glue_C. Qed.
Print Assumptions C72_general_complex.

Theorem C72_general_real : forall q p beta m om : R, 0 < q -> p <> 0 -> m <> 0 -> om <> 0 ->
  glue_parts q om p m beta = [py_ghost_se q om p m beta; py_gluon_pol_l q om p m beta; py_gluon_pol_t q om p m beta].
Proof. exact np_glue_R. Qed.
Print Assumptions C72_general_real.

Theorem C72_zero_momentum : forall q beta m : R, 0 < q -> m <> 0 ->
  (forall om : C, zp_glue_parts q om m beta =
    [py_ghost_se_zp q om m beta; py_gluon_pol_l_zp q om m beta; py_gluon_pol_t_zp q om m beta]) /\
  (forall om : R, zp_glue_parts q om m beta =
    [py_ghost_se_zp q om m beta; py_gluon_pol_l_zp q om m beta; py_gluon_pol_t_zp q om m beta]).
Proof. exact (fun q beta m Hq Hm => conj (fun om => np_zp_glue_C q beta m om Hq Hm) (fun om => np_zp_glue_R q beta m om Hq Hm)). Qed.
Print Assumptions C72_zero_momentum.

(** The reference values at (q, om, p, m, beta) = (3, 1, 2, 4, 1) are real numbers. *)
Example C72_example : Forall (fun z : C => snd z = 0)
  [py_ghost_se (RtoC 3) (RtoC 1) (RtoC 2) (RtoC 4) (RtoC 1);
   py_gluon_pol_l (RtoC 3) (RtoC 1) (RtoC 2) (RtoC 4) (RtoC 1);
   py_gluon_pol_t (RtoC 3) (RtoC 1) (RtoC 2) (RtoC 4) (RtoC 1)].
Proof. exact ex_py_glue. Qed.

(** C73. The script is written for three colors; the Rust functions carry 1/nc. *)
Theorem C73_general : forall (nc : nat) (q p beta mq mu : R), (0 < nc)%nat -> 0 < q -> p <> 0 ->
  (forall om : C, quark_parts nc q om p mq beta mu =
    map (Cmult (RtoC (3 / INR nc))) [py_gluon_pol_quark_l q om p mq beta mu; py_gluon_pol_quark_t q om p mq beta mu]) /\
  (forall om : R, quark_parts nc q om p mq beta mu =
    map (Cmult (RtoC (3 / INR nc))) [py_gluon_pol_quark_l q om p mq beta mu; py_gluon_pol_quark_t q om p mq beta mu]).
Proof. exact (fun nc q p beta mq mu H1 H2 H3 => conj (fun om => np_quark_C nc q p beta mq mu om H1 H2 H3) (fun om => np_quark_R nc q p beta mq mu om H1 H2 H3)). Qed.
Print Assumptions C73_general.

Theorem C73_zero_momentum : forall (nc : nat) (q beta mq mu : R), (0 < nc)%nat -> 0 < q ->
  (forall om : C, (om * om + RtoC 4 * (RtoC q * RtoC q + RtoC mq * RtoC mq))%C <> RtoC 0 -> zp_quark_parts nc q om mq beta mu =
    map (Cmult (RtoC (3 / INR nc))) [py_gluon_pol_quark_l_zp q om mq beta mu; py_gluon_pol_quark_l_zp q om mq beta mu]) /\
  (forall om : R, zp_quark_parts nc q om mq beta mu =
    map (Cmult (RtoC (3 / INR nc))) [py_gluon_pol_quark_l_zp q om mq beta mu; py_gluon_pol_quark_l_zp q om mq beta mu]).
Proof. exact (fun nc q beta mq mu H1 H2 => conj (fun om H => np_zp_quark_C nc q beta mq mu om H1 H2 H) (fun om => np_zp_quark_R nc q beta mq mu om H1 H2)). Qed.
Print Assumptions C73_zero_momentum.

Example C73_example : py_gluon_pol_quark_l_zp (RtoC 3) (RtoC 0) (RtoC 4) (RtoC (ln 2)) (RtoC 0) = RtoC (- 6 / (125 * 3 * (PI * PI))).
Proof. exact ex_py_quark. Qed.
