(** * Properties C35, C36: derivative integrands are mass derivatives

    [mass_derivative f m D]: the derivative of f with respect to m^2 is D.
    [mass_derivative_up_to f m d T q]: it is d plus the derivative of T at the
    loop momentum q.  The functions T ([total_j], [total_0], ...) are written
    out in SpecDeriv.v with exp, sqrt and the logarithm only;
    [no_boundary_term T] says that T vanishes at 0 and at infinity. *)
From Coq Require Import Reals List Lra Lia.
From Coquelicot Require Import Coquelicot.
From Verif Require Import Num CField MCommon MThermal SpecDeriv PDeriv PDeriv2 PDeriv3 PExInteg3.
Import List ListNotations.
Open Scope R_scope.

Theorem C35_first : forall q m beta : R, m <> 0 -> 0 < beta ->
  mass_derivative_up_to (fun mu => j_m_i q mu beta) m (d_j_m_i q m beta) (total_j m beta) q /\
  mass_derivative_up_to (fun mu => j_m_l_i q mu beta) m (d_j_m_l_i q m beta) (total_j_l m beta) q /\
  mass_derivative_up_to (fun mu => j_m_t_i q mu beta) m (d_j_m_t_i q m beta) (total_j_t m beta) q.
Proof. exact (fun q m beta Hm Hb => conj (r_j q m beta Hm Hb) (conj (r_jl q m beta Hm Hb) (r_jt q m beta Hm Hb))). Qed.
Print Assumptions C35_first.

(** Second derivatives: the scalar and longitudinal ones are exact, the
    transverse one needs a total derivative. *)
Theorem C35_second : forall q m beta : R, m <> 0 -> 0 < beta ->
  mass_derivative (fun mu => d_j_m_i q mu beta) m (d2_j_m_i q m beta) /\
  mass_derivative (fun mu => d_j_m_l_i q mu beta) m (d2_j_m_l_i q m beta) /\
  mass_derivative_up_to (fun mu => d_j_m_t_i q mu beta) m (d2_j_m_t_i q m beta) (total_dj_t m beta) q.
Proof. exact (fun q m beta Hm Hb => conj (r_d2j q m beta Hm Hb) (conj (r_d2jl q m beta Hm Hb) (r_d2jt q m beta Hm Hb))). Qed.
Print Assumptions C35_second.

Theorem C35_boundary : forall m beta : R, m <> 0 -> 0 < beta ->
  no_boundary_term (total_j m beta) /\ no_boundary_term (total_j_l m beta) /\
  no_boundary_term (total_j_t m beta) /\ no_boundary_term (total_dj_t m beta).
Proof. exact (fun m beta Hm Hb => conj (b_j m beta Hm Hb) (conj (b_jl m beta Hm Hb) (conj (b_jt m beta Hm Hb) (b_d2jt m beta Hm Hb)))). Qed.
Print Assumptions C35_boundary.

Example C35_example : j_m_i 1 (sqrt 3) (ln 2 / 2) = / (4 * (PI * PI)) /\ d_j_m_i 1 (sqrt 3) (ln 2 / 2) = - / (8 * (PI * PI)) /\
  total_j (sqrt 3) (ln 2 / 2) 1 = / (8 * (PI * PI)).
Proof. exact ex_tadpole. Qed.

(** Two different masses: derivative in the square of the first mass. *)
Theorem C36_two_masses : forall q om p beta : R, 0 < q -> om <> 0 -> 0 < p -> 0 < beta -> forall m1 m2 : R, m1 <> 0 ->
  Cmass_derivative_up_to (fun mu => i_m_m_i q om p mu m2 beta) m1 (d_i_m_m_i q om p m1 m2 beta) (total_0 om p m1 m2 beta) q /\
  Cmass_derivative_up_to (fun mu => i_m_m_l_i q om p mu m2 beta) m1 (d_i_m_m_l_i q om p m1 m2 beta) (total_l om p m1 m2 beta) q /\
  Cmass_derivative_up_to (fun mu => i_m_m_t_i q om p mu m2 beta) m1 (d_i_m_m_t_i q om p m1 m2 beta) (total_t om p m1 m2 beta) q.
Proof. exact code_mm. Qed.
Print Assumptions C36_two_masses.

(** Second line massless. *)
Theorem C36_one_mass : forall q om p beta : R, 0 < q -> om <> 0 -> 0 < p -> 0 < beta -> forall m : R, m <> 0 ->
  Cmass_derivative_up_to (fun mu => i_m_0_i q om p mu beta) m (d_i_m_0_i q om p m beta) (total_0 om p m 0 beta) q /\
  Cmass_derivative_up_to (fun mu => i_m_0_l_i q om p mu beta) m (d_i_m_0_l_i q om p m beta) (total_l om p m 0 beta) q /\
  Cmass_derivative_up_to (fun mu => i_m_0_t_i q om p mu beta) m (d_i_m_0_t_i q om p m beta) (total_t om p m 0 beta) q.
Proof. exact code_m0. Qed.
Print Assumptions C36_one_mass.

(** The same-mass derivative integrands are the derivatives in the first mass
    only, taken where both masses agree. *)
Theorem C36_same_mass : forall q om p beta : R, 0 < q -> om <> 0 -> 0 < p -> 0 < beta -> forall m : R, m <> 0 ->
  Cmass_derivative_up_to (fun mu => i_m_m_i q om p mu m beta) m (d_i_m_m_i_same_mass q om p m beta) (total_0 om p m m beta) q /\
  Cmass_derivative_up_to (fun mu => i_m_m_l_i q om p mu m beta) m (d_i_m_m_l_i_same_mass q om p m beta) (total_l om p m m beta) q /\
  Cmass_derivative_up_to (fun mu => i_m_m_t_i q om p mu m beta) m (d_i_m_m_t_i_same_mass q om p m beta) (total_t om p m m beta) q.
Proof. exact code_same. Qed.
Print Assumptions C36_same_mass.

Theorem C36_boundary : forall om p m1 m2 beta : R, om <> 0 -> 0 < p -> m1 <> 0 -> 0 < beta ->
  no_boundary_term (total_0 om p m1 m2 beta) /\ no_boundary_term (total_l om p m1 m2 beta) /\ no_boundary_term (total_t om p m1 m2 beta).
Proof. exact nb_totals. Qed.
Print Assumptions C36_boundary.

Example C36_example : i_m_m_i_same_mass 1 (1 : R) 1 (sqrt 3) (ln 2 / 2) = RtoC (ln 2 / (16 * (PI * PI))) /\
  d_i_m_m_i_same_mass 1 (1 : R) 1 (sqrt 3) (ln 2 / 2) = RtoC (- / (128 * (PI * PI))) /\
  total_0 1 1 (sqrt 3) (sqrt 3) (ln 2 / 2) 1 = ln 2 / (64 * (PI * PI)).
Proof. exact ex_bubble. Qed.
