(** * Properties C37, C38, C57: dimensional homogeneity, the quark parts and the cold limit of the integrands

    [Rbar_locally p_infty] is the filter beta -> +infinity.
    [slit z] says that z is not on the closed negative real axis
    (snd z <> 0 or 0 < fst z); for a real mass m and q > 0 the number
    m^2 + q^2 always satisfies it. *)
From Coq Require Import Reals List Lra Lia.
From Coquelicot Require Import Coquelicot.
From Verif Require Import Num CField MCommon MThermal MThermalZM MThermalZP MPolar SpecLim SpecInteg SpecHom PCplx PHom2 PQuark PCold2 PExInteg2.
Import List ListNotations.
Open Scope R_scope.

(** C37. Momenta, masses, frequencies and the chemical potential are multiplied by lam > 0 and beta is divided by it. *)
Theorem C37_bubbles_real : forall (lam q p beta : R) (om m1 m2 : R), 0 < lam ->
  bubbles_mm (lam * q) (lam * om) (lam * p) (lam * m1) (lam * m2) (beta / lam) = scaled lam bubble_dim (bubbles_mm q om p m1 m2 beta) /\
  bubbles_same (lam * q) (lam * om) (lam * p) (lam * m1) (beta / lam) = scaled lam bubble_dim (bubbles_same q om p m1 beta) /\
  bubbles_m0 (lam * q) (lam * om) (lam * p) (lam * m1) (beta / lam) = scaled lam bubble_dim (bubbles_m0 q om p m1 beta) /\
  bubbles_0 (lam * q) (lam * om) (lam * p) (beta / lam) = scaled lam bubble_dim (bubbles_0 q om p beta).
Proof. exact (fun lam q p beta om m1 m2 Hl => homs_gen_R lam q p beta Hl om m1 m2). Qed.
Print Assumptions C37_bubbles_real.

Theorem C37_bubbles_complex : forall (lam q p beta : R) (om m1 m2 : C), 0 < lam ->
  bubbles_mm (lam * q) (RtoC lam * om)%C (lam * p) (RtoC lam * m1)%C (RtoC lam * m2)%C (beta / lam) = scaled lam bubble_dim (bubbles_mm q om p m1 m2 beta) /\
  bubbles_same (lam * q) (RtoC lam * om)%C (lam * p) (RtoC lam * m1)%C (beta / lam) = scaled lam bubble_dim (bubbles_same q om p m1 beta) /\
  bubbles_m0 (lam * q) (RtoC lam * om)%C (lam * p) (RtoC lam * m1)%C (beta / lam) = scaled lam bubble_dim (bubbles_m0 q om p m1 beta) /\
  bubbles_0 (lam * q) (RtoC lam * om)%C (lam * p) (beta / lam) = scaled lam bubble_dim (bubbles_0 q om p beta).
Proof. exact (fun lam q p beta om m1 m2 Hl => homs_gen_C lam q p beta Hl om m1 m2). Qed.
Print Assumptions C37_bubbles_complex.

Theorem C37_bubbles_zero_momentum_real : forall (lam q beta : R) (om m1 m2 : R), 0 < lam ->
  zp_bubbles_mm (lam * q) (lam * om) (lam * m1) (lam * m2) (beta / lam) = scaled lam bubble_dim (zp_bubbles_mm q om m1 m2 beta) /\
  zp_bubbles_same (lam * q) (lam * om) (lam * m1) (beta / lam) = scaled lam bubble_dim (zp_bubbles_same q om m1 beta) /\
  zp_bubbles_m0 (lam * q) (lam * om) (lam * m1) (beta / lam) = scaled lam bubble_dim (zp_bubbles_m0 q om m1 beta) /\
  zp_bubbles_0 (lam * q) (lam * om) (beta / lam) = scaled lam bubble_dim (zp_bubbles_0 q om beta).
Proof. exact (fun lam q beta om m1 m2 Hl => homs_zp_R lam q beta Hl om m1 m2). Qed.
Print Assumptions C37_bubbles_zero_momentum_real.

Theorem C37_bubbles_zero_momentum_complex : forall (lam q beta : R) (om m1 m2 : C), 0 < lam ->
  zp_bubbles_mm (lam * q) (RtoC lam * om)%C (RtoC lam * m1)%C (RtoC lam * m2)%C (beta / lam) = scaled lam bubble_dim (zp_bubbles_mm q om m1 m2 beta) /\
  zp_bubbles_same (lam * q) (RtoC lam * om)%C (RtoC lam * m1)%C (beta / lam) = scaled lam bubble_dim (zp_bubbles_same q om m1 beta) /\
  zp_bubbles_m0 (lam * q) (RtoC lam * om)%C (RtoC lam * m1)%C (beta / lam) = scaled lam bubble_dim (zp_bubbles_m0 q om m1 beta) /\
  zp_bubbles_0 (lam * q) (RtoC lam * om)%C (beta / lam) = scaled lam bubble_dim (zp_bubbles_0 q om beta).
Proof. exact (fun lam q beta om m1 m2 Hl => homs_zp_C lam q beta Hl om m1 m2). Qed.
Print Assumptions C37_bubbles_zero_momentum_complex.

Theorem C37_bubbles_zero_matsubara_real : forall (lam q p beta : R) (m1 m2 : R), 0 < lam ->
  zm_bubbles_mm (lam * q) (lam * p) (lam * m1) (lam * m2) (beta / lam) = scaled lam bubble_dim (zm_bubbles_mm q p m1 m2 beta) /\
  zm_bubbles_same (lam * q) (lam * p) (lam * m1) (beta / lam) = scaled lam bubble_dim (zm_bubbles_same q p m1 beta) /\
  zm_bubbles_m0 (lam * q) (lam * p) (lam * m1) (beta / lam) = scaled lam bubble_dim (zm_bubbles_m0 q p m1 beta) /\
  zm_bubbles_0 (lam * q) (lam * p) (beta / lam) = scaled lam bubble_dim (zm_bubbles_0 q p beta).
Proof. exact (fun lam q p beta m1 m2 Hl => homs_zm_R lam q p beta Hl m1 m2). Qed.
Print Assumptions C37_bubbles_zero_matsubara_real.

Theorem C37_bubbles_zero_matsubara_complex : forall (lam q p beta : R) (m1 m2 : C), 0 < lam ->
  zm_bubbles_mm (lam * q) (lam * p) (RtoC lam * m1)%C (RtoC lam * m2)%C (beta / lam) = scaled lam bubble_dim (zm_bubbles_mm q p m1 m2 beta) /\
  zm_bubbles_same (lam * q) (lam * p) (RtoC lam * m1)%C (beta / lam) = scaled lam bubble_dim (zm_bubbles_same q p m1 beta) /\
  zm_bubbles_m0 (lam * q) (lam * p) (RtoC lam * m1)%C (beta / lam) = scaled lam bubble_dim (zm_bubbles_m0 q p m1 beta) /\
  zm_bubbles_0 (lam * q) (lam * p) (beta / lam) = scaled lam bubble_dim (zm_bubbles_0 q p beta).
Proof. exact (fun lam q p beta m1 m2 Hl => homs_zm_C lam q p beta Hl m1 m2). Qed.
Print Assumptions C37_bubbles_zero_matsubara_complex.

Theorem C37_bubbles_mixed : forall (lam q p beta : R) (om m1 : R) (m2 omc m1c : C), 0 < lam ->
  bubbles_mm (lam * q) (lam * om) (lam * p) (lam * m1) (RtoC lam * m2)%C (beta / lam) = scaled lam bubble_dim (bubbles_mm q om p m1 m2 beta) /\
  bubbles_mm (lam * q) (RtoC lam * omc)%C (lam * p) (RtoC lam * m1c)%C (lam * m1) (beta / lam) = scaled lam bubble_dim (bubbles_mm q omc p m1c m1 beta) /\
  bubbles_same (lam * q) (lam * om) (lam * p) (RtoC lam * m2)%C (beta / lam) = scaled lam bubble_dim (bubbles_same q om p m2 beta) /\
  bubbles_m0 (lam * q) (RtoC lam * omc)%C (lam * p) (lam * m1) (beta / lam) = scaled lam bubble_dim (bubbles_m0 q omc p m1 beta).
Proof. exact (fun lam q p beta om m1 m2 omc m1c Hl => homs_mixed lam q p beta Hl om m1 m2 omc m1c). Qed.
Print Assumptions C37_bubbles_mixed.

Theorem C37_tadpoles : forall (lam q beta m : R) (mc : C), 0 < lam ->
  map RtoC (tadpoles (lam * q) (lam * m) (beta / lam)) = scaled lam tadpole_dim (map RtoC (tadpoles q m beta)) /\
  tadpoles (lam * q) (RtoC lam * mc)%C (beta / lam) = scaled lam tadpole_dim (tadpoles q mc beta) /\
  map RtoC (tadpoles_0 (lam * q) (beta / lam)) = scaled lam tadpole_dim (map RtoC (tadpoles_0 q beta)).
Proof. exact (fun lam q beta m mc Hl => homs_tad lam q beta m Hl mc). Qed.
Print Assumptions C37_tadpoles.

Theorem C37_polarizations_real : forall (lam q p beta m mq mu : R) (nc : nat) (om : R), 0 < lam ->
  glue_parts (lam * q) (lam * om) (lam * p) (lam * m) (beta / lam) = scaled lam glue_dim (glue_parts q om p m beta) /\
  zp_glue_parts (lam * q) (lam * om) (lam * m) (beta / lam) = scaled lam glue_dim (zp_glue_parts q om m beta) /\
  zm_glue_parts (lam * q) (lam * p) (lam * m) (beta / lam) = scaled lam glue_dim (zm_glue_parts q p m beta) /\
  all_quark nc (lam * q) (lam * om) (lam * p) (lam * mq) (beta / lam) (lam * mu) = scaled lam quark_dim (all_quark nc q om p mq beta mu) /\
  all_quark0 nc (lam * q) (lam * om) (lam * p) (lam * mq) (lam * mu) = scaled lam quark_dim (all_quark0 nc q om p mq mu).
Proof. exact (fun lam q p beta m mq mu nc om Hl => homs_pol_R lam q p beta m mq mu nc Hl om). Qed.
Print Assumptions C37_polarizations_real.

Theorem C37_polarizations_complex : forall (lam q p beta m mq mu : R) (nc : nat) (om : C), 0 < lam ->
  glue_parts (lam * q) (RtoC lam * om)%C (lam * p) (lam * m) (beta / lam) = scaled lam glue_dim (glue_parts q om p m beta) /\
  zp_glue_parts (lam * q) (RtoC lam * om)%C (lam * m) (beta / lam) = scaled lam glue_dim (zp_glue_parts q om m beta) /\
  all_quark nc (lam * q) (RtoC lam * om)%C (lam * p) (lam * mq) (beta / lam) (lam * mu) = scaled lam quark_dim (all_quark nc q om p mq beta mu) /\
  all_quark0 nc (lam * q) (RtoC lam * om)%C (lam * p) (lam * mq) (lam * mu) = scaled lam quark_dim (all_quark0 nc q om p mq mu).
Proof. exact (fun lam q p beta m mq mu nc om Hl => homs_pol_C lam q p beta m mq mu nc Hl om). Qed.
Print Assumptions C37_polarizations_complex.

Example C37_example : i_0_0_i 1 (1 : R) 1 1 = RtoC (ln 5 / (8 * (PI * PI) * (exp 1 - 1))) /\
  i_0_0_i 2 (2 : R) 2 (1 / 2) = RtoC (ln 5 / (16 * (PI * PI) * (exp 1 - 1))).
Proof. exact ex_scale. Qed.

(** C38. [all_quark] lists the general, the zero-momentum and the
    zero-frequency quark polarizations, [all_quark0] their zero-temperature
    forms. *)
Theorem C38_even_in_mu : forall nc (q p mq beta mu : R),
  (forall om : R, all_quark nc q om p mq beta (- mu) = all_quark nc q om p mq beta mu /\ all_quark0 nc q om p mq (- mu) = all_quark0 nc q om p mq mu) /\
  (forall om : C, all_quark nc q om p mq beta (- mu) = all_quark nc q om p mq beta mu /\ all_quark0 nc q om p mq (- mu) = all_quark0 nc q om p mq mu).
Proof. exact (fun nc q p mq beta mu => conj (fun om => even_R nc q om p mq beta mu) (fun om => even_C nc q om p mq beta mu)). Qed.
Print Assumptions C38_even_in_mu.

Theorem C38_inverse_in_colors : forall nc nc' (q p mq beta mu : R), (0 < nc)%nat -> (0 < nc')%nat ->
  (forall om : R,
    map (fun z => RtoC (INR nc) * z)%C (all_quark nc q om p mq beta mu) = map (fun z => RtoC (INR nc') * z)%C (all_quark nc' q om p mq beta mu) /\
    map (fun z => RtoC (INR nc) * z)%C (all_quark0 nc q om p mq mu) = map (fun z => RtoC (INR nc') * z)%C (all_quark0 nc' q om p mq mu)) /\
  (forall om : C,
    map (fun z => RtoC (INR nc) * z)%C (all_quark nc q om p mq beta mu) = map (fun z => RtoC (INR nc') * z)%C (all_quark nc' q om p mq beta mu) /\
    map (fun z => RtoC (INR nc) * z)%C (all_quark0 nc q om p mq mu) = map (fun z => RtoC (INR nc') * z)%C (all_quark0 nc' q om p mq mu)).
Proof. exact (fun nc nc' q p mq beta mu H H' => conj (fun om => colors_R nc nc' q om p mq beta mu H H') (fun om => colors_C nc nc' q om p mq beta mu H H')). Qed.
Print Assumptions C38_inverse_in_colors.

Theorem C38_zero_temperature_limit : forall nc (q p mq mu : R) n, sqrt (mq * mq + q * q) <> Rabs mu ->
  (forall om : R, tendsC (Rbar_locally p_infty) (fun beta => nth n (all_quark nc q om p mq beta mu) (RtoC 0)) (nth n (all_quark0 nc q om p mq mu) (RtoC 0))) /\
  (forall om : C, tendsC (Rbar_locally p_infty) (fun beta => nth n (all_quark nc q om p mq beta mu) (RtoC 0)) (nth n (all_quark0 nc q om p mq mu) (RtoC 0))).
Proof. exact (fun nc q p mq mu n H => conj (fun om => quark_cold_R nc q om p mq mu n H) (fun om => quark_cold_C nc q om p mq mu n H)). Qed.
Print Assumptions C38_zero_temperature_limit.

Example C38_example : let f nc mu := zp_polarization_quark_l_thermal_part_zero_temp_landau_i nc 3 (0 : R) 4 mu in
  zp_polarization_quark_l_thermal_part_landau_i 3 3 (0 : R) 4 (ln 2) 0 = - 6 / (125 * 3 * (PI * PI)) /\
  zp_polarization_quark_l_thermal_part_landau_i 6 3 (0 : R) 4 (ln 2) 0 = - 6 / (125 * 6 * (PI * PI)) /\
  f 3%nat 6 = - 99 / (125 * 3 * (PI * PI)) /\ f 3%nat (-6) = - 99 / (125 * 3 * (PI * PI)) /\ f 3%nat 4 = 0.
Proof. exact ex_quark. Qed.

(** C57. Complex frequency and complex masses. *)
Theorem C57_complex : forall (q p : R) (om m1 m2 m : C) n, 0 < q -> p <> 0 -> (om * om + RtoC (p * p))%C <> RtoC 0 ->
  slit (m1 * m1 + RtoC (q * q))%C -> slit (m2 * m2 + RtoC (q * q))%C -> slit (m * m + RtoC (q * q))%C ->
  tendsC (Rbar_locally p_infty) (fun beta => nth n (bubbles_mm q om p m1 m2 beta) (RtoC 0)) (RtoC 0) /\
  tendsC (Rbar_locally p_infty) (fun beta => nth n (bubbles_same q om p m beta) (RtoC 0)) (RtoC 0) /\
  tendsC (Rbar_locally p_infty) (fun beta => nth n (bubbles_m0 q om p m beta) (RtoC 0)) (RtoC 0) /\
  tendsC (Rbar_locally p_infty) (fun beta => nth n (bubbles_0 q om p beta) (RtoC 0)) (RtoC 0) /\
  tendsC (Rbar_locally p_infty) (fun beta => nth n (tadpoles q m beta) (RtoC 0)) (RtoC 0).
Proof. exact cold_C. Qed.
Print Assumptions C57_complex.

Theorem C57_complex_zero_matsubara : forall (q p : R) (m1 m2 m : C) n, 0 < q -> p <> 0 ->
  slit (m1 * m1 + RtoC (q * q))%C -> slit (m2 * m2 + RtoC (q * q))%C -> slit (m * m + RtoC (q * q))%C ->
  tendsC (Rbar_locally p_infty) (fun beta => nth n (zm_bubbles_mm q p m1 m2 beta) (RtoC 0)) (RtoC 0) /\
  tendsC (Rbar_locally p_infty) (fun beta => nth n (zm_bubbles_same q p m beta) (RtoC 0)) (RtoC 0) /\
  tendsC (Rbar_locally p_infty) (fun beta => nth n (zm_bubbles_m0 q p m beta) (RtoC 0)) (RtoC 0) /\
  tendsC (Rbar_locally p_infty) (fun beta => nth n (zm_bubbles_0 q p beta) (RtoC 0)) (RtoC 0).
Proof. exact cold_zm_C. Qed.
Print Assumptions C57_complex_zero_matsubara.

Theorem C57_complex_zero_momentum : forall (q : R) (om m1 m2 m : C) n, 0 < q ->
  slit (m1 * m1 + RtoC (q * q))%C -> slit (m2 * m2 + RtoC (q * q))%C -> slit (m * m + RtoC (q * q))%C ->
  tendsC (Rbar_locally p_infty) (fun beta => nth n (zp_bubbles_mm q om m1 m2 beta) (RtoC 0)) (RtoC 0) /\
  tendsC (Rbar_locally p_infty) (fun beta => nth n (zp_bubbles_same q om m beta) (RtoC 0)) (RtoC 0) /\
  tendsC (Rbar_locally p_infty) (fun beta => nth n (zp_bubbles_m0 q om m beta) (RtoC 0)) (RtoC 0) /\
  tendsC (Rbar_locally p_infty) (fun beta => nth n (zp_bubbles_0 q om beta) (RtoC 0)) (RtoC 0).
Proof. exact cold_zp_C. Qed.
Print Assumptions C57_complex_zero_momentum.

(** The glue polarizations and the ghost self-energy. *)
Theorem C57_glue : forall (q p : R) (om : C) (m : R) n, 0 < q -> p <> 0 -> (om * om + RtoC (p * p))%C <> RtoC 0 ->
  tendsC (Rbar_locally p_infty) (fun beta => nth n (glue_parts q om p m beta) (RtoC 0)) (RtoC 0) /\
  tendsC (Rbar_locally p_infty) (fun beta => nth n (zm_glue_parts q p m beta) (RtoC 0)) (RtoC 0) /\
  tendsC (Rbar_locally p_infty) (fun beta => nth n (zp_glue_parts q om m beta) (RtoC 0)) (RtoC 0).
Proof. exact cold_glue. Qed.
Print Assumptions C57_glue.

(** Real arguments: no condition beyond q > 0 and p <> 0 remains. *)
Theorem C57_real : forall (q p om m1 m2 m : R) n, 0 < q -> p <> 0 ->
  tendsC (Rbar_locally p_infty) (fun beta => nth n (bubbles_mm q om p m1 m2 beta) (RtoC 0)) (RtoC 0) /\
  tendsC (Rbar_locally p_infty) (fun beta => nth n (bubbles_same q om p m beta) (RtoC 0)) (RtoC 0) /\
  tendsC (Rbar_locally p_infty) (fun beta => nth n (bubbles_m0 q om p m beta) (RtoC 0)) (RtoC 0) /\
  tendsC (Rbar_locally p_infty) (fun beta => nth n (bubbles_0 q om p beta) (RtoC 0)) (RtoC 0) /\
  tendsC (Rbar_locally p_infty) (fun beta => nth n (map RtoC (tadpoles q m beta)) (RtoC 0)) (RtoC 0) /\
  tendsC (Rbar_locally p_infty) (fun beta => nth n (map RtoC (tadpoles_0 q beta)) (RtoC 0)) (RtoC 0) /\
  tendsC (Rbar_locally p_infty) (fun beta => nth n (glue_parts q om p m beta) (RtoC 0)) (RtoC 0).
Proof. exact cold_R. Qed.
Print Assumptions C57_real.

Theorem C57_real_zero_matsubara : forall (q p m1 m2 m : R) n, 0 < q -> p <> 0 ->
  tendsC (Rbar_locally p_infty) (fun beta => nth n (zm_bubbles_mm q p m1 m2 beta) (RtoC 0)) (RtoC 0) /\
  tendsC (Rbar_locally p_infty) (fun beta => nth n (zm_bubbles_same q p m beta) (RtoC 0)) (RtoC 0) /\
  tendsC (Rbar_locally p_infty) (fun beta => nth n (zm_bubbles_m0 q p m beta) (RtoC 0)) (RtoC 0) /\
  tendsC (Rbar_locally p_infty) (fun beta => nth n (zm_bubbles_0 q p beta) (RtoC 0)) (RtoC 0) /\
  tendsC (Rbar_locally p_infty) (fun beta => nth n (zm_glue_parts q p m beta) (RtoC 0)) (RtoC 0).
Proof. exact cold_zm_R. Qed.
Print Assumptions C57_real_zero_matsubara.

Theorem C57_real_zero_momentum : forall (q om m1 m2 m : R) n, 0 < q ->
  tendsC (Rbar_locally p_infty) (fun beta => nth n (zp_bubbles_mm q om m1 m2 beta) (RtoC 0)) (RtoC 0) /\
  tendsC (Rbar_locally p_infty) (fun beta => nth n (zp_bubbles_same q om m beta) (RtoC 0)) (RtoC 0) /\
  tendsC (Rbar_locally p_infty) (fun beta => nth n (zp_bubbles_m0 q om m beta) (RtoC 0)) (RtoC 0) /\
  tendsC (Rbar_locally p_infty) (fun beta => nth n (zp_bubbles_0 q om beta) (RtoC 0)) (RtoC 0) /\
  tendsC (Rbar_locally p_infty) (fun beta => nth n (zp_glue_parts q om m beta) (RtoC 0)) (RtoC 0).
Proof. exact cold_zp_R. Qed.
Print Assumptions C57_real_zero_momentum.

Example C57_example : j_0_i 1 (ln 2) = / (2 * (PI * PI)) /\ j_0_i 1 (ln 3) = / (4 * (PI * PI)) /\
  tends (Rbar_locally p_infty) (fun beta => j_0_i 1 beta) 0.
Proof. exact ex_cold_values. Qed.
