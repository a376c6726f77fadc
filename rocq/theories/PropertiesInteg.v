(** * Properties C29-C33, C41, C59: the thermal integrands *)
From Coq Require Import Reals List Lra Lia.
From Coquelicot Require Import Coquelicot.
From Verif Require Import Num CField MCommon MConsts MThermal MThermalZM MThermalZP MPolar MDress SpecLim SpecInteg SpecInt SpecReg PCplx PReg PMass2 PJoint2 PZero2 PRegulator PExInteg.
Import List ListNotations.
Open Scope R_scope.

(** C29. With r = om^2 + p^2 + d + 2 i en om the logarithm is log((r + 2qp)/(r - 2qp)). *)
Theorem C29_argument_off_the_cut : forall q om p en d : R, 0 < q -> om <> 0 -> p <> 0 -> 0 < en ->
  let r : C := (om * om + p * p + d, 2 * en * om) in
  (r + RtoC (2 * q * p))%C <> RtoC 0 /\ (r - RtoC (2 * q * p))%C <> RtoC 0 /\
  ((r + RtoC (2 * q * p)) / (r - RtoC (2 * q * p)))%C <> RtoC 0 /\
  snd ((r + RtoC (2 * q * p)) / (r - RtoC (2 * q * p)))%C <> 0 /\
  Cexp (tlog q om p en d) = ((r + RtoC (2 * q * p)) / (r - RtoC (2 * q * p)))%C /\
  - PI < snd (tlog q om p en d) < PI.
Proof. exact (fun q om p en d H1 H2 H3 H4 => arg_regular q om p en d H1 H2 H3 H4). Qed.
Print Assumptions C29_argument_off_the_cut.

Theorem C29_integrands_continuous : forall (F : (R -> Prop) -> Prop) (FF : Filter F) (fq fom fp : R -> R) (q om p beta : R),
  tends F fq q -> tends F fom om -> tends F fp p -> 0 < q -> om <> 0 -> 0 < p -> beta <> 0 -> forall (m1 m2 m mq mu : R) nc n, (0 < nc)%nat ->
  tendsC F (fun x => nth n (bubbles_mm (fq x) (fom x) (fp x) m1 m2 beta) (RtoC 0)) (nth n (bubbles_mm q om p m1 m2 beta) (RtoC 0)) /\
  tendsC F (fun x => nth n (bubbles_same (fq x) (fom x) (fp x) m beta) (RtoC 0)) (nth n (bubbles_same q om p m beta) (RtoC 0)) /\
  tendsC F (fun x => nth n (bubbles_m0 (fq x) (fom x) (fp x) m beta) (RtoC 0)) (nth n (bubbles_m0 q om p m beta) (RtoC 0)) /\
  tendsC F (fun x => nth n (bubbles_0 (fq x) (fom x) (fp x) beta) (RtoC 0)) (nth n (bubbles_0 q om p beta) (RtoC 0)) /\
  tendsC F (fun x => nth n (glue_parts (fq x) (fom x) (fp x) m beta) (RtoC 0)) (nth n (glue_parts q om p m beta) (RtoC 0)) /\
  tendsC F (fun x => nth n (quark_parts nc (fq x) (fom x) (fp x) mq beta mu) (RtoC 0)) (nth n (quark_parts nc q om p mq beta mu) (RtoC 0)).
Proof.
  exact (fun F FF fq fom fp q om p beta T1 T2 T3 H1 H2 H3 Hb m1 m2 m mq mu nc n Hnc =>
    conj (mm_joint fq fom fp q om p beta T1 T2 T3 H1 H2 H3 Hb m1 m2 n) (conj (same_joint fq fom fp q om p beta T1 T2 T3 H1 H2 H3 Hb m n)
    (conj (m0_joint fq fom fp q om p beta T1 T2 T3 H1 H2 H3 Hb m n) (conj (zero_joint fq fom fp q om p beta T1 T2 T3 H1 H2 H3 Hb n)
    (conj (glue_joint fq fom fp q om p beta T1 T2 T3 H1 H2 H3 Hb m n) (quark_joint fq fom fp q om p beta T1 T2 T3 H1 H2 H3 nc mq mu n Hnc)))))).
Qed.
Print Assumptions C29_integrands_continuous.

Example C29_example : tlog 1 (1 : R) 1 (1 : R) (0 : R) = Cln (1, -2).
Proof. exact ex_tlog. Qed.

(** C30. *)
Theorem C30_real : forall q om p beta : R, 0 < q -> om <> 0 -> 0 < p -> forall (m1 m2 m mq mu : R) nc, (0 < nc)%nat ->
  Forall (fun z : C => snd z = 0)
    (bubbles_mm q om p m1 m2 beta ++ bubbles_same q om p m beta ++ bubbles_m0 q om p m beta ++ bubbles_0 q om p beta) /\
  Forall (fun z : C => snd z = 0) (glue_parts q om p m beta) /\
  Forall (fun z : C => snd z = 0) (quark_parts nc q om p mq beta mu ++ quark_parts_zero_temp nc q om p mq mu).
Proof.
  exact (fun q om p beta Hq Hom Hp m1 m2 m mq mu nc Hnc => conj (bubbles_real q om p beta Hq Hom Hp m1 m2 m)
    (conj (glue_real q om p beta Hq Hom Hp m) (proj1 (quark_real_even q om p beta Hq Hom Hp nc mq mu Hnc)))).
Qed.
Print Assumptions C30_real.

Theorem C30_even : forall q om p beta : R, 0 < q -> om <> 0 -> 0 < p -> forall (m1 m2 m mq mu : R) nc, (0 < nc)%nat ->
  (bubbles_mm q (- om) p m1 m2 beta = bubbles_mm q om p m1 m2 beta /\ bubbles_same q (- om) p m beta = bubbles_same q om p m beta /\
   bubbles_m0 q (- om) p m beta = bubbles_m0 q om p m beta /\ bubbles_0 q (- om) p beta = bubbles_0 q om p beta) /\
  glue_parts q (- om) p m beta = glue_parts q om p m beta /\
  quark_parts nc q (- om) p mq beta mu = quark_parts nc q om p mq beta mu /\
  quark_parts_zero_temp nc q (- om) p mq mu = quark_parts_zero_temp nc q om p mq mu.
Proof.
  exact (fun q om p beta Hq Hom Hp m1 m2 m mq mu nc Hnc => conj (bubbles_even q om p beta Hq Hom Hp m1 m2 m)
    (conj (glue_even q om p beta Hq Hom Hp m) (proj2 (quark_real_even q om p beta Hq Hom Hp nc mq mu Hnc)))).
Qed.
Print Assumptions C30_even.

Example C30_example : i_0_0_i 1 (1 : R) 1 1 = RtoC (ln 5 / (8 * (PI * PI) * (exp 1 - 1))).
Proof. exact ex_massless. Qed.

(** C31. *)
Theorem C31_general_real : forall q om p m beta : R, 0 < q -> p <> 0 ->
  bubbles_mm q om p m m beta = bubbles_same q om p m beta /\
  bubbles_mm q om p m 0 beta = bubbles_m0 q om p m beta /\
  bubbles_m0 q om p 0 beta = bubbles_0 q om p beta.
Proof. exact (fun q om p m beta Hq Hp => special_R q om m p beta Hq Hp). Qed.
Print Assumptions C31_general_real.

Theorem C31_general_complex : forall (q p beta : R) (om m : C), 0 < q -> p <> 0 -> (om * om + RtoC (p * p))%C <> RtoC 0 ->
  bubbles_mm q om p m m beta = bubbles_same q om p m beta /\
  bubbles_mm q om p m (RtoC 0) beta = bubbles_m0 q om p m beta /\
  bubbles_m0 q om p (RtoC 0) beta = bubbles_0 q om p beta.
Proof. exact (fun q p beta om m Hq Hp Hs => special_C q om m p beta Hq Hp Hs). Qed.
Print Assumptions C31_general_complex.

Theorem C31_zero_matsubara : forall q p beta : R, 0 < q -> p <> 0 ->
  (forall m : R, zm_bubbles_mm q p m m beta = zm_bubbles_same q p m beta /\
    zm_bubbles_mm q p m 0 beta = zm_bubbles_m0 q p m beta /\ zm_bubbles_m0 q p 0 beta = zm_bubbles_0 q p beta) /\
  (forall m : C, zm_bubbles_mm q p m m beta = zm_bubbles_same q p m beta /\
    zm_bubbles_mm q p m (RtoC 0) beta = zm_bubbles_m0 q p m beta /\ zm_bubbles_m0 q p (RtoC 0) beta = zm_bubbles_0 q p beta).
Proof. exact (fun q p beta Hq Hp => conj (fun m => special_zm_R q m p beta Hq Hp) (fun m => special_zm_C q m p beta Hq Hp)). Qed.
Print Assumptions C31_zero_matsubara.

Theorem C31_zero_momentum : forall q beta : R, 0 < q ->
  (forall om m : R, zp_bubbles_mm q om m m beta = zp_bubbles_same q om m beta /\
    zp_bubbles_mm q om m 0 beta = zp_bubbles_m0 q om m beta /\ zp_bubbles_m0 q om 0 beta = zp_bubbles_0 q om beta) /\
  (forall om m : C, zp_bubbles_mm q om m m beta = zp_bubbles_same q om m beta /\
    zp_bubbles_mm q om m (RtoC 0) beta = zp_bubbles_m0 q om m beta /\ zp_bubbles_m0 q om (RtoC 0) beta = zp_bubbles_0 q om beta).
Proof. exact (fun q beta Hq => conj (fun om m => special_zp_R q om m beta Hq) (fun om m => special_zp_C q om m beta Hq)). Qed.
Print Assumptions C31_zero_momentum.

Theorem C31_tadpoles : forall q beta : R, 0 < q ->
  tadpoles q 0 beta = tadpoles_0 q beta /\ tadpoles q (RtoC 0) beta = map RtoC (tadpoles_0 q beta).
Proof. exact (fun q beta Hq => conj (tadpoles_0_R q beta Hq) (tadpoles_0_C q beta Hq)). Qed.
Print Assumptions C31_tadpoles.

(** Momentum 3, mass 4, energy 5. *)
Example C31_example :
  let v := 3 / (16 * (PI * PI)) * (ln (41 / 125) / (5 * (exp 5 - 1)) + ln (17 / 5) / (3 * (exp 3 - 1))) in
  i_m_0_i 3 (1 : R) 1 (4 : R) 1 = RtoC v /\ i_m_m_i 3 (1 : R) 1 (4 : R) (0 : R) 1 = RtoC v.
Proof. exact (conj ex_m0 ex_m0_mm). Qed.

(** C32. *)
Theorem C32_symmetric_real : forall q om m1 m2 p beta : R,
  (i_m_m_i q om p m1 m2 beta = i_m_m_i q om p m2 m1 beta /\
   i_m_m_l_i q om p m1 m2 beta = i_m_m_l_i q om p m2 m1 beta /\
   i_m_m_t_i q om p m1 m2 beta = i_m_m_t_i q om p m2 m1 beta /\
   zp_i_m_m_i q om m1 m2 beta = zp_i_m_m_i q om m2 m1 beta /\
   zp_i_m_m_l_i q om m1 m2 beta = zp_i_m_m_l_i q om m2 m1 beta /\
   zp_i_m_m_t_i q om m1 m2 beta = zp_i_m_m_t_i q om m2 m1 beta) /\
  (zm_i_m_m_i q p m1 m2 beta = zm_i_m_m_i q p m2 m1 beta /\
   zm_i_m_m_l_i q p m1 m2 beta = zm_i_m_m_l_i q p m2 m1 beta /\
   zm_i_m_m_t_i q p m1 m2 beta = zm_i_m_m_t_i q p m2 m1 beta).
Proof. exact (fun q om m1 m2 p beta => conj (symm_RRR q om m1 m2 p beta) (symm_zm_RR q m1 m2 p beta)). Qed.
Print Assumptions C32_symmetric_real.

Theorem C32_symmetric_complex : forall (q p beta : R) (om m1 m2 : C),
  (i_m_m_i q om p m1 m2 beta = i_m_m_i q om p m2 m1 beta /\
   i_m_m_l_i q om p m1 m2 beta = i_m_m_l_i q om p m2 m1 beta /\
   i_m_m_t_i q om p m1 m2 beta = i_m_m_t_i q om p m2 m1 beta) /\
  (zp_i_m_m_i q om m1 m2 beta = zp_i_m_m_i q om m2 m1 beta /\
   zp_i_m_m_l_i q om m1 m2 beta = zp_i_m_m_l_i q om m2 m1 beta /\
   zp_i_m_m_t_i q om m1 m2 beta = zp_i_m_m_t_i q om m2 m1 beta) /\
  (zm_i_m_m_i q p m1 m2 beta = zm_i_m_m_i q p m2 m1 beta /\
   zm_i_m_m_l_i q p m1 m2 beta = zm_i_m_m_l_i q p m2 m1 beta /\
   zm_i_m_m_t_i q p m1 m2 beta = zm_i_m_m_t_i q p m2 m1 beta).
Proof. exact (fun q p beta om m1 m2 => conj (symm_C q om m1 m2 p beta) (conj (symm_zp_C q om m1 m2 beta) (symm_zm_C q m1 m2 p beta))). Qed.
Print Assumptions C32_symmetric_complex.

(** One real and one complex mass: the two argument orders are different instances. *)
Theorem C32_symmetric_mixed : forall (q p beta m1 : R) (m2 : C),
  (forall om : R, i_m_m_i q om p m1 m2 beta = i_m_m_i q om p m2 m1 beta /\
   i_m_m_l_i q om p m1 m2 beta = i_m_m_l_i q om p m2 m1 beta /\
   i_m_m_t_i q om p m1 m2 beta = i_m_m_t_i q om p m2 m1 beta /\
   zp_i_m_m_i q om m1 m2 beta = zp_i_m_m_i q om m2 m1 beta /\
   zp_i_m_m_l_i q om m1 m2 beta = zp_i_m_m_l_i q om m2 m1 beta /\
   zp_i_m_m_t_i q om m1 m2 beta = zp_i_m_m_t_i q om m2 m1 beta) /\
  (forall om : C, i_m_m_i q om p m1 m2 beta = i_m_m_i q om p m2 m1 beta /\
   i_m_m_l_i q om p m1 m2 beta = i_m_m_l_i q om p m2 m1 beta /\
   i_m_m_t_i q om p m1 m2 beta = i_m_m_t_i q om p m2 m1 beta /\
   zp_i_m_m_i q om m1 m2 beta = zp_i_m_m_i q om m2 m1 beta /\
   zp_i_m_m_l_i q om m1 m2 beta = zp_i_m_m_l_i q om m2 m1 beta /\
   zp_i_m_m_t_i q om m1 m2 beta = zp_i_m_m_t_i q om m2 m1 beta) /\
  (zm_i_m_m_i q p m1 m2 beta = zm_i_m_m_i q p m2 m1 beta /\
   zm_i_m_m_l_i q p m1 m2 beta = zm_i_m_m_l_i q p m2 m1 beta /\
   zm_i_m_m_t_i q p m1 m2 beta = zm_i_m_m_t_i q p m2 m1 beta).
Proof.
  exact (fun q p beta m1 m2 => conj (fun om => symm_RRC q om m1 m2 p beta) (conj (fun om => symm_CRC q om m1 m2 p beta) (symm_zm_RC q m1 m2 p beta))).
Qed.
Print Assumptions C32_symmetric_mixed.

Example C32_example :
  let v := 3 / (16 * (PI * PI)) * (ln (41 / 125) / (5 * (exp 5 - 1)) + ln (17 / 5) / (3 * (exp 3 - 1))) in
  i_m_m_i 3 (1 : R) 1 (4 : R) (0 : R) 1 = RtoC v /\ i_m_m_i 3 (1 : R) 1 (0 : R) (4 : R) 1 = RtoC v.
Proof. exact (conj ex_m0_mm ex_0m_mm). Qed.

(** C33. *)
Theorem C33_bubbles : forall q p beta : R, 0 < q -> 0 < p -> forall (m1 m2 m : R) n,
  (nonsing q p (m2 * m2 - m1 * m1) -> nonsing q p (- (m2 * m2 - m1 * m1)) ->
    tendsC (locally' 0) (fun om => nth n (bubbles_mm q om p m1 m2 beta) (RtoC 0)) (nth n (zm_bubbles_mm q p m1 m2 beta) (RtoC 0))) /\
  (nonsing q p 0 -> tendsC (locally' 0) (fun om => nth n (bubbles_same q om p m beta) (RtoC 0)) (nth n (zm_bubbles_same q p m beta) (RtoC 0))) /\
  (nonsing q p (m * m) -> nonsing q p (- (m * m)) ->
    tendsC (locally' 0) (fun om => nth n (bubbles_m0 q om p m beta) (RtoC 0)) (nth n (zm_bubbles_m0 q p m beta) (RtoC 0))) /\
  (nonsing q p 0 -> tendsC (locally' 0) (fun om => nth n (bubbles_0 q om p beta) (RtoC 0)) (nth n (zm_bubbles_0 q p beta) (RtoC 0))).
Proof.
  exact (fun q p beta Hq Hp m1 m2 m n => conj (mm_tends0 (fun om => om) q p beta punct_0 punct_neq Hq Hp m1 m2 n)
    (conj (same_tends0 (fun om => om) q p beta punct_0 punct_neq Hq Hp m n) (conj (m0_tends0 (fun om => om) q p beta punct_0 punct_neq Hq Hp m n)
    (zero_tends0 (fun om => om) q p beta punct_0 punct_neq Hq Hp n)))).
Qed.
Print Assumptions C33_bubbles.

Theorem C33_polarizations : forall q p beta : R, 0 < q -> 0 < p -> forall (m mq mu : R) nc n, (0 < nc)%nat -> nonsing q p 0 ->
  (nonsing q p (m * m) -> nonsing q p (- (m * m)) ->
    tendsC (locally' 0) (fun om => nth n (glue_parts q om p m beta) (RtoC 0)) (nth n (zm_glue_parts q p m beta) (RtoC 0))) /\
  tendsC (locally' 0) (fun om => nth n (quark_parts nc q om p mq beta mu) (RtoC 0)) (nth n (zm_quark_parts nc q p mq beta mu) (RtoC 0)) /\
  tendsC (locally' 0) (fun om => nth n (quark_parts_zero_temp nc q om p mq mu) (RtoC 0)) (nth n (zm_quark_parts_zero_temp nc q p mq mu) (RtoC 0)).
Proof.
  exact (fun q p beta Hq Hp m mq mu nc n Hnc H0 => conj (fun H1 H2 => glue_tends0 (fun om => om) q p beta punct_0 punct_neq Hq Hp m n H0 H1 H2)
    (quark_tends0 (fun om => om) q p beta punct_0 punct_neq Hq Hp nc mq mu n Hnc H0)).
Qed.
Print Assumptions C33_polarizations.

Example C33_example :
  let v := 3 / (8 * (PI * PI)) * (ln (3 / 7) / (5 * (exp 5 - 1)) + ln (23 / 11) / (3 * (exp 3 - 1))) in
  zm_i_m_0_i 3 1 (4 : R) 1 = RtoC v /\ tendsC (locally' 0) (fun om => i_m_0_i 3 om 1 (4 : R) 1) (RtoC v).
Proof. exact ex_zero. Qed.

(** C41. *)
Theorem C41_glue : forall p m beta : R, 0 < p ->
  Forall (fun x : regulated => let '(v, f, z) := x in
    (forall J g I, v J g I = integrateR J (compact_R (f (g_matsubara_reg g))) 0 1 I) /\
    (forall q, 0 < q -> nonsing q p 0 -> nonsing q p (m * m) -> nonsing q p (- (m * m)) -> tends (at_right 0) (fun r => f r q) (z q)))
  (regulated_glue p m beta).
Proof. exact reg_glue. Qed.
Print Assumptions C41_glue.

Theorem C41_quark : forall nc (p mq beta mu : R), (0 < nc)%nat -> 0 < p ->
  Forall (fun x : regulated => let '(v, f, z) := x in
    (forall J g I, g_nc g = nc -> v J g I = integrateR J (compact_R (f (g_matsubara_reg g))) 0 1 I) /\
    (forall q, 0 < q -> nonsing q p 0 -> tends (at_right 0) (fun r => f r q) (z q)))
  (regulated_quark nc p mq beta mu).
Proof. exact reg_quark. Qed.
Print Assumptions C41_quark.

Theorem C41_quark_zero_temp : forall nc (p mq mu : R), (0 < nc)%nat -> 0 < p ->
  Forall (fun x : regulated => let '(v, f, z) := x in
    (forall J g I, g_nc g = nc -> v J g I = if Rlt_dec (Rabs mu) (Rabs mq) then 0
       else integrateR J (f (g_matsubara_reg g)) 0 (sqrt (mu * mu - mq * mq)) I) /\
    (forall q, 0 < q -> nonsing q p 0 -> tends (at_right 0) (fun r => f r q) (z q)))
  (regulated_quark_zero_temp nc p mq mu).
Proof. exact reg_quark0. Qed.
Print Assumptions C41_quark_zero_temp.

Example C41_example : let v := - (3 / (10 * (PI * PI))) * (1 + 33 / 4 * ln (7 / 5)) in
  zm_polarization_quark_l_thermal_part_zero_temp_landau_i 3 3 1 4 6 = v /\
  tends (at_right 0) (fun r => fst (polarization_quark_l_thermal_part_zero_temp_landau_i 3 3 r 1 4 6)) v.
Proof. exact ex_reg. Qed.

(** C59. The generic functions give the same value for a real argument and for the
    same argument stored as a complex number. *)
Theorem C59_two_masses : forall q p beta : R,
  (forall om m1 m2 : R, bubbles_mm q om p m1 m2 beta = bubbles_mm q (RtoC om) p (RtoC m1) (RtoC m2) beta) /\
  (forall (om m1 : R) (m2 : C), bubbles_mm q om p m1 m2 beta = bubbles_mm q (RtoC om) p (RtoC m1) m2 beta) /\
  (forall (om : R) (m1 : C) (m2 : R), bubbles_mm q om p m1 m2 beta = bubbles_mm q (RtoC om) p m1 (RtoC m2) beta) /\
  (forall (om : R) (m1 m2 : C), bubbles_mm q om p m1 m2 beta = bubbles_mm q (RtoC om) p m1 m2 beta) /\
  (forall (om : C) (m1 m2 : R), bubbles_mm q om p m1 m2 beta = bubbles_mm q om p (RtoC m1) (RtoC m2) beta) /\
  (forall (om : C) (m1 : R) (m2 : C), bubbles_mm q om p m1 m2 beta = bubbles_mm q om p (RtoC m1) m2 beta) /\
  (forall (om m1 : C) (m2 : R), bubbles_mm q om p m1 m2 beta = bubbles_mm q om p m1 (RtoC m2) beta) /\
  (forall om m1 m2 : R, zp_bubbles_mm q om m1 m2 beta = zp_bubbles_mm q (RtoC om) (RtoC m1) (RtoC m2) beta) /\
  (forall (om m1 : R) (m2 : C), zp_bubbles_mm q om m1 m2 beta = zp_bubbles_mm q (RtoC om) (RtoC m1) m2 beta) /\
  (forall (om : R) (m1 : C) (m2 : R), zp_bubbles_mm q om m1 m2 beta = zp_bubbles_mm q (RtoC om) m1 (RtoC m2) beta) /\
  (forall (om : R) (m1 m2 : C), zp_bubbles_mm q om m1 m2 beta = zp_bubbles_mm q (RtoC om) m1 m2 beta) /\
  (forall (om : C) (m1 m2 : R), zp_bubbles_mm q om m1 m2 beta = zp_bubbles_mm q om (RtoC m1) (RtoC m2) beta) /\
  (forall (om : C) (m1 : R) (m2 : C), zp_bubbles_mm q om m1 m2 beta = zp_bubbles_mm q om (RtoC m1) m2 beta) /\
  (forall (om m1 : C) (m2 : R), zp_bubbles_mm q om m1 m2 beta = zp_bubbles_mm q om m1 (RtoC m2) beta) /\
  (forall m1 m2 : R, zm_bubbles_mm q p m1 m2 beta = zm_bubbles_mm q p (RtoC m1) (RtoC m2) beta) /\
  (forall (m1 : R) (m2 : C), zm_bubbles_mm q p m1 m2 beta = zm_bubbles_mm q p (RtoC m1) m2 beta) /\
  (forall (m1 : C) (m2 : R), zm_bubbles_mm q p m1 m2 beta = zm_bubbles_mm q p m1 (RtoC m2) beta).
Proof.
  exact (fun q p beta => conj (fun om m1 m2 => mm_RRR q om p m1 m2 beta) (conj (fun om m1 m2 => mm_RRC q om p m1 m2 beta) (conj (fun om m1 m2 => mm_RCR q om p m1 m2 beta)
    (conj (fun om m1 m2 => mm_RCC q om p m1 m2 beta) (conj (fun om m1 m2 => mm_CRR q om p m1 m2 beta) (conj (fun om m1 m2 => mm_CRC q om p m1 m2 beta) (conj (fun om m1 m2 => mm_CCR q om p m1 m2 beta)
    (conj (fun om m1 m2 => zp_mm_RRR q om m1 m2 beta) (conj (fun om m1 m2 => zp_mm_RRC q om m1 m2 beta) (conj (fun om m1 m2 => zp_mm_RCR q om m1 m2 beta)
    (conj (fun om m1 m2 => zp_mm_RCC q om m1 m2 beta) (conj (fun om m1 m2 => zp_mm_CRR q om m1 m2 beta) (conj (fun om m1 m2 => zp_mm_CRC q om m1 m2 beta) (conj (fun om m1 m2 => zp_mm_CCR q om m1 m2 beta)
    (conj (fun m1 m2 => zm_mm_RR q p m1 m2 beta) (conj (fun m1 m2 => zm_mm_RC q p m1 m2 beta) (fun m1 m2 => zm_mm_CR q p m1 m2 beta))))))))))))))))).
Qed.
Print Assumptions C59_two_masses.

Theorem C59_one_mass : forall q p beta : R,
  (forall om m : R, bubbles_same q om p m beta = bubbles_same q (RtoC om) p (RtoC m) beta /\ bubbles_m0 q om p m beta = bubbles_m0 q (RtoC om) p (RtoC m) beta /\
    bubbles_0 q om p beta = bubbles_0 q (RtoC om) p beta /\ zp_bubbles_same q om m beta = zp_bubbles_same q (RtoC om) (RtoC m) beta /\
    zp_bubbles_m0 q om m beta = zp_bubbles_m0 q (RtoC om) (RtoC m) beta /\ zp_bubbles_0 q om beta = zp_bubbles_0 q (RtoC om) beta) /\
  (forall (om : R) (m : C), bubbles_same q om p m beta = bubbles_same q (RtoC om) p m beta /\ bubbles_m0 q om p m beta = bubbles_m0 q (RtoC om) p m beta /\
    zp_bubbles_same q om m beta = zp_bubbles_same q (RtoC om) m beta /\ zp_bubbles_m0 q om m beta = zp_bubbles_m0 q (RtoC om) m beta) /\
  (forall (om : C) (m : R), bubbles_same q om p m beta = bubbles_same q om p (RtoC m) beta /\ bubbles_m0 q om p m beta = bubbles_m0 q om p (RtoC m) beta /\
    zp_bubbles_same q om m beta = zp_bubbles_same q om (RtoC m) beta /\ zp_bubbles_m0 q om m beta = zp_bubbles_m0 q om (RtoC m) beta) /\
  (forall m : R, zm_bubbles_same q p m beta = zm_bubbles_same q p (RtoC m) beta /\ zm_bubbles_m0 q p m beta = zm_bubbles_m0 q p (RtoC m) beta /\
    tadpoles q (RtoC m) beta = map RtoC (tadpoles q m beta)).
Proof.
  exact (fun q p beta =>
    conj (fun om m => conj (same_RR q om p m beta) (conj (m0_RR q om p m beta) (conj (zero_R q om p beta) (conj (zp_same_RR q om m beta) (conj (zp_m0_RR q om m beta) (zp_zero_R q om beta))))))
    (conj (fun om m => conj (same_RC q om p m beta) (conj (m0_RC q om p m beta) (conj (zp_same_RC q om m beta) (zp_m0_RC q om m beta))))
    (conj (fun om m => conj (same_CR q om p m beta) (conj (m0_CR q om p m beta) (conj (zp_same_CR q om m beta) (zp_m0_CR q om m beta))))
    (fun m => conj (zm_same_R q p m beta) (conj (zm_m0_R q p m beta) (tadpoles_R q m beta)))))).
Qed.
Print Assumptions C59_one_mass.

Theorem C59_polarizations : forall nc (q om p m mq beta mu : R),
  glue_parts q om p m beta = glue_parts q (RtoC om) p m beta /\
  quark_parts nc q om p mq beta mu = quark_parts nc q (RtoC om) p mq beta mu /\
  quark_parts_zero_temp nc q om p mq mu = quark_parts_zero_temp nc q (RtoC om) p mq mu /\
  zp_glue_parts q om m beta = zp_glue_parts q (RtoC om) m beta /\
  zp_quark_parts nc q om mq beta mu = zp_quark_parts nc q (RtoC om) mq beta mu /\
  zp_quark_parts_zero_temp nc q om mq mu = zp_quark_parts_zero_temp nc q (RtoC om) mq mu.
Proof.
  exact (fun nc q om p m mq beta mu => conj (glue_R q om p m beta) (conj (quark_R nc q om p mq beta mu) (conj (quark0_R nc q om p mq mu)
    (conj (zp_glue_R q om m beta) (conj (zp_quark_R nc q om mq beta mu) (zp_quark0_R nc q om mq mu)))))).
Qed.
Print Assumptions C59_polarizations.

Example C59_example : i_m_m_i 3 (RtoC 1) 1 (4 : R) (RtoC 0) 1 =
  RtoC (3 / (16 * (PI * PI)) * (ln (41 / 125) / (5 * (exp 5 - 1)) + ln (17 / 5) / (3 * (exp 3 - 1)))).
Proof. exact ex_mixed. Qed.
