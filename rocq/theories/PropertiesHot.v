(** * Properties C83-: high-temperature and high-density limits of the integrated thermal parts

    As in C79-C82 the integrals are the compactified ones the code computes, with
    an integration routine [J] of which only [exact_integrator J] is assumed. *)
From Coq Require Import Reals Lra Lia List.
From Coquelicot Require Import Coquelicot.
From Verif Require Import Num MCommon MConsts MUtils MVacuum MThermal MPolar MDress MQuark SpecInt SpecLim SpecHtl SpecHot PCfg PExTherm PHot2 PHot3 PHotB6 PHotB8 PExHot.
Import List ListNotations.
Open Scope R_scope.

(** C83. The quark polarizations: with mu(T)/T -> nu, polarization / T^2 goes to
    minus (1 + 3 nu^2/pi^2)/(2 Nc) times the hard-thermal-loop function; the
    quark mass drops out. *)
Theorem C83_quark_hot : forall J g p mq mu nu I, exact_integrator J -> (0 < g_nc g)%nat -> 0 < p -> tends (Rbar_locally p_infty) (fun T => mu T / T) nu ->
  (forall om, om <> 0 -> Forall (fun x : (R -> C) * R => tendsC (Rbar_locally p_infty) (fun T => fst x T / RtoC (T * T))%C (RtoC (snd x))) (hot_quark_C J g om p mq mu nu I)) /\
  (g_matsubara_reg g <> 0 -> Forall (fun x : (R -> R) * R => tends (Rbar_locally p_infty) (fun T => fst x T / (T * T)) (snd x)) (hot_quark_R J g p mq mu nu I)).
Proof. exact (fun J g p mq mu nu I HJ Hn Hp Hmu => conj (fun om Ho => hot_C_ok J g mq mu nu I HJ Hn Hmu om p Ho Hp) (hot_R_ok J g mq mu nu I HJ Hn Hmu p Hp)). Qed.
Print Assumptions C83_quark_hot.

(** At zero temperature and mu -> infinity: polarization / mu^2. *)
Theorem C83_quark_dense : forall J g p mq I, exact_integrator J -> (0 < g_nc g)%nat -> 0 < p ->
  (forall om, om <> 0 -> Forall (fun x : (R -> C) * R => tendsC (Rbar_locally p_infty) (fun mu => fst x mu / RtoC (mu * mu))%C (RtoC (snd x))) (dense_quark_C J g om p mq I)) /\
  (g_matsubara_reg g <> 0 -> Forall (fun x : (R -> R) * R => tends (Rbar_locally p_infty) (fun mu => fst x mu / (mu * mu)) (snd x)) (dense_quark_R J g p mq I)).
Proof. exact (fun J g p mq I HJ Hn Hp => conj (fun om Ho => dense_C_ok J g mq I HJ Hn om p Ho Hp) (dense_R_ok J g mq I HJ Hn p Hp)). Qed.
Print Assumptions C83_quark_dense.

(** The charge density, at any quark mass, approaches that of massless quarks. *)
Theorem C83_charge_density_hot : forall J g m mu nu I, exact_integrator J -> tends (Rbar_locally p_infty) (fun T => mu T / T) nu ->
  tends (Rbar_locally p_infty) (fun T => charge_density_with_method J g m (/ T) (mu T) I / (T * T * T)) (INR (g_nc g) * (nu * nu * nu / (3 * (PI * PI)) + nu / 3)).
Proof. exact charge_hot. Qed.
Print Assumptions C83_charge_density_hot.

Example C83_example_hot : forall I, tendsC (Rbar_locally p_infty) (fun T => polarization_quark_l_thermal_part_landau_w_method RInt_J g0 1 1 (/ 2) (/ T) T I / RtoC (T * T))%C
  (RtoC (- ((1 + 3 / (PI * PI)) / 9 * (1 - PI / 4)))).
Proof. exact ex_quark_hot. Qed.
Example C83_example_dense : forall I, tendsC (Rbar_locally p_infty) (fun mu => zp_polarization_quark_t_thermal_part_zero_temp_landau_w_method RInt_J g0 1 (/ 2) mu I / RtoC (mu * mu))%C
  (RtoC (- / (18 * (PI * PI)))).
Proof. exact ex_quark_dense. Qed.

(** C84. The gluon and ghost loops: the gluon polarizations / T^2 go to minus the
    hard-thermal-loop functions, whatever the gluon mass; the ghost self-energy
    has no T^2 term. *)
Theorem C84_glue_hot : forall J g p m I, exact_integrator J -> m <> 0 -> 0 < p ->
  (forall om, om <> 0 -> Forall (fun x : (R -> C) * R => tendsC (Rbar_locally p_infty) (fun T => fst x T / RtoC (T * T))%C (RtoC (snd x))) (hot_glue_C J g om p m I)) /\
  (g_matsubara_reg g <> 0 -> Forall (fun x : (R -> R) * R => tends (Rbar_locally p_infty) (fun T => fst x T / (T * T)) (snd x)) (hot_glue_R J g p m I)).
Proof. exact (fun J g p m I HJ Hm Hp => conj (fun om Ho => hot_glue_C_ok J g m I HJ Hm om p Ho Hp) (hot_glue_R_ok J g m I HJ Hm p Hp)). Qed.
Print Assumptions C84_glue_hot.

(** The hard-thermal-loop functions are positive: the limits of C83 and C84 do not vanish. *)
Theorem C84_htl_positive : forall om k, om <> 0 -> 0 < k -> 0 < htl_L om k /\ 0 < htl_T om k.
Proof. exact htl_pos. Qed.
Print Assumptions C84_htl_positive.

Example C84_example : forall I, tendsC (Rbar_locally p_infty) (fun T => polarization_glue_l_thermal_part_landau_w_method RInt_J 1 1 (/ 2) (/ T) I / RtoC (T * T))%C
  (RtoC (- (2 / 3 * (1 - PI / 4)))).
Proof. exact ex_glue_hot. Qed.

(** C85. The gluon is screened at high temperature: the inverse dressing functions grow like
    T^2 and the dressing functions and propagators vanish like 1/T^2, with the
    coefficient of 1 gluon loop and nf quark loops; masses and renormalization
    constants drop out. *)
Theorem C85_screening_hot : forall J g m mq f0 mu nu nc quarks, exact_integrator J -> (0 < g_nc g)%nat -> m <> 0 -> tends (Rbar_locally p_infty) (fun T => mu T / T) nu ->
  (forall om p, om <> 0 -> 0 < p -> Forall (fun x => screened_C (om * om + p * p) (fst x) (snd x)) (hot_gen J g om p m mq f0 mu nu nc quarks)) /\
  (forall om, om <> 0 -> Forall (fun x => screened_C (om * om) (fst x) (snd x)) (hot_zp J g om m mq f0 mu nu nc quarks)) /\
  (forall p, 0 < p -> g_matsubara_reg g <> 0 -> Forall (fun x => screened_R (p * p) (fst x) (snd x)) (hot_zm J g p m mq f0 mu nu nc quarks)).
Proof.
  exact (fun J g m mq f0 mu nu nc quarks HJ Hn Hm Hmu =>
    conj (fun om p => hot_gen_ok J g m f0 nc quarks HJ Hn mq mu nu om p Hm Hmu)
   (conj (fun om => hot_zp_ok J g m f0 nc quarks HJ Hn mq mu nu om Hm Hmu) (fun p => hot_zm_ok J g m f0 nc quarks HJ Hn mq mu nu p Hm Hmu))).
Qed.
Print Assumptions C85_screening_hot.

(** The same at zero temperature and mu -> infinity, with at least one quark. *)
Theorem C85_screening_dense : forall J g m mq f0, exact_integrator J -> (0 < g_nc g)%nat -> (0 < g_nf g)%nat ->
  (forall om p, om <> 0 -> 0 < p -> Forall (fun x => screened_C (om * om + p * p) (fst x) (snd x)) (dense_gen J g om p m mq f0)) /\
  (forall om, om <> 0 -> Forall (fun x => screened_C (om * om) (fst x) (snd x)) (dense_zp J g om m mq f0)) /\
  (forall p, 0 < p -> g_matsubara_reg g <> 0 -> Forall (fun x => screened_R (p * p) (fst x) (snd x)) (dense_zm J g p m mq f0)).
Proof.
  exact (fun J g m mq f0 HJ Hn Hf =>
    conj (fun om p => dense_gen_ok J g m f0 HJ Hn mq om p Hf)
   (conj (fun om => dense_zp_ok J g m f0 HJ Hn mq om Hf) (fun p => dense_zm_ok J g m f0 HJ Hn mq p Hf))).
Qed.
Print Assumptions C85_screening_dense.
Theorem C85_screening_dense_field_config : forall J g m f0 nc quarks, exact_integrator J -> (0 < g_nc g)%nat -> (0 < quark_total quarks)%nat ->
  (forall om p, om <> 0 -> 0 < p -> Forall (fun x => screened_C (om * om + p * p) (fst x) (snd x)) (dense_cfg_gen J g om p m f0 nc quarks)) /\
  (forall om, om <> 0 -> Forall (fun x => screened_C (om * om) (fst x) (snd x)) (dense_cfg_zp J g om m f0 nc quarks)) /\
  (forall p, 0 < p -> g_matsubara_reg g <> 0 -> Forall (fun x => screened_R (p * p) (fst x) (snd x)) (dense_cfg_zm J g p m f0 nc quarks)).
Proof.
  exact (fun J g m f0 nc quarks HJ Hn Hf =>
    conj (fun om p => dense_cfg_gen_ok J g m f0 nc quarks HJ Hn om p Hf)
   (conj (fun om => dense_cfg_zp_ok J g m f0 nc quarks HJ Hn om Hf) (fun p => dense_cfg_zm_ok J g m f0 nc quarks HJ Hn p Hf))).
Qed.
Print Assumptions C85_screening_dense_field_config.

Example C85_example_hot : tendsC (Rbar_locally p_infty) (fun T => RtoC (T * T) * zp_ym_gluon_propagator_t RInt_J g0 1 (/ 2) (/ T)%R (- 1))%C (RtoC (27 / (16 * (PI * PI)))).
Proof. exact ex_prop_hot. Qed.
Example C85_example_dense : tends (Rbar_locally p_infty) (fun mu => mu * mu * zm_qcd_gluon_propagator_l_zero_temp_w_field_config RInt_J (mkGlobals 3 2 (2 / 3) (/ 2) 1 1%nat 1) 1 mu (- 1) (FieldConfig_new 3 (/ 2) [(1%nat, / 3); (1%nat, / 5)]))
  (/ (32 / 9 * (1 - PI / 4))).
Proof. exact ex_prop_dense. Qed.
