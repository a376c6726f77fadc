(** * Properties C39-C46, C58: integrated thermal parts, dressing functions, propagators *)
From Coq Require Import Reals List Lra Lia Permutation.
From Coquelicot Require Import Coquelicot.
From Verif Require Import Num CField MCommon MConsts MVacuum MThermal MPolar MDress MQuark MConc SpecLim SpecDress SpecInt SpecConc PCplx PDistr PVac PDress PDress2 PInt PCfg PConc PTherm PExTherm.
Import List ListNotations.
Open Scope R_scope.

(** C39. *)
Theorem C39_fermi_sea_real : forall J g (om : R) p mq mu I,
  (Rabs mu < Rabs mq -> Forall (fun x : C * (R -> C) * Integral R => let '(v, f, d) := x in
      v = RtoC 0 /\ forall q, f q = RtoC 0) (fermi_sea_integrals_C J g om p mq mu I)) /\
  (Rabs mq <= Rabs mu -> Forall (fun x : C * (R -> C) * Integral R => let '(v, f, d) := x in
      v = integrateC J f 0 (sqrt (mu * mu - mq * mq)) d /\
      (forall q, sqrt (mu * mu - mq * mq) < q -> f q = RtoC 0) /\
      (forall K u, sqrt (mu * mu - mq * mq) <= K ->
         is_RInt (V := C_R_NormedModule) f 0 (sqrt (mu * mu - mq * mq)) u -> is_RInt (V := C_R_NormedModule) f 0 K u))
    (fermi_sea_integrals_C J g om p mq mu I)).
Proof. exact (fun J g om p mq mu I => sea_C J g om p mq mu I (integrands_outside_R J g om p mq mu I)). Qed.
Print Assumptions C39_fermi_sea_real.

Theorem C39_fermi_sea_complex : forall J g (om : C) p mq mu I,
  (Rabs mu < Rabs mq -> Forall (fun x : C * (R -> C) * Integral R => let '(v, f, d) := x in
      v = RtoC 0 /\ forall q, f q = RtoC 0) (fermi_sea_integrals_C J g om p mq mu I)) /\
  (Rabs mq <= Rabs mu -> Forall (fun x : C * (R -> C) * Integral R => let '(v, f, d) := x in
      v = integrateC J f 0 (sqrt (mu * mu - mq * mq)) d /\
      (forall q, sqrt (mu * mu - mq * mq) < q -> f q = RtoC 0) /\
      (forall K u, sqrt (mu * mu - mq * mq) <= K ->
         is_RInt (V := C_R_NormedModule) f 0 (sqrt (mu * mu - mq * mq)) u -> is_RInt (V := C_R_NormedModule) f 0 K u))
    (fermi_sea_integrals_C J g om p mq mu I)).
Proof. exact (fun J g om p mq mu I => sea_C J g om p mq mu I (integrands_outside_C J g om p mq mu I)). Qed.
Print Assumptions C39_fermi_sea_complex.

Theorem C39_fermi_sea_matsubara : forall J g p mq mu I,
  (Rabs mu < Rabs mq -> Forall (fun x : R * (R -> R) * Integral R => let '(v, f, d) := x in
      v = 0 /\ forall q, f q = 0) (fermi_sea_integrals_R J g p mq mu I)) /\
  (Rabs mq <= Rabs mu -> Forall (fun x : R * (R -> R) * Integral R => let '(v, f, d) := x in
      v = integrateR J f 0 (sqrt (mu * mu - mq * mq)) d /\
      (forall q, sqrt (mu * mu - mq * mq) < q -> f q = 0) /\
      (forall K u, sqrt (mu * mu - mq * mq) <= K ->
         is_RInt f 0 (sqrt (mu * mu - mq * mq)) u -> is_RInt f 0 K u))
    (fermi_sea_integrals_R J g p mq mu I)).
Proof. exact sea_R. Qed.
Print Assumptions C39_fermi_sea_matsubara.

Theorem C39_documented_matsubara_integrands : forall nc p mq mu q,
  Rabs mu < Rabs mq \/ (Rabs mq <= Rabs mu /\ sqrt (mu * mu - mq * mq) < q) ->
  Forall (fun f : R -> R => f q = 0) (zm_fermi_sea_integrands nc p mq mu).
Proof. exact sea_doc. Qed.
Print Assumptions C39_documented_matsubara_integrands.

(** Above the Fermi momentum 4 the integrand is zero; below it, it is not. *)
Example C39_example : zp_polarization_quark_l_thermal_part_zero_temp_landau_i 3 5 (1 : R) 3 5 = 0 /\
  zp_polarization_quark_l_thermal_part_zero_temp_landau_i 3 4 (0 : R) 0 5 = - 4 / (9 * (PI * PI)).
Proof. exact ex_sea. Qed.

(** C40. *)
Theorem C40_compactified_real : forall (f : R -> R) Q, 0 < Q -> (forall x, 0 <= x <= Q -> continuous f x) ->
  is_RInt (compact_R f) (/ (1 + Q)) 1 (RInt f 0 Q).
Proof. exact compact_int. Qed.
Print Assumptions C40_compactified_real.

Theorem C40_compactified_complex : forall (f : R -> C) Q, 0 < Q ->
  (forall x, 0 <= x <= Q -> continuous (fun q => fst (f q)) x) -> (forall x, 0 <= x <= Q -> continuous (fun q => snd (f q)) x) ->
  is_RInt (V := C_R_NormedModule) (compact_C f) (/ (1 + Q)) 1 (RInt (fun q => fst (f q)) 0 Q, RInt (fun q => snd (f q)) 0 Q).
Proof. exact compact_int_pair. Qed.
Print Assumptions C40_compactified_complex.

Theorem C40_half_line : forall (f : R -> R) l, (forall x, 0 <= x -> continuous f x) ->
  tends INF (fun Q => RInt f 0 Q) l <-> tends (at_right 0) (fun e => RInt (compact_R f) e 1) l.
Proof. exact compact_limit. Qed.
Print Assumptions C40_half_line.

Theorem C40_wrappers : forall J g p m mq beta mu I,
  (forall om : R, Forall (fun x : C * (R -> C) * Integral R => let '(v, f, d) := x in v = integrateC J (compact_C f) 0 1 d)
    (half_line_integrals_C J g om p m mq beta mu I)) /\
  (forall om : C, Forall (fun x : C * (R -> C) * Integral R => let '(v, f, d) := x in v = integrateC J (compact_C f) 0 1 d)
    (half_line_integrals_C J g om p m mq beta mu I)) /\
  Forall (fun x : R * (R -> R) * Integral R => let '(v, f, d) := x in v = integrateR J (compact_R f) 0 1 d)
    (half_line_integrals_R J g p m mq beta mu I).
Proof.
  exact (fun J g p m mq beta mu I => conj (fun om => half_line_C J g om p m mq beta mu I)
    (conj (fun om => half_line_C J g om p m mq beta mu I) (half_line_R J g p m mq beta mu I))).
Qed.
Print Assumptions C40_wrappers.

Example C40_example : is_RInt (compact_R (fun q => / (1 + q) ^ 2)) (/ 4) 1 (3 / 4) /\ RInt (fun q => / (1 + q) ^ 2) 0 3 = 3 / 4.
Proof. exact ex_compact. Qed.

(** C42. *)
Theorem C42_dressing_propagator_general : forall J g p m mq beta mu g0 f0 cfg,
  (forall om : R, om * om + p * p <> 0 -> Forall (fun x : C * C * C => let '(i, d, pr) := x in i <> RtoC 0 ->
     (d * i)%C = RtoC 1 /\ (RtoC (om * om + p * p) * pr)%C = d) (gen_families J g om p m mq beta mu g0 f0 cfg)) /\
  (forall om : C, (om * om + RtoC (p * p))%C <> RtoC 0 -> Forall (fun x : C * C * C => let '(i, d, pr) := x in i <> RtoC 0 ->
     (d * i)%C = RtoC 1 /\ ((om * om + RtoC (p * p)) * pr)%C = d) (gen_families J g om p m mq beta mu g0 f0 cfg)).
Proof.
  exact (fun J g p m mq beta mu g0 f0 cfg => conj (fun om => gen_families_R J g om p m mq beta mu g0 f0 cfg)
    (fun om => gen_families_C J g om p m mq beta mu g0 f0 cfg)).
Qed.
Print Assumptions C42_dressing_propagator_general.

Theorem C42_dressing_propagator_limits : forall J g m mq beta mu g0 f0 cfg,
  (forall om : R, om <> 0 -> Forall (fun x : C * C * C => let '(i, d, pr) := x in i <> RtoC 0 ->
     (d * i)%C = RtoC 1 /\ (RtoC (om * om) * pr)%C = d) (zp_families J g om m mq beta mu g0 f0 cfg)) /\
  (forall om : C, om <> RtoC 0 -> Forall (fun x : C * C * C => let '(i, d, pr) := x in i <> RtoC 0 ->
     (d * i)%C = RtoC 1 /\ (om * om * pr)%C = d) (zp_families J g om m mq beta mu g0 f0 cfg)) /\
  (forall p, p <> 0 -> Forall (fun x : R * R * R => let '(i, d, pr) := x in i <> 0 ->
     d * i = 1 /\ p * p * pr = d) (zm_families J g p m mq beta mu g0 f0 cfg)).
Proof.
  exact (fun J g m mq beta mu g0 f0 cfg => conj (fun om => zp_families_R J g om m mq beta mu g0 f0 cfg)
    (conj (fun om => zp_families_C J g om m mq beta mu g0 f0 cfg) (fun p => zm_families_ok J g p m mq beta mu g0 f0 cfg))).
Qed.
Print Assumptions C42_dressing_propagator_limits.

Theorem C42_thermal_correction_general : forall J g p nc m mq beta mu g0 f0 quarks,
  (forall om : R, om * om + p * p <> 0 -> Forall (fun x : R * list (R * C) * C * C => let '(sg, l, i, v) := x in
      i = (v + RtoC (sg * (16 * PI * PI / 3)) / RtoC (om * om + p * p) * wsum_C l)%C)
    (gen_reductions J g om p nc m mq beta mu g0 f0 quarks)) /\
  (forall om : C, (om * om + RtoC (p * p))%C <> RtoC 0 -> Forall (fun x : R * list (R * C) * C * C => let '(sg, l, i, v) := x in
      i = (v + RtoC (sg * (16 * PI * PI / 3)) / (om * om + RtoC (p * p)) * wsum_C l)%C)
    (gen_reductions J g om p nc m mq beta mu g0 f0 quarks)).
Proof.
  exact (fun J g p nc m mq beta mu g0 f0 quarks => conj (fun om => gen_reductions_R J g om p nc m mq beta mu g0 f0 quarks)
    (fun om => gen_reductions_C J g om p nc m mq beta mu g0 f0 quarks)).
Qed.
Print Assumptions C42_thermal_correction_general.

Theorem C42_thermal_correction_limits : forall J g nc m mq beta mu g0 f0 quarks,
  (forall om : R, om <> 0 -> Forall (fun x : R * list (R * C) * C * C => let '(sg, l, i, v) := x in
      i = (v + RtoC (sg * (16 * PI * PI / 3)) / RtoC (om * om) * wsum_C l)%C)
    (zp_reductions J g om nc m mq beta mu g0 f0 quarks)) /\
  (forall om : C, om <> RtoC 0 -> Forall (fun x : R * list (R * C) * C * C => let '(sg, l, i, v) := x in
      i = (v + RtoC (sg * (16 * PI * PI / 3)) / (om * om) * wsum_C l)%C)
    (zp_reductions J g om nc m mq beta mu g0 f0 quarks)) /\
  (forall p, p <> 0 -> Forall (fun x : R * list (R * R) * R * R => let '(sg, l, i, v) := x in
      i = v + sg * (16 * PI * PI / 3) / (p * p) * wsum_R l)
    (zm_reductions J g p nc m mq beta mu g0 f0 quarks)).
Proof.
  exact (fun J g nc m mq beta mu g0 f0 quarks => conj (fun om => zp_reductions_R J g om nc m mq beta mu g0 f0 quarks)
    (conj (fun om => zp_reductions_C J g om nc m mq beta mu g0 f0 quarks) (fun p => zm_reductions_R J g p nc m mq beta mu g0 f0 quarks))).
Qed.
Print Assumptions C42_thermal_correction_limits.

Theorem C42_vacuum_limit : forall J g nc m mq beta mu g0 f0 quarks,
  (forall (om : R) p, om * om + p * p <> 0 -> Forall (fun x : R * list (R * C) * C * C => let '(sg, l, i, v) := x in
      Forall (fun y => snd y = RtoC 0) l -> i = v) (gen_reductions J g om p nc m mq beta mu g0 f0 quarks)) /\
  (forall (om : C) p, (om * om + RtoC (p * p))%C <> RtoC 0 -> Forall (fun x : R * list (R * C) * C * C => let '(sg, l, i, v) := x in
      Forall (fun y => snd y = RtoC 0) l -> i = v) (gen_reductions J g om p nc m mq beta mu g0 f0 quarks)) /\
  (forall (om : R), om <> 0 -> Forall (fun x : R * list (R * C) * C * C => let '(sg, l, i, v) := x in
      Forall (fun y => snd y = RtoC 0) l -> i = v) (zp_reductions J g om nc m mq beta mu g0 f0 quarks)) /\
  (forall (om : C), om <> RtoC 0 -> Forall (fun x : R * list (R * C) * C * C => let '(sg, l, i, v) := x in
      Forall (fun y => snd y = RtoC 0) l -> i = v) (zp_reductions J g om nc m mq beta mu g0 f0 quarks)) /\
  (forall p, p <> 0 -> Forall (fun x : R * list (R * R) * R * R => let '(sg, l, i, v) := x in
      Forall (fun y => snd y = 0) l -> i = v) (zm_reductions J g p nc m mq beta mu g0 f0 quarks)).
Proof. exact vacuum_limits. Qed.
Print Assumptions C42_vacuum_limit.

(** A routine answering 3/(16 pi^2) everywhere shifts the ghost by 1/(om^2+p^2) = 1/4. *)
Example C42_example : ym_ghost_dressing_inv (constJ (3 / (16 * PI * PI))) g0 (2 : R) 0 1 1 0 =
  RtoC (ym_ghost_dressing_inv_landau 4 0 + 1 / 4).
Proof. exact ex_ghost. Qed.

(** C43. *)
Theorem C43_no_flavours : forall J g p m mq beta mu f0, g_nf g = 0%nat -> g_nf_div_nc g = 0 ->
  (forall om : R, thermal_values_C J g om p m mq beta mu f0 = thermal_ym_values_C J g om p m beta f0) /\
  (forall om : C, thermal_values_C J g om p m mq beta mu f0 = thermal_ym_values_C J g om p m beta f0) /\
  thermal_values_R J g p m mq beta mu f0 = thermal_ym_values_R J g p m beta f0.
Proof.
  exact (fun J g p m mq beta mu f0 H1 H2 => conj (fun om => no_quarks_R J g om p m mq beta mu f0 H1 H2)
    (conj (fun om => no_quarks_C J g om p m mq beta mu f0 H1 H2) (no_quarks_zm J g p m mq beta mu f0 H1 H2))).
Qed.
Print Assumptions C43_no_flavours.

Theorem C43_empty_configuration : forall J g p nc m quarks beta mu f0, Forall (fun q : nat * R => fst q = 0%nat) quarks ->
  (forall om : R, thermal_cfg_values_C J g om p beta mu f0 (FieldConfig_new nc m quarks) = thermal_ym_values_C J g om p m beta f0) /\
  (forall om : C, thermal_cfg_values_C J g om p beta mu f0 (FieldConfig_new nc m quarks) = thermal_ym_values_C J g om p m beta f0) /\
  thermal_cfg_values_R J g p beta mu f0 (FieldConfig_new nc m quarks) = thermal_ym_values_R J g p m beta f0.
Proof.
  exact (fun J g p nc m quarks beta mu f0 H => conj (fun om => empty_cfg_R J g om p nc m quarks beta mu f0 H)
    (conj (fun om => empty_cfg_C J g om p nc m quarks beta mu f0 H) (empty_cfg_zm J g p nc m quarks beta mu f0 H))).
Qed.
Print Assumptions C43_empty_configuration.

(** The hypotheses are what the setters produce. *)
Example C43_example : let g := run_calls OpsR (default_globals OpsR) [SetNC 4; SetNF 0] in
  thermal_values_R (constJ 7) g 2 1 (1 / 2) 3 (1 / 3) 0 = thermal_ym_values_R (constJ 7) g 2 1 3 0.
Proof. apply no_quarks_zm; cbn; [reflexivity|unfold Rdiv; ring]. Qed.

(** C44. *)
Theorem C44_single_species : forall J g p nc m nf mq beta mu f0, g_nf g = nf -> g_nf_div_nc g = INR nf / INR nc ->
  (forall om : R, thermal_cfg_values_C J g om p beta mu f0 (FieldConfig_new nc m [(nf, mq)]) = thermal_values_C J g om p m mq beta mu f0) /\
  (forall om : C, thermal_cfg_values_C J g om p beta mu f0 (FieldConfig_new nc m [(nf, mq)]) = thermal_values_C J g om p m mq beta mu f0) /\
  thermal_cfg_values_R J g p beta mu f0 (FieldConfig_new nc m [(nf, mq)]) = thermal_values_R J g p m mq beta mu f0.
Proof.
  exact (fun J g p nc m nf mq beta mu f0 H1 H2 => conj (fun om => single_R J g om p nc m nf mq beta mu f0 H1 H2)
    (conj (fun om => single_C J g om p nc m nf mq beta mu f0 H1 H2) (single_zm J g p nc m nf mq beta mu f0 H1 H2))).
Qed.
Print Assumptions C44_single_species.

Theorem C44_order_irrelevant : forall J g p nc m l l' beta mu f0, Permutation l l' ->
  (forall om : R, thermal_cfg_values_C J g om p beta mu f0 (FieldConfig_new nc m l) = thermal_cfg_values_C J g om p beta mu f0 (FieldConfig_new nc m l')) /\
  (forall om : C, thermal_cfg_values_C J g om p beta mu f0 (FieldConfig_new nc m l) = thermal_cfg_values_C J g om p beta mu f0 (FieldConfig_new nc m l')) /\
  thermal_cfg_values_R J g p beta mu f0 (FieldConfig_new nc m l) = thermal_cfg_values_R J g p beta mu f0 (FieldConfig_new nc m l').
Proof.
  exact (fun J g p nc m l l' beta mu f0 H => let E := perm_equiv nc m l l' H in
    conj (fun om => cfg_equiv_R J g om p _ _ beta mu f0 E) (conj (fun om => cfg_equiv_C J g om p _ _ beta mu f0 E) (cfg_equiv_zm J g p _ _ beta mu f0 E))).
Qed.
Print Assumptions C44_order_irrelevant.

Theorem C44_equal_masses_merge : forall J g p nc m n1 n2 mq l1 l2 beta mu f0,
  let c := FieldConfig_new nc m (l1 ++ (n1, mq) :: (n2, mq) :: l2) in
  let c' := FieldConfig_new nc m (l1 ++ ((n1 + n2)%nat, mq) :: l2) in
  (forall om : R, thermal_cfg_values_C J g om p beta mu f0 c = thermal_cfg_values_C J g om p beta mu f0 c') /\
  (forall om : C, thermal_cfg_values_C J g om p beta mu f0 c = thermal_cfg_values_C J g om p beta mu f0 c') /\
  thermal_cfg_values_R J g p beta mu f0 c = thermal_cfg_values_R J g p beta mu f0 c'.
Proof.
  exact (fun J g p nc m n1 n2 mq l1 l2 beta mu f0 => let E := merge_equiv nc m n1 n2 mq l1 l2 in
    conj (fun om => cfg_equiv_R J g om p _ _ beta mu f0 E) (conj (fun om => cfg_equiv_C J g om p _ _ beta mu f0 E) (cfg_equiv_zm J g p _ _ beta mu f0 E))).
Qed.
Print Assumptions C44_equal_masses_merge.

Example C44_example : thermal_cfg_values_R (constJ 7) g0 2 3 (1 / 3) 0 (FieldConfig_new 3 1 [(1%nat, 1 / 2); (2%nat, 1 / 5); (1%nat, 1 / 2)]) =
  thermal_cfg_values_R (constJ 7) g0 2 3 (1 / 3) 0 (FieldConfig_new 3 1 [(2%nat, 1 / 2); (2%nat, 1 / 5)]).
Proof.
  rewrite (cfg_equiv_zm (constJ 7) g0 2 _ (FieldConfig_new 3 1 [(1%nat, 1 / 2); (1%nat, 1 / 2); (2%nat, 1 / 5)]) 3 (1 / 3) 0).
  - apply cfg_equiv_zm, (merge_equiv 3 1 1 1 (1 / 2) [] [(2%nat, 1 / 5)]).
  - apply perm_equiv, perm_skip, perm_swap.
Qed.

(** C45 fails: with any exact integration routine, changing the global number of
    colors changes the result of a thermal field-configuration function, for every
    configuration with one quark species and a nonempty Fermi sea. *)
Theorem C45_configuration_colors_refuted : exists J g g' (om : R) mu f0 cfg, exact_integrator J /\
  g' = set_number_of_colors OpsR 2 g /\
  zp_qcd_gluon_dressing_l_inv_zero_temp_w_field_config J g' om mu f0 cfg <>
  zp_qcd_gluon_dressing_l_inv_zero_temp_w_field_config J g om mu f0 cfg.
Proof. exact config_colors_refuted. Qed.
Print Assumptions C45_configuration_colors_refuted.

Theorem C45_always_depends_on_global_colors : forall J g n (om : R) nc m nf mq mu f0, exact_integrator J ->
  om <> 0 -> mq <> 0 -> Rabs mq < Rabs mu -> nf <> 0%nat -> g_nc g <> 0%nat -> n <> 0%nat -> n <> g_nc g ->
  zp_qcd_gluon_dressing_l_inv_zero_temp_w_field_config J (set_number_of_colors OpsR n g) om mu f0 (FieldConfig_new nc m [(nf, mq)]) <>
  zp_qcd_gluon_dressing_l_inv_zero_temp_w_field_config J g om mu f0 (FieldConfig_new nc m [(nf, mq)]).
Proof. exact cfg_depends_on_global_nc. Qed.
Print Assumptions C45_always_depends_on_global_colors.

(** What does hold: besides the number of colors, only the integration settings matter. *)
Theorem C45_other_settings_irrelevant : forall J g g', g_nc g = g_nc g' -> g_tol_integral g = g_tol_integral g' ->
  g_max_iter_integral g = g_max_iter_integral g' -> g_matsubara_reg g = g_matsubara_reg g' ->
  (forall (om : R) p beta mu f0 cfg, thermal_cfg_values_C J g om p beta mu f0 cfg = thermal_cfg_values_C J g' om p beta mu f0 cfg) /\
  (forall (om : C) p beta mu f0 cfg, thermal_cfg_values_C J g om p beta mu f0 cfg = thermal_cfg_values_C J g' om p beta mu f0 cfg) /\
  (forall p beta mu f0 cfg, thermal_cfg_values_R J g p beta mu f0 cfg = thermal_cfg_values_R J g' p beta mu f0 cfg).
Proof. exact cfg_globals. Qed.
Print Assumptions C45_other_settings_irrelevant.

Example C45_example : exists J, exact_integrator J /\
  zp_qcd_gluon_dressing_l_inv_zero_temp_w_field_config J (set_number_of_colors OpsR 2 g0) (1 : R) 5 0 (FieldConfig_new 3 1 [(1%nat, 3)]) <>
  zp_qcd_gluon_dressing_l_inv_zero_temp_w_field_config J g0 (1 : R) 5 0 (FieldConfig_new 3 1 [(1%nat, 3)]).
Proof. exact ex_global_nc. Qed.

(** C46. *)
Theorem C46_undisturbed : forall Q p beta mu f0 cfg,
  (forall om : R, Forall (fun x : conc C * (globals R -> C) => forall g s n,
    (forall k, (n <= k < snd (fst x s n))%nat -> same_but_nc (s k) g /\ g_nc (s k) = g_nc g) -> fst (fst x s n) = snd x g)
    (conc_cfg_C Q om p beta mu f0 cfg)) /\
  (forall om : C, Forall (fun x : conc C * (globals R -> C) => forall g s n,
    (forall k, (n <= k < snd (fst x s n))%nat -> same_but_nc (s k) g /\ g_nc (s k) = g_nc g) -> fst (fst x s n) = snd x g)
    (conc_cfg_C Q om p beta mu f0 cfg)) /\
  Forall (fun x : conc R * (globals R -> R) => forall g s n,
    (forall k, (n <= k < snd (fst x s n))%nat -> same_but_nc (s k) g /\ g_nc (s k) = g_nc g) -> fst (fst x s n) = snd x g)
    (conc_cfg_R Q p beta mu f0 cfg).
Proof.
  exact (fun Q p beta mu f0 cfg => conj (fun om => no_interference_C Q om p beta mu f0 cfg)
    (conj (fun om => no_interference_C Q om p beta mu f0 cfg) (no_interference_R Q p beta mu f0 cfg))).
Qed.
Print Assumptions C46_undisturbed.

(** The result of a positive quadrature rule is the sequential one iff all its
    evaluations saw the same number of colors, when the other threads only raise it or only lower it. *)
Theorem C46_fixed_rule_iff : forall l g om nc m nf mq mu f0 s n, om <> 0 -> nf <> 0%nat -> mq <> 0 -> Rabs mq < Rabs mu ->
  g_nc g <> 0%nat -> (forall k, g_nc (s k) <> 0%nat) ->
  (forall k, (g_nc g <= g_nc (s k))%nat) \/ (forall k, (g_nc (s k) <= g_nc g)%nat) ->
  Forall (fun x : R * R => 0 < fst x /\ 0 < snd x < 1) l ->
  let cfg := FieldConfig_new nc m [(nf, mq)] in
  fst (c_zp_qcd_gluon_dressing_l_inv_zero_temp_w_field_config (rule_routine l) (om : R) mu f0 cfg s n) =
    zp_qcd_gluon_dressing_l_inv_zero_temp_w_field_config (J_of (rule_routine l)) g om mu f0 cfg <->
  (forall k, (k < length l)%nat -> g_nc (s (n + 2 + k)%nat) = g_nc g).
Proof. exact rule_iff. Qed.
Print Assumptions C46_fixed_rule_iff.

(** For arbitrary interference: every integration routine is undisturbed iff every evaluation sees the same number of colors. *)
Theorem C46_every_routine_iff : forall g om nc m nf mq mu f0 s n, om <> 0 -> nf <> 0%nat -> mq <> 0 -> Rabs mq < Rabs mu ->
  g_nc g <> 0%nat -> (forall k, g_nc (s k) <> 0%nat /\ same_but_nc (s k) g) ->
  let cfg := FieldConfig_new nc m [(nf, mq)] in
  (forall Q, fst (c_zp_qcd_gluon_dressing_l_inv_zero_temp_w_field_config Q (om : R) mu f0 cfg s n) =
     zp_qcd_gluon_dressing_l_inv_zero_temp_w_field_config (J_of Q) g om mu f0 cfg) <->
  (forall k, (n + 2 <= k)%nat -> g_nc (s k) = g_nc g).
Proof. exact routines_iff. Qed.
Print Assumptions C46_every_routine_iff.

(** The zero-Matsubara functions fall back to tolerance 1E-8 only if the tolerance and the
    number of iterations each read the same twice; otherwise they use what was read first. *)
Theorem C46_zm_method : forall s n, let t1 := g_tol_integral (s n) in let m1 := g_max_iter_integral (s (n + 1)%nat) in
  let t2 := g_tol_integral (s (n + 2)%nat) in let m2 := g_max_iter_integral (s (n + 3)%nat) in
  (t1 = t2 -> m1 = m2 -> fst (c_zm_default_method s n) = G7K15 (/ 10 ^ 8) m1) /\
  (t1 <> t2 \/ m1 <> m2 -> fst (c_zm_default_method s n) = G7K15 t1 m1).
Proof. exact zm_method_race. Qed.
Print Assumptions C46_zm_method.

Theorem C46_vacuum_unaffected : forall (f0 : R) cfg sched n,
  (forall s : R, c_qcd_gluon_dressing_inv_landau_w_field_config s f0 cfg sched n = (qcd_gluon_dressing_inv_landau_w_field_config s f0 cfg, n)) /\
  (forall s : C, c_qcd_gluon_dressing_inv_landau_w_field_config s f0 cfg sched n = (qcd_gluon_dressing_inv_landau_w_field_config s f0 cfg, n)).
Proof. exact (fun f0 cfg sched n => conj (fun s => vac_conc s f0 cfg sched n) (fun s => vac_conc s f0 cfg sched n)). Qed.
Print Assumptions C46_vacuum_unaffected.

(** Two evaluations; another thread switches from 3 to 2 colors in between. *)
Example C46_example : let Q := rule_routine [(1 / 2, 1 / 4); (1 / 2, 3 / 4)] in
  let cfg := FieldConfig_new 3 1 [(1%nat, 3)] in
  fst (c_zp_qcd_gluon_dressing_l_inv_zero_temp_w_field_config Q (1 : R) 5 0 cfg switch 0%nat) <>
  zp_qcd_gluon_dressing_l_inv_zero_temp_w_field_config (J_of Q) g0 (1 : R) 5 0 cfg.
Proof. exact ex_switch. Qed.

(** C58. *)
Theorem C58_longitudinal_transverse : forall J g m mq beta mu f0 cfg,
  (forall om : R, zp_ym_t J g om m beta f0 = zp_ym_l J g om m beta f0 /\
    zp_qcd_t J g om m mq beta mu f0 = zp_qcd_l J g om m mq beta mu f0 /\
    zp_qcd_zt_t J g om m mq mu f0 = zp_qcd_zt_l J g om m mq mu f0 /\
    zp_qcd_cfg_t J g om beta mu f0 cfg = zp_qcd_cfg_l J g om beta mu f0 cfg /\
    zp_qcd_zt_cfg_t J g om mu f0 cfg = zp_qcd_zt_cfg_l J g om mu f0 cfg) /\
  (forall om : C, zp_ym_t J g om m beta f0 = zp_ym_l J g om m beta f0 /\
    zp_qcd_t J g om m mq beta mu f0 = zp_qcd_l J g om m mq beta mu f0 /\
    zp_qcd_zt_t J g om m mq mu f0 = zp_qcd_zt_l J g om m mq mu f0 /\
    zp_qcd_cfg_t J g om beta mu f0 cfg = zp_qcd_cfg_l J g om beta mu f0 cfg /\
    zp_qcd_zt_cfg_t J g om mu f0 cfg = zp_qcd_zt_cfg_l J g om mu f0 cfg).
Proof.
  exact (fun J g m mq beta mu f0 cfg => conj (fun om => zp_lt J g om m mq beta mu f0 cfg) (fun om => zp_lt J g om m mq beta mu f0 cfg)).
Qed.
Print Assumptions C58_longitudinal_transverse.

Example C58_example : let J := constJ 7 in
  zp_qcd_gluon_propagator_t J g0 (2 : R) 1 (1 / 2) 3 (1 / 3) 0 = zp_qcd_gluon_propagator_l J g0 (2 : R) 1 (1 / 2) 3 (1 / 3) 0 /\
  zp_ym_gluon_dressing_t_inv J g0 (2 : R) 1 3 0 = (RtoC (ym_gluon_dressing_inv_landau (2 * 2 / (1 * 1))%R 0) - RtoC (28 * PI * PI / 3))%C.
Proof.
  split; [reflexivity|]. set (V := ym_gluon_dressing_inv_landau (2 * 2 / (1 * 1))%R 0).
  change ((RtoC V - RtoC (/ (2 * 2) * (16 * PI * PI / 3)) * RtoC 7)%C = (RtoC V - RtoC (28 * PI * PI / 3))%C).
  clearbody V. generalize PI. intros. apply Ceq; cbn; field.
Qed.
