(** * Properties C74-C76: hard thermal loops

    The project checks its thermal integrands against the hard-thermal-loop
    self-energies in two example programs (qed_htl_limit.rs,
    qcd_gluon_propagator_asymptotics.rs), by plotting. Here the external momenta
    and masses are scaled with x -> 0+ at fixed temperature. By C37 this is the
    same as the temperature growing at fixed momenta and masses. *)
From Coq Require Import Reals Lra Lia.
From Coquelicot Require Import Coquelicot.
From Verif Require Import Num MCommon MThermal MPolar MHtl SpecLim SpecHtl PWeights PWeights2 PHtl3 PHtl4.
Open Scope R_scope.

(** C74. Quark loop. *)
Theorem C74_reference_real_frequency : forall om k t : R, om <> 0 -> 0 < k ->
  f_htl om k t = RtoC (t * t * htl_L om k) /\ g_htl om k t = RtoC (t * t * htl_T om k) /\ f_htl (RtoC om) k t = f_htl om k t.
Proof. exact hp_fhtl. Qed.
Print Assumptions C74_reference_real_frequency.

Theorem C74_quark_limit : forall (nc : nat) (om k m T mu q : R), (0 < nc)%nat -> 0 < q -> om <> 0 -> 0 < k -> 0 < T ->
  tendsC (at_right 0) (fun x => polarization_quark_l_thermal_part_landau_i nc q (x * om) (x * k) (x * m) (/ T) mu)
    (RtoC (- (fermion_weight T mu q * (T * T * htl_L om k) / (2 * INR nc)))) /\
  tendsC (at_right 0) (fun x => polarization_quark_t_thermal_part_landau_i nc q (x * om) (x * k) (x * m) (/ T) mu)
    (RtoC (- (fermion_weight T mu q * (T * T * htl_T om k) / (2 * INR nc)))).
Proof. exact hp_quark. Qed.
Print Assumptions C74_quark_limit.

Theorem C74_quark_zero_temperature_limit : forall (nc : nat) (om k m mu q : R), (0 < nc)%nat -> 0 < q -> om <> 0 -> 0 < k -> q <> Rabs mu ->
  tendsC (at_right 0) (fun x => polarization_quark_l_thermal_part_zero_temp_landau_i nc q (x * om) (x * k) (x * m) mu)
    (RtoC (- (sea_weight mu q * htl_L om k / (2 * INR nc)))) /\
  tendsC (at_right 0) (fun x => polarization_quark_t_thermal_part_zero_temp_landau_i nc q (x * om) (x * k) (x * m) mu)
    (RtoC (- (sea_weight mu q * htl_T om k / (2 * INR nc)))).
Proof. exact hp_quark0. Qed.
Print Assumptions C74_quark_zero_temperature_limit.

(** The example's comparison: f_ours, g_ours against f_htl, g_htl. *)
Theorem C74_qed_example : forall om k m T : R, om <> 0 -> 0 < k -> 0 < T -> exists l t : R -> R,
  (forall q, 0 < q ->
    tendsC (at_right 0) (fun x => (RtoC (-6) * polarization_quark_l_thermal_part_landau_i 3 q (x * om)%R (x * k)%R (x * m)%R (/ T)%R 0)%C) (RtoC (l q)) /\
    tendsC (at_right 0) (fun x => (RtoC (-6) * polarization_quark_t_thermal_part_landau_i 3 q (x * om)%R (x * k)%R (x * m)%R (/ T)%R 0)%C) (RtoC (t q))) /\
  is_RInt_gen l (at_right 0) INF (fst (f_htl om k T)) /\ is_RInt_gen t (at_right 0) INF (fst (g_htl om k T)).
Proof. exact hp_ours_int. Qed.
Print Assumptions C74_qed_example.

Example C74_example_values : f_htl 1 1 1 = RtoC (2 / 3 * (1 - PI / 4)) /\ g_htl 1 1 1 = RtoC (1 / 6 - 1 / 3 * (1 - PI / 4)).
Proof. exact hp_ex_f. Qed.
Example C74_example_limit : tendsC (at_right 0) (fun x => polarization_quark_l_thermal_part_zero_temp_landau_i 3 1 (x * 1) (x * 1) (x * 5) 2) (RtoC (- (6 / (PI * PI) * (2 / 3 * (1 - PI / 4)) / 6))).
Proof.
  replace (- (6 / (PI * PI) * (2 / 3 * (1 - PI / 4)) / 6)) with (- (sea_weight 2 1 * htl_L 1 1 / (2 * INR 3))).
  - apply C74_quark_zero_temperature_limit; try lra; try lia. rewrite Rabs_pos_eq; lra.
  - unfold sea_weight. destruct (Rlt_dec 1 (Rabs 2)) as [_|n]; [|exfalso; apply n; rewrite Rabs_pos_eq; lra].
    assert (E : htl_L 1 1 = 2 / 3 * (1 - PI / 4)). { destruct (C74_reference_real_frequency 1 1 1 ltac:(lra) ltac:(lra)) as (A & _). destruct C74_example_values as (B & _). rewrite B in A. apply RtoC_inj in A. lra. }
    rewrite E. simpl INR. pose proof PI_neq0. field. auto.
Qed.

(** C75. Gluon and ghost loops. The gluon loop's limit differs from the weight
    times the HTL function by a total derivative that vanishes at both ends. *)
Theorem C75_glue_limit : forall om k m T q : R, 0 < q -> om <> 0 -> 0 < k -> m <> 0 -> 0 < T ->
  (exists D, is_derive (boundary_L om k T) q D /\
    tendsC (at_right 0) (fun x => polarization_glue_l_thermal_part_landau_i q (x * om) (x * k) (x * m) (/ T)) (RtoC (- (boson_weight T q * (T * T * htl_L om k)) + D))) /\
  (exists D, is_derive (boundary_T T) q D /\
    tendsC (at_right 0) (fun x => polarization_glue_t_thermal_part_landau_i q (x * om) (x * k) (x * m) (/ T)) (RtoC (- (boson_weight T q * (T * T * htl_T om k)) + D))).
Proof. exact hp_glue. Qed.
Print Assumptions C75_glue_limit.

Theorem C75_boundary_terms_vanish : forall om k T : R, 0 < T ->
  tends (at_right 0) (boundary_T T) 0 /\ tends INF (boundary_T T) 0 /\ tends (at_right 0) (boundary_L om k T) 0 /\ tends INF (boundary_L om k T) 0.
Proof. exact hp_boundary. Qed.
Print Assumptions C75_boundary_terms_vanish.

Theorem C75_glue_integral : forall om k : R, om <> 0 -> 0 < k -> forall m T : R, m <> 0 -> 0 < T -> exists l t : R -> R,
  (forall q, 0 < q ->
    tendsC (at_right 0) (fun x => polarization_glue_l_thermal_part_landau_i q (x * om) (x * k) (x * m) (/ T)) (RtoC (l q)) /\
    tendsC (at_right 0) (fun x => polarization_glue_t_thermal_part_landau_i q (x * om) (x * k) (x * m) (/ T)) (RtoC (t q))) /\
  is_RInt_gen l (at_right 0) INF (- (T * T * htl_L om k)) /\ is_RInt_gen t (at_right 0) INF (- (T * T * htl_T om k)).
Proof. exact glue_htl. Qed.
Print Assumptions C75_glue_integral.

Theorem C75_ghost_limit : forall q om k m T : R, 0 < q -> om <> 0 -> 0 < k -> m <> 0 -> 0 < T ->
  tendsC (at_right 0) (fun x => ghost_self_energy_thermal_part_landau_i q (x * om) (x * k) (x * m) (/ T)) (RtoC 0).
Proof. exact ghost_htl. Qed.
Print Assumptions C75_ghost_limit.

Example C75_example : exists l t : R -> R,
  (forall q, 0 < q -> tendsC (at_right 0) (fun x => polarization_glue_l_thermal_part_landau_i q (x * 1) (x * 1) (x * 1) (/ 1)) (RtoC (l q)) /\
    tendsC (at_right 0) (fun x => polarization_glue_t_thermal_part_landau_i q (x * 1) (x * 1) (x * 1) (/ 1)) (RtoC (t q))) /\
  is_RInt_gen l (at_right 0) INF (- (2 / 3 * (1 - PI / 4))) /\ is_RInt_gen t (at_right 0) INF (- (1 / 6 - 1 / 3 * (1 - PI / 4))).
Proof.
  assert (E : 1 * 1 * htl_L 1 1 = 2 / 3 * (1 - PI / 4)). { destruct (C74_reference_real_frequency 1 1 1 ltac:(lra) ltac:(lra)) as (A & _). destruct C74_example_values as (B & _). rewrite B in A. apply RtoC_inj in A. lra. }
  destruct (C75_glue_integral 1 1 ltac:(lra) ltac:(lra) 1 1 ltac:(lra) ltac:(lra)) as (l & t & A & B & D). exists l, t.
  split; [exact A|]. rewrite E in B. split; [exact B|]. unfold htl_T in D. replace (1 / 6 - 1 / 3 * (1 - PI / 4)) with (1 * 1 * (1 / 6 - htl_L 1 1 / 2)) by lra. exact D.
Qed.

(** C76. Normalisation of the weights, and the mass of the second example. *)
Theorem C76_weights : forall T mu : R, 0 < T ->
  is_RInt_gen (boson_weight T) (at_right 0) INF 1 /\
  is_RInt_gen (fermion_weight T mu) (at_right 0) INF (1 + 3 * (mu * mu) / (PI * PI * (T * T))) /\
  is_RInt_gen (sea_weight mu) (at_right 0) INF (3 * (mu * mu) / (PI * PI)).
Proof. intros T mu HT. exact (conj (boson_weight_int T HT) (conj (fermion_weight_int T mu HT) (sea_weight_int mu))). Qed.
Print Assumptions C76_weights.

Theorem C76_gluon_mass : forall (om k : R) (nc nf : nat) (m mq T mu : R), om <> 0 -> 0 < k -> (0 < nc)%nat -> m <> 0 -> 0 < T -> exists l t : R -> R,
  (forall q, 0 < q ->
    tendsC (at_right 0) (fun x => (polarization_glue_l_thermal_part_landau_i q (x * om)%R (x * k)%R (x * m)%R (/ T)%R
      + RtoC (INR nf) * polarization_quark_l_thermal_part_landau_i nc q (x * om)%R (x * k)%R (x * mq)%R (/ T)%R mu)%C) (RtoC (l q)) /\
    tendsC (at_right 0) (fun x => (polarization_glue_t_thermal_part_landau_i q (x * om)%R (x * k)%R (x * m)%R (/ T)%R
      + RtoC (INR nf) * polarization_quark_t_thermal_part_landau_i nc q (x * om)%R (x * k)%R (x * mq)%R (/ T)%R mu)%C) (RtoC (t q))) /\
  is_RInt_gen l (at_right 0) INF (- (exp (asymptotics_known T mu nc nf 0) / INR nc * htl_L om k)) /\
  is_RInt_gen t (at_right 0) INF (- (exp (asymptotics_known T mu nc nf 0) / INR nc * htl_T om k)).
Proof. exact gluon_htl. Qed.
Print Assumptions C76_gluon_mass.

Theorem C76_known_mass : forall (T mu : R) (nc nf : nat) (rem : R), (0 < nc)%nat -> 0 < T ->
  exp (asymptotics_known T mu nc nf rem) = ((INR nc + INR nf / 2) * (T * T) + 3 * INR nf * (mu * mu) / (2 * (PI * PI))) * exp rem.
Proof. exact known_exp. Qed.
Print Assumptions C76_known_mass.

Example C76_example_mass : exp (asymptotics_known 2 PI 3 2 0) = 19.
Proof. rewrite C76_known_mass by (try lia; lra). rewrite exp_0. simpl INR. pose proof PI_neq0. field. auto. Qed.
