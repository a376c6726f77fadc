(** * Concrete cases for the thermal properties *)
From Coq Require Import Reals List Lra Lia.
From Coquelicot Require Import Coquelicot.
From Verif Require Import Num CField MCommon MConsts MVacuum MThermal MPolar MDress MQuark MConc SpecLim SpecDress SpecInt SpecConc PCplx PDistr PVac PDress PDress2 PInt PCfg PConc PTherm.
Import List ListNotations.
Open Scope R_scope.

(** An integration routine that always answers [v]. *)
Definition constJ (v : R) : Integrator := {| integrateC := fun _ _ _ _ => RtoC v; integrateR := fun _ _ _ _ => v |}.
Definition g0 : globals R := default_globals OpsR.

Lemma kF_35 : fermi_momentum 3 5 = 4.
Proof. rewrite kF_R. replace (5 * 5 - 3 * 3) with (4 * 4) by ring. apply sqrt_square. lra. Qed.
Lemma abs35 : Rabs 3 < Rabs 5.
Proof. rewrite !Rabs_right by lra. lra. Qed.
Lemma ex_sea : zp_polarization_quark_l_thermal_part_zero_temp_landau_i 3 5 (1 : R) 3 5 = 0 /\
  zp_polarization_quark_l_thermal_part_zero_temp_landau_i 3 4 (0 : R) 0 5 = - 4 / (9 * (PI * PI)).
Proof.
  split.
  - apply zt_zp_out_R. right. split; [pose proof abs35; lra|]. rewrite <- kF_R, kF_35. lra.
  - unfold zp_polarization_quark_l_thermal_part_zero_temp_landau_i.
    assert (E : energy (T := R) 4 0 = 4) by (rewrite energy_R; replace (0 * 0 + 4 * 4) with (4 * 4) by ring; apply sqrt_square; lra).
    rewrite E, occ_inside by (try rewrite Rabs_right; lra). numcbn. change PI2 with (PI * PI). pose proof PI_neq0.
    replace (INR 3) with 3 by (cbn; lra). field. auto.
Qed.

Lemma ex_compact : is_RInt (compact_R (fun q => / (1 + q) ^ 2)) (/ 4) 1 (3 / 4) /\ RInt (fun q => / (1 + q) ^ 2) 0 3 = 3 / 4.
Proof.
  assert (A : is_RInt (compact_R (fun q => / (1 + q) ^ 2)) (/ 4) 1 (3 / 4)).
  { apply is_RInt_ext with (f := fun _ => 1).
    - intros t Ht. rewrite Rmin_left, Rmax_right in Ht by lra. unfold compact_R. eqR. field. split; [lra|]. replace (t + (1 - t)) with 1 by ring. lra.
    - replace (3 / 4) with (scal (1 - / 4) 1) by (cbn; unfold mult; cbn; lra). apply @is_RInt_const. }
  split; auto.
  assert (B := compact_int (fun q => / (1 + q) ^ 2) 3 ltac:(lra)
    (fun x Hx => ex_derive_continuous (V := R_NormedModule) (fun q => / (1 + q) ^ 2) x ltac:(auto_derive; nra))).
  replace (/ (1 + 3)) with (/ 4) in B by (f_equal; lra).
  assert (A' := is_RInt_unique (V := R_CompleteNormedModule) _ _ _ _ A). assert (B' := is_RInt_unique (V := R_CompleteNormedModule) _ _ _ _ B).
  exact (eq_trans (eq_sym B') A').
Qed.

Lemma ex_ghost : ym_ghost_dressing_inv (constJ (3 / (16 * PI * PI))) g0 (2 : R) 0 1 1 0 =
  RtoC (ym_ghost_dressing_inv_landau 4 0 + 1 / 4).
Proof.
  assert (A := gen_reductions_R (constJ (3 / (16 * PI * PI))) g0 2 0 3 1 1 1 1 0 0 [] ltac:(lra)).
  apply Forall_cons_iff in A as [A _]. cbv beta iota in A. rewrite A. unfold wsum_C. cbn [fold_right fst snd].
  unfold ghost_self_energy, ghost_self_energy_w_method. cbn [integrateC constJ].
  numcbn. replace ((2 * 2 + 0 * 0) / (1 * 1)) with 4 by field. generalize (ym_ghost_dressing_inv_landau 4 0). intros x.
  pose proof PI_neq0. apply Ceq; cbn; field; auto.
Qed.

(** Memory seen while another thread switches from 3 to 2 colors at the second evaluation. *)
Definition switch (k : nat) : globals R := if (k <? 3)%nat then g0 else set_number_of_colors OpsR 2 g0.
Lemma ex_switch : let Q := rule_routine [(1 / 2, 1 / 4); (1 / 2, 3 / 4)] in
  let cfg := FieldConfig_new 3 1 [(1%nat, 3)] in
  fst (c_zp_qcd_gluon_dressing_l_inv_zero_temp_w_field_config Q (1 : R) 5 0 cfg switch 0%nat) <>
  zp_qcd_gluon_dressing_l_inv_zero_temp_w_field_config (J_of Q) g0 (1 : R) 5 0 cfg.
Proof.
  cbv zeta. intros E.
  assert (A := proj1 (rule_iff [(1 / 2, 1 / 4); (1 / 2, 3 / 4)] g0 1 3 1 1 3 5 0 switch 0%nat ltac:(lra) ltac:(lia) ltac:(lra) abs35 ltac:(cbn; lia)
    ltac:(intros k; unfold switch; destruct Nat.ltb; cbn; lia) ltac:(right; intros k; unfold switch; destruct Nat.ltb; cbn; lia)
    ltac:(repeat (apply Forall_cons || apply Forall_nil); cbn; lra)) E 1%nat ltac:(cbn; lia)).
  cbn in A. discriminate.
Qed.
Lemma ex_global_nc : exists J, exact_integrator J /\
  zp_qcd_gluon_dressing_l_inv_zero_temp_w_field_config J (set_number_of_colors OpsR 2 g0) (1 : R) 5 0 (FieldConfig_new 3 1 [(1%nat, 3)]) <>
  zp_qcd_gluon_dressing_l_inv_zero_temp_w_field_config J g0 (1 : R) 5 0 (FieldConfig_new 3 1 [(1%nat, 3)]).
Proof.
  exists RInt_J. split; [apply RInt_J_exact|].
  apply cfg_depends_on_global_nc; try apply RInt_J_exact; try apply abs35; try lra; cbn; lia.
Qed.
Lemma config_colors_refuted : exists J g g' (om : R) mu f0 cfg, exact_integrator J /\
  g' = set_number_of_colors OpsR 2 g /\
  zp_qcd_gluon_dressing_l_inv_zero_temp_w_field_config J g' om mu f0 cfg <>
  zp_qcd_gluon_dressing_l_inv_zero_temp_w_field_config J g om mu f0 cfg.
Proof. destruct ex_global_nc as [J [A B]]. now exists J, g0, (set_number_of_colors OpsR 2 g0), 1, 5, 0, (FieldConfig_new 3 1 [(1%nat, 3)]). Qed.
