(** * Proofs about the thermal dressing functions and propagators *)
From Coq Require Import Reals List Psatz Permutation Lia.
From Coquelicot Require Import Coquelicot.
From Verif Require Import Num CField MConsts MVacuum MThermal MPolar MDress SpecVac SpecDress PCplx PVac PVac3.
Import List ListNotations.
Open Scope R_scope.

Ltac dress_unfold1 := unfold ym_ghost_dressing, ym_ghost_propagator, ym_gluon_dressing_l, ym_gluon_dressing_t,
  ym_gluon_propagator_l, ym_gluon_propagator_t,
  zm_ym_ghost_dressing, zm_ym_ghost_propagator, zm_ym_gluon_dressing_l, zm_ym_gluon_dressing_t,
  zm_ym_gluon_propagator_l, zm_ym_gluon_propagator_t,
  zp_ym_ghost_dressing, zp_ym_ghost_propagator, zp_ym_gluon_dressing_l, zp_ym_gluon_dressing_t,
  zp_ym_gluon_propagator_l, zp_ym_gluon_propagator_t,
  qcd_gluon_dressing_l, qcd_gluon_dressing_t, qcd_gluon_propagator_l, qcd_gluon_propagator_t,
  zm_qcd_gluon_dressing_l, zm_qcd_gluon_dressing_t, zm_qcd_gluon_propagator_l, zm_qcd_gluon_propagator_t,
  zp_qcd_gluon_dressing_l, zp_qcd_gluon_dressing_t, zp_qcd_gluon_propagator_l, zp_qcd_gluon_propagator_t,
  qcd_gluon_dressing_l_zero_temp, qcd_gluon_dressing_t_zero_temp, qcd_gluon_propagator_l_zero_temp, qcd_gluon_propagator_t_zero_temp,
  zm_qcd_gluon_dressing_l_zero_temp, zm_qcd_gluon_dressing_t_zero_temp, zm_qcd_gluon_propagator_l_zero_temp, zm_qcd_gluon_propagator_t_zero_temp,
  zp_qcd_gluon_dressing_l_zero_temp, zp_qcd_gluon_dressing_t_zero_temp, zp_qcd_gluon_propagator_l_zero_temp, zp_qcd_gluon_propagator_t_zero_temp,
  qcd_gluon_dressing_l_w_field_config, qcd_gluon_dressing_t_w_field_config, qcd_gluon_propagator_l_w_field_config, qcd_gluon_propagator_t_w_field_config,
  zm_qcd_gluon_dressing_l_w_field_config, zm_qcd_gluon_dressing_t_w_field_config, zm_qcd_gluon_propagator_l_w_field_config, zm_qcd_gluon_propagator_t_w_field_config,
  zp_qcd_gluon_dressing_l_w_field_config, zp_qcd_gluon_dressing_t_w_field_config, zp_qcd_gluon_propagator_l_w_field_config, zp_qcd_gluon_propagator_t_w_field_config,
  qcd_gluon_dressing_l_zero_temp_w_field_config, qcd_gluon_dressing_t_zero_temp_w_field_config, qcd_gluon_propagator_l_zero_temp_w_field_config, qcd_gluon_propagator_t_zero_temp_w_field_config,
  zm_qcd_gluon_dressing_l_zero_temp_w_field_config, zm_qcd_gluon_dressing_t_zero_temp_w_field_config, zm_qcd_gluon_propagator_l_zero_temp_w_field_config, zm_qcd_gluon_propagator_t_zero_temp_w_field_config,
  zp_qcd_gluon_dressing_l_zero_temp_w_field_config, zp_qcd_gluon_dressing_t_zero_temp_w_field_config, zp_qcd_gluon_propagator_l_zero_temp_w_field_config, zp_qcd_gluon_propagator_t_zero_temp_w_field_config in *.
Ltac dress_unfold := dress_unfold1; dress_unfold1.
Ltac inv_unfold := unfold ym_ghost_dressing_inv, ym_gluon_dressing_l_inv, ym_gluon_dressing_t_inv,
  zm_ym_ghost_dressing_inv, zm_ym_gluon_dressing_l_inv, zm_ym_gluon_dressing_t_inv,
  zp_ym_gluon_dressing_t_inv, zp_ym_ghost_dressing_inv, zp_ym_gluon_dressing_l_inv,
  qcd_gluon_dressing_l_inv, qcd_gluon_dressing_t_inv, zm_qcd_gluon_dressing_l_inv, zm_qcd_gluon_dressing_t_inv,
  zp_qcd_gluon_dressing_l_inv, zp_qcd_gluon_dressing_t_inv,
  qcd_gluon_dressing_l_inv_zero_temp, qcd_gluon_dressing_t_inv_zero_temp, zm_qcd_gluon_dressing_l_inv_zero_temp,
  zm_qcd_gluon_dressing_t_inv_zero_temp, zp_qcd_gluon_dressing_l_inv_zero_temp, zp_qcd_gluon_dressing_t_inv_zero_temp,
  qcd_gluon_dressing_l_inv_w_field_config, qcd_gluon_dressing_t_inv_w_field_config,
  zm_qcd_gluon_dressing_l_inv_w_field_config, zm_qcd_gluon_dressing_t_inv_w_field_config,
  zp_qcd_gluon_dressing_l_inv_w_field_config, zp_qcd_gluon_dressing_t_inv_w_field_config,
  qcd_gluon_dressing_l_inv_zero_temp_w_field_config, qcd_gluon_dressing_t_inv_zero_temp_w_field_config,
  zm_qcd_gluon_dressing_l_inv_zero_temp_w_field_config, zm_qcd_gluon_dressing_t_inv_zero_temp_w_field_config,
  zp_qcd_gluon_dressing_l_inv_zero_temp_w_field_config, zp_qcd_gluon_dressing_t_inv_zero_temp_w_field_config;
  cbv zeta.

Lemma gen_families_R J g om p m mq beta mu g0 f0 cfg : om * om + p * p <> 0 ->
  Forall (fun x : C * C * C => let '(i, d, pr) := x in i <> RtoC 0 ->
     (d * i)%C = RtoC 1 /\ (RtoC (om * om + p * p) * pr)%C = d) (gen_families J g om p m mq beta mu g0 f0 cfg).
Proof.
  intros K. unfold gen_families.
  repeat (apply Forall_cons || apply Forall_nil); intros H; dress_unfold; numcbn; (split; [now apply Cinv_l|]);
    rewrite RtoC_inv' by auto; (rewrite Cmult_assoc, Cinv_r, Cmult_1_l; [reflexivity|now apply RtoC_neq]).
Qed.
Lemma gen_families_C J g (om : C) p m mq beta mu g0 f0 cfg : (om * om + RtoC (p * p))%C <> RtoC 0 ->
  Forall (fun x : C * C * C => let '(i, d, pr) := x in i <> RtoC 0 ->
     (d * i)%C = RtoC 1 /\ ((om * om + RtoC (p * p)) * pr)%C = d) (gen_families J g om p m mq beta mu g0 f0 cfg).
Proof.
  intros K. unfold gen_families.
  repeat (apply Forall_cons || apply Forall_nil); intros H; dress_unfold; numcbn; (split; [now apply Cinv_l|]);
    (rewrite Cmult_assoc, Cinv_r, Cmult_1_l; [reflexivity|auto]).
Qed.
Lemma zp_families_R J g om m mq beta mu g0 f0 cfg : om <> 0 ->
  Forall (fun x : C * C * C => let '(i, d, pr) := x in i <> RtoC 0 ->
     (d * i)%C = RtoC 1 /\ (RtoC (om * om) * pr)%C = d) (zp_families J g om m mq beta mu g0 f0 cfg).
Proof.
  intros K0. assert (K : om * om <> 0) by nra. unfold zp_families.
  repeat (apply Forall_cons || apply Forall_nil); intros H; dress_unfold; numcbn; (split; [now apply Cinv_l|]);
    rewrite RtoC_inv' by auto; (rewrite Cmult_assoc, Cinv_r, Cmult_1_l; [reflexivity|now apply RtoC_neq]).
Qed.
Lemma zp_families_C J g (om : C) m mq beta mu g0 f0 cfg : om <> RtoC 0 ->
  Forall (fun x : C * C * C => let '(i, d, pr) := x in i <> RtoC 0 ->
     (d * i)%C = RtoC 1 /\ (om * om * pr)%C = d) (zp_families J g om m mq beta mu g0 f0 cfg).
Proof.
  intros K. unfold zp_families.
  repeat (apply Forall_cons || apply Forall_nil); intros H; dress_unfold; numcbn; (split; [now apply Cinv_l|]);
    (rewrite Cmult_assoc, Cinv_r, Cmult_1_l; [reflexivity|auto using Cmult_neq_0]).
Qed.
Lemma zm_families_ok J g p m mq beta mu g0 f0 cfg : p <> 0 ->
  Forall (fun x : R * R * R => let '(i, d, pr) := x in i <> 0 ->
     d * i = 1 /\ p * p * pr = d) (zm_families J g p m mq beta mu g0 f0 cfg).
Proof.
  intros K. unfold zm_families.
  repeat (apply Forall_cons || apply Forall_nil); intros H; dress_unfold; numcbn; (split; [now apply Rinv_l|]).
 all: match goal with |- _ * (/ ?x / _) = _ => generalize (/ x); intros y; field; auto end.
Qed.

(** ** Thermal corrections *)
Lemma sum_quarks_wsum_C (F : R -> C) nc m quarks :
  sum_quarks (fun qi => (F (qi_mq qi) * RtoC (INR (qi_nf qi)))%C) (fc_quarks_internal (FieldConfig_new nc m quarks)) =
  wsum_C (map (fun q => (INR (fst q), F (snd q))) quarks).
Proof.
  unfold sum_quarks, FieldConfig_new; cbn [fc_quarks_internal]. numcbn.
  enough (G : forall z : C, fold_left (fun acc qi => (acc + F (qi_mq qi) * RtoC (INR (qi_nf qi)))%C)
     (map (fun nm => QuarkInternal_new nc m (fst nm) (snd nm)) quarks) z = (z + wsum_C (map (fun q => (INR (fst q), F (snd q))) quarks))%C).
  { rewrite G. ring. }
  induction quarks as [|q l IH]; intros z; cbn [map fold_left wsum_C fold_right fst snd]; [ring|].
  rewrite IH. unfold QuarkInternal_new; cbn [qi_mq qi_nf]. unfold wsum_C. ring.
Qed.
Lemma sum_quarks_wsum_R (F : R -> R) nc m quarks :
  sum_quarks (fun qi => F (qi_mq qi) * INR (qi_nf qi)) (fc_quarks_internal (FieldConfig_new nc m quarks)) =
  wsum_R (map (fun q => (INR (fst q), F (snd q))) quarks).
Proof.
  unfold sum_quarks, FieldConfig_new; cbn [fc_quarks_internal]. numcbn.
  enough (G : forall z : R, fold_left (fun acc qi => acc + F (qi_mq qi) * INR (qi_nf qi))
     (map (fun nm => QuarkInternal_new nc m (fst nm) (snd nm)) quarks) z = z + wsum_R (map (fun q => (INR (fst q), F (snd q))) quarks)).
  { rewrite G. ring. }
  induction quarks as [|q l IH]; intros z; cbn [map fold_left wsum_R fold_right fst snd]; [ring|].
  rewrite IH. unfold QuarkInternal_new; cbn [qi_mq qi_nf]. unfold wsum_R. ring.
Qed.

Lemma wsum_C_cons x l : wsum_C (x :: l) = (RtoC (fst x) * snd x + wsum_C l)%C.
Proof. reflexivity. Qed.
Lemma wsum_R_cons x l : wsum_R (x :: l) = fst x * snd x + wsum_R l.
Proof. reflexivity. Qed.
Lemma wsum_C_nil : wsum_C [] = RtoC 0.
Proof. reflexivity. Qed.
Lemma wsum_R_nil : wsum_R [] = 0.
Proof. reflexivity. Qed.
Lemma fc_gluon_new nc m l : fc_gluon (FieldConfig_new nc m l) = m.
Proof. reflexivity. Qed.

Lemma zp_glue_t {T} {NT : Num T} J g (om : T) m beta : zp_polarization_glue_t_thermal_part_landau J g om m beta = zp_polarization_glue_l_thermal_part_landau J g om m beta.
Proof. reflexivity. Qed.

Ltac reduct l := unfold get_number_of_fermions, nf_div_nc, PREFACTOR; rewrite ?fc_gluon_new;
  rewrite ?wsum_C_cons, ?wsum_C_nil, ?wsum_R_cons, ?wsum_R_nil; cbn [fst snd];
  try generalize (wsum_C l); try generalize (wsum_R l); intros;
  generalize (16 * PI * PI / 3)%R; intros;
  repeat (rewrite RtoC_mult || rewrite RtoC_inv' by auto || rewrite RtoC_opp); unfold Cdiv, Rdiv; ring.
Lemma gen_reductions_R J g (om : R) p nc m mq beta mu g0 f0 quarks : om * om + p * p <> 0 ->
  Forall (fun x : R * list (R * C) * C * C => let '(sg, l, i, v) := x in
      i = (v + RtoC (sg * (16 * PI * PI / 3)) / RtoC (om * om + p * p) * wsum_C l)%C)
    (gen_reductions J g om p nc m mq beta mu g0 f0 quarks).
Proof.
  intros K. unfold gen_reductions; cbv zeta.
  repeat (apply Forall_cons || apply Forall_nil); inv_unfold; numcbn; rewrite ?fc_gluon_new.
  - reduct (@nil (R * C)).
  - reduct (@nil (R * C)).
  - reduct (@nil (R * C)).
  - reduct (@nil (R * C)).
  - reduct (@nil (R * C)).
  - reduct (@nil (R * C)).
  - reduct (@nil (R * C)).
  - rewrite (sum_quarks_wsum_C (fun mq => polarization_quark_l_thermal_part_landau J g om p mq beta mu) nc m quarks).
    reduct (map (fun q => (INR (fst q), (fun mq => polarization_quark_l_thermal_part_landau J g om p mq beta mu) (snd q))) quarks).
  - rewrite (sum_quarks_wsum_C (fun mq => polarization_quark_t_thermal_part_landau J g om p mq beta mu) nc m quarks).
    reduct (map (fun q => (INR (fst q), (fun mq => polarization_quark_t_thermal_part_landau J g om p mq beta mu) (snd q))) quarks).
  - rewrite (sum_quarks_wsum_C (fun mq => polarization_quark_l_thermal_part_zero_temp_landau J g om p mq mu) nc m quarks).
    reduct (map (fun q => (INR (fst q), (fun mq => polarization_quark_l_thermal_part_zero_temp_landau J g om p mq mu) (snd q))) quarks).
  - rewrite (sum_quarks_wsum_C (fun mq => polarization_quark_t_thermal_part_zero_temp_landau J g om p mq mu) nc m quarks).
    reduct (map (fun q => (INR (fst q), (fun mq => polarization_quark_t_thermal_part_zero_temp_landau J g om p mq mu) (snd q))) quarks).
Qed.
Lemma gen_reductions_C J g (om : C) p nc m mq beta mu g0 f0 quarks : (om * om + RtoC (p * p))%C <> RtoC 0 ->
  Forall (fun x : R * list (R * C) * C * C => let '(sg, l, i, v) := x in
      i = (v + RtoC (sg * (16 * PI * PI / 3)) / (om * om + RtoC (p * p)) * wsum_C l)%C)
    (gen_reductions J g om p nc m mq beta mu g0 f0 quarks).
Proof.
  intros K. unfold gen_reductions; cbv zeta.
  repeat (apply Forall_cons || apply Forall_nil); inv_unfold; numcbn; rewrite ?fc_gluon_new.
  - reduct (@nil (R * C)).
  - reduct (@nil (R * C)).
  - reduct (@nil (R * C)).
  - reduct (@nil (R * C)).
  - reduct (@nil (R * C)).
  - reduct (@nil (R * C)).
  - reduct (@nil (R * C)).
  - rewrite (sum_quarks_wsum_C (fun mq => polarization_quark_l_thermal_part_landau J g om p mq beta mu) nc m quarks).
    reduct (map (fun q => (INR (fst q), (fun mq => polarization_quark_l_thermal_part_landau J g om p mq beta mu) (snd q))) quarks).
  - rewrite (sum_quarks_wsum_C (fun mq => polarization_quark_t_thermal_part_landau J g om p mq beta mu) nc m quarks).
    reduct (map (fun q => (INR (fst q), (fun mq => polarization_quark_t_thermal_part_landau J g om p mq beta mu) (snd q))) quarks).
  - rewrite (sum_quarks_wsum_C (fun mq => polarization_quark_l_thermal_part_zero_temp_landau J g om p mq mu) nc m quarks).
    reduct (map (fun q => (INR (fst q), (fun mq => polarization_quark_l_thermal_part_zero_temp_landau J g om p mq mu) (snd q))) quarks).
  - rewrite (sum_quarks_wsum_C (fun mq => polarization_quark_t_thermal_part_zero_temp_landau J g om p mq mu) nc m quarks).
    reduct (map (fun q => (INR (fst q), (fun mq => polarization_quark_t_thermal_part_zero_temp_landau J g om p mq mu) (snd q))) quarks).
Qed.
Lemma zp_reductions_R J g (om : R) nc m mq beta mu g0 f0 quarks : om <> 0 ->
  Forall (fun x : R * list (R * C) * C * C => let '(sg, l, i, v) := x in
      i = (v + RtoC (sg * (16 * PI * PI / 3)) / RtoC (om * om) * wsum_C l)%C)
    (zp_reductions J g om nc m mq beta mu g0 f0 quarks).
Proof.
  intros K. assert (K2 : om * om <> 0) by nra. unfold zp_reductions; cbv zeta.
  repeat (apply Forall_cons || apply Forall_nil); inv_unfold; numcbn; rewrite ?fc_gluon_new.
  - reduct (@nil (R * C)).
  - reduct (@nil (R * C)).
  - change (zp_polarization_glue_t_thermal_part_landau J g om m beta) with (zp_polarization_glue_l_thermal_part_landau J g om m beta). reduct (@nil (R * C)).
  - reduct (@nil (R * C)).
  - reduct (@nil (R * C)).
  - reduct (@nil (R * C)).
  - reduct (@nil (R * C)).
  - rewrite (sum_quarks_wsum_C (fun mq => zp_polarization_quark_l_thermal_part_landau J g om mq beta mu) nc m quarks).
    reduct (map (fun q => (INR (fst q), (fun mq => zp_polarization_quark_l_thermal_part_landau J g om mq beta mu) (snd q))) quarks).
  - rewrite (sum_quarks_wsum_C (fun mq => zp_polarization_quark_t_thermal_part_landau J g om mq beta mu) nc m quarks).
    reduct (map (fun q => (INR (fst q), (fun mq => zp_polarization_quark_t_thermal_part_landau J g om mq beta mu) (snd q))) quarks).
  - rewrite (sum_quarks_wsum_C (fun mq => zp_polarization_quark_l_thermal_part_zero_temp_landau J g om mq mu) nc m quarks).
    reduct (map (fun q => (INR (fst q), (fun mq => zp_polarization_quark_l_thermal_part_zero_temp_landau J g om mq mu) (snd q))) quarks).
  - rewrite (sum_quarks_wsum_C (fun mq => zp_polarization_quark_t_thermal_part_zero_temp_landau J g om mq mu) nc m quarks).
    reduct (map (fun q => (INR (fst q), (fun mq => zp_polarization_quark_t_thermal_part_zero_temp_landau J g om mq mu) (snd q))) quarks).
Qed.
Lemma zp_reductions_C J g (om : C) nc m mq beta mu g0 f0 quarks : om <> RtoC 0 ->
  Forall (fun x : R * list (R * C) * C * C => let '(sg, l, i, v) := x in
      i = (v + RtoC (sg * (16 * PI * PI / 3)) / (om * om) * wsum_C l)%C)
    (zp_reductions J g om nc m mq beta mu g0 f0 quarks).
Proof.
  intros K. unfold zp_reductions; cbv zeta.
  repeat (apply Forall_cons || apply Forall_nil); inv_unfold; numcbn; rewrite ?fc_gluon_new.
  - reduct (@nil (R * C)).
  - reduct (@nil (R * C)).
  - change (zp_polarization_glue_t_thermal_part_landau J g om m beta) with (zp_polarization_glue_l_thermal_part_landau J g om m beta). reduct (@nil (R * C)).
  - reduct (@nil (R * C)).
  - reduct (@nil (R * C)).
  - reduct (@nil (R * C)).
  - reduct (@nil (R * C)).
  - rewrite (sum_quarks_wsum_C (fun mq => zp_polarization_quark_l_thermal_part_landau J g om mq beta mu) nc m quarks).
    reduct (map (fun q => (INR (fst q), (fun mq => zp_polarization_quark_l_thermal_part_landau J g om mq beta mu) (snd q))) quarks).
  - rewrite (sum_quarks_wsum_C (fun mq => zp_polarization_quark_t_thermal_part_landau J g om mq beta mu) nc m quarks).
    reduct (map (fun q => (INR (fst q), (fun mq => zp_polarization_quark_t_thermal_part_landau J g om mq beta mu) (snd q))) quarks).
  - rewrite (sum_quarks_wsum_C (fun mq => zp_polarization_quark_l_thermal_part_zero_temp_landau J g om mq mu) nc m quarks).
    reduct (map (fun q => (INR (fst q), (fun mq => zp_polarization_quark_l_thermal_part_zero_temp_landau J g om mq mu) (snd q))) quarks).
  - rewrite (sum_quarks_wsum_C (fun mq => zp_polarization_quark_t_thermal_part_zero_temp_landau J g om mq mu) nc m quarks).
    reduct (map (fun q => (INR (fst q), (fun mq => zp_polarization_quark_t_thermal_part_zero_temp_landau J g om mq mu) (snd q))) quarks).
Qed.
Lemma zm_reductions_R J g p nc m mq beta mu g0 f0 quarks : p <> 0 ->
  Forall (fun x : R * list (R * R) * R * R => let '(sg, l, i, v) := x in
      i = v + sg * (16 * PI * PI / 3) / (p * p) * wsum_R l)
    (zm_reductions J g p nc m mq beta mu g0 f0 quarks).
Proof.
  intros K. assert (K2 : p * p <> 0) by nra. unfold zm_reductions; cbv zeta.
  repeat (apply Forall_cons || apply Forall_nil); inv_unfold; numcbn; rewrite ?fc_gluon_new.
  - reduct (@nil (R * R)).
  - reduct (@nil (R * R)).
  - reduct (@nil (R * R)).
  - reduct (@nil (R * R)).
  - reduct (@nil (R * R)).
  - reduct (@nil (R * R)).
  - reduct (@nil (R * R)).
  - rewrite (sum_quarks_wsum_R (fun mq => zm_polarization_quark_l_thermal_part_landau J g p mq beta mu) nc m quarks).
    reduct (map (fun q => (INR (fst q), (fun mq => zm_polarization_quark_l_thermal_part_landau J g p mq beta mu) (snd q))) quarks).
  - rewrite (sum_quarks_wsum_R (fun mq => zm_polarization_quark_t_thermal_part_landau J g p mq beta mu) nc m quarks).
    reduct (map (fun q => (INR (fst q), (fun mq => zm_polarization_quark_t_thermal_part_landau J g p mq beta mu) (snd q))) quarks).
  - rewrite (sum_quarks_wsum_R (fun mq => zm_polarization_quark_l_thermal_part_zero_temp_landau J g p mq mu) nc m quarks).
    reduct (map (fun q => (INR (fst q), (fun mq => zm_polarization_quark_l_thermal_part_zero_temp_landau J g p mq mu) (snd q))) quarks).
  - rewrite (sum_quarks_wsum_R (fun mq => zm_polarization_quark_t_thermal_part_zero_temp_landau J g p mq mu) nc m quarks).
    reduct (map (fun q => (INR (fst q), (fun mq => zm_polarization_quark_t_thermal_part_zero_temp_landau J g p mq mu) (snd q))) quarks).
Qed.
(** ** Reduction to the vacuum *)
Ltac numcbn_all := cbn [nadd nsub nmul ndiv nopp ninv nln nexp nsqrt nabs nre nim ofR toC NumR NumC] in *.
Lemma wsum_C_0 l : Forall (fun x : R * C => snd x = RtoC 0) l -> wsum_C l = RtoC 0.
Proof. induction 1 as [|x l H _ IH]; [reflexivity|]. rewrite wsum_C_cons, H, IH. ring. Qed.
Lemma wsum_R_0 l : Forall (fun x : R * R => snd x = 0) l -> wsum_R l = 0.
Proof. induction 1 as [|x l H _ IH]; [reflexivity|]. rewrite wsum_R_cons, H, IH. ring. Qed.

Lemma reduce_C c L : Forall (fun x : R * list (R * C) * C * C => let '(sg, l, i, v) := x in i = (v + RtoC (sg * (16 * PI * PI / 3)) / c * wsum_C l)%C) L ->
  Forall (fun x : R * list (R * C) * C * C => let '(sg, l, i, v) := x in Forall (fun y => snd y = RtoC 0) l -> i = v) L.
Proof. apply Forall_impl. intros [[[sg l] i] v] -> H. rewrite wsum_C_0 by auto. ring. Qed.
Lemma reduce_R c L : Forall (fun x : R * list (R * R) * R * R => let '(sg, l, i, v) := x in i = v + sg * (16 * PI * PI / 3) / c * wsum_R l) L ->
  Forall (fun x : R * list (R * R) * R * R => let '(sg, l, i, v) := x in Forall (fun y => snd y = 0) l -> i = v) L.
Proof. apply Forall_impl. intros [[[sg l] i] v] -> H. rewrite wsum_R_0 by auto. ring. Qed.

(** ** No quarks *)
Lemma vac_r0_R (s x f0 : R) : qcd_gluon_dressing_inv_landau 0 s x f0 = ym_gluon_dressing_inv_landau s f0.
Proof. inv_eqs. numcbn. ring. Qed.
Lemma vac_r0_C (s : C) x f0 : qcd_gluon_dressing_inv_landau 0 s x f0 = ym_gluon_dressing_inv_landau s f0.
Proof. inv_eqs. numcbn. ring. Qed.

Lemma vac_nf0_R nc m quarks (s f0 : R) : Forall (fun q : nat * R => fst q = 0%nat) quarks ->
  qcd_gluon_dressing_inv_landau_w_field_config s f0 (FieldConfig_new nc m quarks) = ym_gluon_dressing_inv_landau s f0.
Proof.
  intros H. inv_eqs. numcbn. generalize (gl_f s + f0). induction H as [|q l E _ IH]; intros x; [reflexivity|].
  unfold FieldConfig_new, qloops in *. cbn [fc_quarks_internal map fold_left] in *. numcbn_all. rewrite IH.
  unfold QuarkInternal_new; cbn [qi_nf_div_nc]. rewrite E. cbn [INR]. unfold Rdiv. ring.
Qed.
Lemma vac_nf0_C nc m quarks (s : C) f0 : Forall (fun q : nat * R => fst q = 0%nat) quarks ->
  qcd_gluon_dressing_inv_landau_w_field_config s f0 (FieldConfig_new nc m quarks) = ym_gluon_dressing_inv_landau s f0.
Proof.
  intros H. inv_eqs. numcbn. generalize (gl_f s + RtoC f0)%C. induction H as [|q l E _ IH]; intros x; [reflexivity|].
  unfold FieldConfig_new, qloops in *. cbn [fc_quarks_internal map fold_left] in *. numcbn_all. rewrite IH.
  unfold QuarkInternal_new; cbn [qi_nf_div_nc]. rewrite E. cbn [INR]. unfold Rdiv. rewrite Rmult_0_l. ring.
Qed.

Lemma wsum_nf0_C (F : R -> C) quarks : Forall (fun q : nat * R => fst q = 0%nat) quarks -> wsum_C (map (fun q => (INR (fst q), F (snd q))) quarks) = RtoC 0.
Proof. induction 1 as [|q l E _ IH]; [reflexivity|]. cbn [map]. rewrite wsum_C_cons, IH, E. cbn [fst snd INR]. ring. Qed.
Lemma wsum_nf0_R (F : R -> R) quarks : Forall (fun q : nat * R => fst q = 0%nat) quarks -> wsum_R (map (fun q => (INR (fst q), F (snd q))) quarks) = 0.
Proof. induction 1 as [|q l E _ IH]; [reflexivity|]. cbn [map]. rewrite wsum_R_cons, IH, E. cbn [fst snd INR]. ring. Qed.

Lemma nf0_gen_R_l J g (om : R) p m mq beta mu f0 : g_nf g = 0%nat -> g_nf_div_nc g = 0 ->
  qcd_gluon_dressing_l_inv J g om p m mq beta mu f0 = ym_gluon_dressing_l_inv J g om p m beta f0.
Proof. intros E1 E2. inv_unfold. unfold get_number_of_fermions, nf_div_nc. rewrite E1, E2, vac_r0_R. numcbn. cbn [INR]. f_equal. ring. Qed.
Lemma nf0_zt_gen_R_l J g (om : R) p m mq mu f0 : g_nf g = 0%nat -> g_nf_div_nc g = 0 ->
  qcd_gluon_dressing_l_inv_zero_temp J g om p m mq mu f0 = toC (ym_gluon_dressing_inv_landau ((om * om + ofR (p * p))%num / ofR (m * m))%num f0).
Proof. intros E1 E2. inv_unfold. unfold get_number_of_fermions, nf_div_nc. rewrite E1, E2, vac_r0_R. numcbn. cbn [INR]. unfold Rdiv. ring. Qed.
Lemma cfg0_gen_R_l J g (om : R) p nc m quarks beta mu f0 : Forall (fun q : nat * R => fst q = 0%nat) quarks ->
  qcd_gluon_dressing_l_inv_w_field_config J g om p beta mu f0 (FieldConfig_new nc m quarks) = ym_gluon_dressing_l_inv J g om p m beta f0.
Proof. intros H. inv_unfold. numcbn. rewrite (sum_quarks_wsum_C (fun mq => polarization_quark_l_thermal_part_landau J g om p mq beta mu)), (wsum_nf0_C (fun mq => polarization_quark_l_thermal_part_landau J g om p mq beta mu) _ H), vac_nf0_R by auto. rewrite fc_gluon_new. f_equal. ring. Qed.
Lemma cfg0_zt_gen_R_l J g (om : R) p nc m quarks mu f0 : Forall (fun q : nat * R => fst q = 0%nat) quarks ->
  qcd_gluon_dressing_l_inv_zero_temp_w_field_config J g om p mu f0 (FieldConfig_new nc m quarks) = toC (ym_gluon_dressing_inv_landau ((om * om + ofR (p * p))%num / ofR (m * m))%num f0).
Proof. intros H. inv_unfold. numcbn. rewrite (sum_quarks_wsum_C (fun mq => polarization_quark_l_thermal_part_zero_temp_landau J g om p mq mu)), (wsum_nf0_C (fun mq => polarization_quark_l_thermal_part_zero_temp_landau J g om p mq mu) _ H), vac_nf0_R by auto. rewrite fc_gluon_new. unfold Rdiv. ring. Qed.
Lemma nf0_gen_R_t J g (om : R) p m mq beta mu f0 : g_nf g = 0%nat -> g_nf_div_nc g = 0 ->
  qcd_gluon_dressing_t_inv J g om p m mq beta mu f0 = ym_gluon_dressing_t_inv J g om p m beta f0.
Proof. intros E1 E2. inv_unfold. unfold get_number_of_fermions, nf_div_nc. rewrite E1, E2, vac_r0_R. numcbn. cbn [INR]. f_equal. ring. Qed.
Lemma nf0_zt_gen_R_t J g (om : R) p m mq mu f0 : g_nf g = 0%nat -> g_nf_div_nc g = 0 ->
  qcd_gluon_dressing_t_inv_zero_temp J g om p m mq mu f0 = toC (ym_gluon_dressing_inv_landau ((om * om + ofR (p * p))%num / ofR (m * m))%num f0).
Proof. intros E1 E2. inv_unfold. unfold get_number_of_fermions, nf_div_nc. rewrite E1, E2, vac_r0_R. numcbn. cbn [INR]. unfold Rdiv. ring. Qed.
Lemma cfg0_gen_R_t J g (om : R) p nc m quarks beta mu f0 : Forall (fun q : nat * R => fst q = 0%nat) quarks ->
  qcd_gluon_dressing_t_inv_w_field_config J g om p beta mu f0 (FieldConfig_new nc m quarks) = ym_gluon_dressing_t_inv J g om p m beta f0.
Proof. intros H. inv_unfold. numcbn. rewrite (sum_quarks_wsum_C (fun mq => polarization_quark_t_thermal_part_landau J g om p mq beta mu)), (wsum_nf0_C (fun mq => polarization_quark_t_thermal_part_landau J g om p mq beta mu) _ H), vac_nf0_R by auto. rewrite fc_gluon_new. f_equal. ring. Qed.
Lemma cfg0_zt_gen_R_t J g (om : R) p nc m quarks mu f0 : Forall (fun q : nat * R => fst q = 0%nat) quarks ->
  qcd_gluon_dressing_t_inv_zero_temp_w_field_config J g om p mu f0 (FieldConfig_new nc m quarks) = toC (ym_gluon_dressing_inv_landau ((om * om + ofR (p * p))%num / ofR (m * m))%num f0).
Proof. intros H. inv_unfold. numcbn. rewrite (sum_quarks_wsum_C (fun mq => polarization_quark_t_thermal_part_zero_temp_landau J g om p mq mu)), (wsum_nf0_C (fun mq => polarization_quark_t_thermal_part_zero_temp_landau J g om p mq mu) _ H), vac_nf0_R by auto. rewrite fc_gluon_new. unfold Rdiv. ring. Qed.
Lemma nf0_gen_C_l J g (om : C) p m mq beta mu f0 : g_nf g = 0%nat -> g_nf_div_nc g = 0 ->
  qcd_gluon_dressing_l_inv J g om p m mq beta mu f0 = ym_gluon_dressing_l_inv J g om p m beta f0.
Proof. intros E1 E2. inv_unfold. unfold get_number_of_fermions, nf_div_nc. rewrite E1, E2, vac_r0_C. numcbn. cbn [INR]. f_equal. ring. Qed.
Lemma nf0_zt_gen_C_l J g (om : C) p m mq mu f0 : g_nf g = 0%nat -> g_nf_div_nc g = 0 ->
  qcd_gluon_dressing_l_inv_zero_temp J g om p m mq mu f0 = toC (ym_gluon_dressing_inv_landau ((om * om + ofR (p * p))%num / ofR (m * m))%num f0).
Proof. intros E1 E2. inv_unfold. unfold get_number_of_fermions, nf_div_nc. rewrite E1, E2, vac_r0_C. numcbn. cbn [INR]. unfold Rdiv. ring. Qed.
Lemma cfg0_gen_C_l J g (om : C) p nc m quarks beta mu f0 : Forall (fun q : nat * R => fst q = 0%nat) quarks ->
  qcd_gluon_dressing_l_inv_w_field_config J g om p beta mu f0 (FieldConfig_new nc m quarks) = ym_gluon_dressing_l_inv J g om p m beta f0.
Proof. intros H. inv_unfold. numcbn. rewrite (sum_quarks_wsum_C (fun mq => polarization_quark_l_thermal_part_landau J g om p mq beta mu)), (wsum_nf0_C (fun mq => polarization_quark_l_thermal_part_landau J g om p mq beta mu) _ H), vac_nf0_C by auto. rewrite fc_gluon_new. f_equal. ring. Qed.
Lemma cfg0_zt_gen_C_l J g (om : C) p nc m quarks mu f0 : Forall (fun q : nat * R => fst q = 0%nat) quarks ->
  qcd_gluon_dressing_l_inv_zero_temp_w_field_config J g om p mu f0 (FieldConfig_new nc m quarks) = toC (ym_gluon_dressing_inv_landau ((om * om + ofR (p * p))%num / ofR (m * m))%num f0).
Proof. intros H. inv_unfold. numcbn. rewrite (sum_quarks_wsum_C (fun mq => polarization_quark_l_thermal_part_zero_temp_landau J g om p mq mu)), (wsum_nf0_C (fun mq => polarization_quark_l_thermal_part_zero_temp_landau J g om p mq mu) _ H), vac_nf0_C by auto. rewrite fc_gluon_new. unfold Rdiv. ring. Qed.
Lemma nf0_gen_C_t J g (om : C) p m mq beta mu f0 : g_nf g = 0%nat -> g_nf_div_nc g = 0 ->
  qcd_gluon_dressing_t_inv J g om p m mq beta mu f0 = ym_gluon_dressing_t_inv J g om p m beta f0.
Proof. intros E1 E2. inv_unfold. unfold get_number_of_fermions, nf_div_nc. rewrite E1, E2, vac_r0_C. numcbn. cbn [INR]. f_equal. ring. Qed.
Lemma nf0_zt_gen_C_t J g (om : C) p m mq mu f0 : g_nf g = 0%nat -> g_nf_div_nc g = 0 ->
  qcd_gluon_dressing_t_inv_zero_temp J g om p m mq mu f0 = toC (ym_gluon_dressing_inv_landau ((om * om + ofR (p * p))%num / ofR (m * m))%num f0).
Proof. intros E1 E2. inv_unfold. unfold get_number_of_fermions, nf_div_nc. rewrite E1, E2, vac_r0_C. numcbn. cbn [INR]. unfold Rdiv. ring. Qed.
Lemma cfg0_gen_C_t J g (om : C) p nc m quarks beta mu f0 : Forall (fun q : nat * R => fst q = 0%nat) quarks ->
  qcd_gluon_dressing_t_inv_w_field_config J g om p beta mu f0 (FieldConfig_new nc m quarks) = ym_gluon_dressing_t_inv J g om p m beta f0.
Proof. intros H. inv_unfold. numcbn. rewrite (sum_quarks_wsum_C (fun mq => polarization_quark_t_thermal_part_landau J g om p mq beta mu)), (wsum_nf0_C (fun mq => polarization_quark_t_thermal_part_landau J g om p mq beta mu) _ H), vac_nf0_C by auto. rewrite fc_gluon_new. f_equal. ring. Qed.
Lemma cfg0_zt_gen_C_t J g (om : C) p nc m quarks mu f0 : Forall (fun q : nat * R => fst q = 0%nat) quarks ->
  qcd_gluon_dressing_t_inv_zero_temp_w_field_config J g om p mu f0 (FieldConfig_new nc m quarks) = toC (ym_gluon_dressing_inv_landau ((om * om + ofR (p * p))%num / ofR (m * m))%num f0).
Proof. intros H. inv_unfold. numcbn. rewrite (sum_quarks_wsum_C (fun mq => polarization_quark_t_thermal_part_zero_temp_landau J g om p mq mu)), (wsum_nf0_C (fun mq => polarization_quark_t_thermal_part_zero_temp_landau J g om p mq mu) _ H), vac_nf0_C by auto. rewrite fc_gluon_new. unfold Rdiv. ring. Qed.
Lemma nf0_zp_R_l J g (om : R) m mq beta mu f0 : g_nf g = 0%nat -> g_nf_div_nc g = 0 ->
  zp_qcd_gluon_dressing_l_inv J g om m mq beta mu f0 = zp_ym_gluon_dressing_l_inv J g om m beta f0.
Proof. intros E1 E2. inv_unfold. unfold get_number_of_fermions, nf_div_nc. rewrite E1, E2, vac_r0_R. numcbn. cbn [INR]. f_equal. ring. Qed.
Lemma nf0_zt_zp_R_l J g (om : R) m mq mu f0 : g_nf g = 0%nat -> g_nf_div_nc g = 0 ->
  zp_qcd_gluon_dressing_l_inv_zero_temp J g om m mq mu f0 = toC (ym_gluon_dressing_inv_landau ((om * om)%num / ofR (m * m))%num f0).
Proof. intros E1 E2. inv_unfold. unfold get_number_of_fermions, nf_div_nc. rewrite E1, E2, vac_r0_R. numcbn. cbn [INR]. unfold Rdiv. ring. Qed.
Lemma cfg0_zp_R_l J g (om : R) nc m quarks beta mu f0 : Forall (fun q : nat * R => fst q = 0%nat) quarks ->
  zp_qcd_gluon_dressing_l_inv_w_field_config J g om beta mu f0 (FieldConfig_new nc m quarks) = zp_ym_gluon_dressing_l_inv J g om m beta f0.
Proof. intros H. inv_unfold. numcbn. rewrite (sum_quarks_wsum_C (fun mq => zp_polarization_quark_l_thermal_part_landau J g om mq beta mu)), (wsum_nf0_C (fun mq => zp_polarization_quark_l_thermal_part_landau J g om mq beta mu) _ H), vac_nf0_R by auto. rewrite fc_gluon_new. f_equal. ring. Qed.
Lemma cfg0_zt_zp_R_l J g (om : R) nc m quarks mu f0 : Forall (fun q : nat * R => fst q = 0%nat) quarks ->
  zp_qcd_gluon_dressing_l_inv_zero_temp_w_field_config J g om mu f0 (FieldConfig_new nc m quarks) = toC (ym_gluon_dressing_inv_landau ((om * om)%num / ofR (m * m))%num f0).
Proof. intros H. inv_unfold. numcbn. rewrite (sum_quarks_wsum_C (fun mq => zp_polarization_quark_l_thermal_part_zero_temp_landau J g om mq mu)), (wsum_nf0_C (fun mq => zp_polarization_quark_l_thermal_part_zero_temp_landau J g om mq mu) _ H), vac_nf0_R by auto. rewrite fc_gluon_new. unfold Rdiv. ring. Qed.
Lemma nf0_zp_R_t J g (om : R) m mq beta mu f0 : g_nf g = 0%nat -> g_nf_div_nc g = 0 ->
  zp_qcd_gluon_dressing_t_inv J g om m mq beta mu f0 = zp_ym_gluon_dressing_t_inv J g om m beta f0.
Proof. intros E1 E2. inv_unfold. unfold get_number_of_fermions, nf_div_nc. rewrite E1, E2, vac_r0_R. change (zp_polarization_glue_t_thermal_part_landau J g om m beta) with (zp_polarization_glue_l_thermal_part_landau J g om m beta). numcbn. cbn [INR]. f_equal. ring. Qed.
Lemma nf0_zt_zp_R_t J g (om : R) m mq mu f0 : g_nf g = 0%nat -> g_nf_div_nc g = 0 ->
  zp_qcd_gluon_dressing_t_inv_zero_temp J g om m mq mu f0 = toC (ym_gluon_dressing_inv_landau ((om * om)%num / ofR (m * m))%num f0).
Proof. intros E1 E2. inv_unfold. unfold get_number_of_fermions, nf_div_nc. rewrite E1, E2, vac_r0_R. numcbn. cbn [INR]. unfold Rdiv. ring. Qed.
Lemma cfg0_zp_R_t J g (om : R) nc m quarks beta mu f0 : Forall (fun q : nat * R => fst q = 0%nat) quarks ->
  zp_qcd_gluon_dressing_t_inv_w_field_config J g om beta mu f0 (FieldConfig_new nc m quarks) = zp_ym_gluon_dressing_t_inv J g om m beta f0.
Proof. intros H. inv_unfold. numcbn. rewrite (sum_quarks_wsum_C (fun mq => zp_polarization_quark_t_thermal_part_landau J g om mq beta mu)), (wsum_nf0_C (fun mq => zp_polarization_quark_t_thermal_part_landau J g om mq beta mu) _ H), vac_nf0_R by auto. rewrite fc_gluon_new. change (zp_polarization_glue_t_thermal_part_landau J g om m beta) with (zp_polarization_glue_l_thermal_part_landau J g om m beta). f_equal. ring. Qed.
Lemma cfg0_zt_zp_R_t J g (om : R) nc m quarks mu f0 : Forall (fun q : nat * R => fst q = 0%nat) quarks ->
  zp_qcd_gluon_dressing_t_inv_zero_temp_w_field_config J g om mu f0 (FieldConfig_new nc m quarks) = toC (ym_gluon_dressing_inv_landau ((om * om)%num / ofR (m * m))%num f0).
Proof. intros H. inv_unfold. numcbn. rewrite (sum_quarks_wsum_C (fun mq => zp_polarization_quark_t_thermal_part_zero_temp_landau J g om mq mu)), (wsum_nf0_C (fun mq => zp_polarization_quark_t_thermal_part_zero_temp_landau J g om mq mu) _ H), vac_nf0_R by auto. rewrite fc_gluon_new. unfold Rdiv. ring. Qed.
Lemma nf0_zp_C_l J g (om : C) m mq beta mu f0 : g_nf g = 0%nat -> g_nf_div_nc g = 0 ->
  zp_qcd_gluon_dressing_l_inv J g om m mq beta mu f0 = zp_ym_gluon_dressing_l_inv J g om m beta f0.
Proof. intros E1 E2. inv_unfold. unfold get_number_of_fermions, nf_div_nc. rewrite E1, E2, vac_r0_C. numcbn. cbn [INR]. f_equal. ring. Qed.
Lemma nf0_zt_zp_C_l J g (om : C) m mq mu f0 : g_nf g = 0%nat -> g_nf_div_nc g = 0 ->
  zp_qcd_gluon_dressing_l_inv_zero_temp J g om m mq mu f0 = toC (ym_gluon_dressing_inv_landau ((om * om)%num / ofR (m * m))%num f0).
Proof. intros E1 E2. inv_unfold. unfold get_number_of_fermions, nf_div_nc. rewrite E1, E2, vac_r0_C. numcbn. cbn [INR]. unfold Rdiv. ring. Qed.
Lemma cfg0_zp_C_l J g (om : C) nc m quarks beta mu f0 : Forall (fun q : nat * R => fst q = 0%nat) quarks ->
  zp_qcd_gluon_dressing_l_inv_w_field_config J g om beta mu f0 (FieldConfig_new nc m quarks) = zp_ym_gluon_dressing_l_inv J g om m beta f0.
Proof. intros H. inv_unfold. numcbn. rewrite (sum_quarks_wsum_C (fun mq => zp_polarization_quark_l_thermal_part_landau J g om mq beta mu)), (wsum_nf0_C (fun mq => zp_polarization_quark_l_thermal_part_landau J g om mq beta mu) _ H), vac_nf0_C by auto. rewrite fc_gluon_new. f_equal. ring. Qed.
Lemma cfg0_zt_zp_C_l J g (om : C) nc m quarks mu f0 : Forall (fun q : nat * R => fst q = 0%nat) quarks ->
  zp_qcd_gluon_dressing_l_inv_zero_temp_w_field_config J g om mu f0 (FieldConfig_new nc m quarks) = toC (ym_gluon_dressing_inv_landau ((om * om)%num / ofR (m * m))%num f0).
Proof. intros H. inv_unfold. numcbn. rewrite (sum_quarks_wsum_C (fun mq => zp_polarization_quark_l_thermal_part_zero_temp_landau J g om mq mu)), (wsum_nf0_C (fun mq => zp_polarization_quark_l_thermal_part_zero_temp_landau J g om mq mu) _ H), vac_nf0_C by auto. rewrite fc_gluon_new. unfold Rdiv. ring. Qed.
Lemma nf0_zp_C_t J g (om : C) m mq beta mu f0 : g_nf g = 0%nat -> g_nf_div_nc g = 0 ->
  zp_qcd_gluon_dressing_t_inv J g om m mq beta mu f0 = zp_ym_gluon_dressing_t_inv J g om m beta f0.
Proof. intros E1 E2. inv_unfold. unfold get_number_of_fermions, nf_div_nc. rewrite E1, E2, vac_r0_C. change (zp_polarization_glue_t_thermal_part_landau J g om m beta) with (zp_polarization_glue_l_thermal_part_landau J g om m beta). numcbn. cbn [INR]. f_equal. ring. Qed.
Lemma nf0_zt_zp_C_t J g (om : C) m mq mu f0 : g_nf g = 0%nat -> g_nf_div_nc g = 0 ->
  zp_qcd_gluon_dressing_t_inv_zero_temp J g om m mq mu f0 = toC (ym_gluon_dressing_inv_landau ((om * om)%num / ofR (m * m))%num f0).
Proof. intros E1 E2. inv_unfold. unfold get_number_of_fermions, nf_div_nc. rewrite E1, E2, vac_r0_C. numcbn. cbn [INR]. unfold Rdiv. ring. Qed.
Lemma cfg0_zp_C_t J g (om : C) nc m quarks beta mu f0 : Forall (fun q : nat * R => fst q = 0%nat) quarks ->
  zp_qcd_gluon_dressing_t_inv_w_field_config J g om beta mu f0 (FieldConfig_new nc m quarks) = zp_ym_gluon_dressing_t_inv J g om m beta f0.
Proof. intros H. inv_unfold. numcbn. rewrite (sum_quarks_wsum_C (fun mq => zp_polarization_quark_t_thermal_part_landau J g om mq beta mu)), (wsum_nf0_C (fun mq => zp_polarization_quark_t_thermal_part_landau J g om mq beta mu) _ H), vac_nf0_C by auto. rewrite fc_gluon_new. change (zp_polarization_glue_t_thermal_part_landau J g om m beta) with (zp_polarization_glue_l_thermal_part_landau J g om m beta). f_equal. ring. Qed.
Lemma cfg0_zt_zp_C_t J g (om : C) nc m quarks mu f0 : Forall (fun q : nat * R => fst q = 0%nat) quarks ->
  zp_qcd_gluon_dressing_t_inv_zero_temp_w_field_config J g om mu f0 (FieldConfig_new nc m quarks) = toC (ym_gluon_dressing_inv_landau ((om * om)%num / ofR (m * m))%num f0).
Proof. intros H. inv_unfold. numcbn. rewrite (sum_quarks_wsum_C (fun mq => zp_polarization_quark_t_thermal_part_zero_temp_landau J g om mq mu)), (wsum_nf0_C (fun mq => zp_polarization_quark_t_thermal_part_zero_temp_landau J g om mq mu) _ H), vac_nf0_C by auto. rewrite fc_gluon_new. unfold Rdiv. ring. Qed.
Lemma nf0_zm_R_l J g p m mq beta mu f0 : g_nf g = 0%nat -> g_nf_div_nc g = 0 ->
  zm_qcd_gluon_dressing_l_inv J g p m mq beta mu f0 = zm_ym_gluon_dressing_l_inv J g p m beta f0.
Proof. intros E1 E2. inv_unfold. unfold get_number_of_fermions, nf_div_nc. rewrite E1, E2, vac_r0_R. numcbn. cbn [INR]. unfold Rdiv. ring. Qed.
Lemma nf0_zt_zm_R_l J g p m mq mu f0 : g_nf g = 0%nat -> g_nf_div_nc g = 0 ->
  zm_qcd_gluon_dressing_l_inv_zero_temp J g p m mq mu f0 = ym_gluon_dressing_inv_landau ((p * p) / ofR (m * m))%num f0.
Proof. intros E1 E2. inv_unfold. unfold get_number_of_fermions, nf_div_nc. rewrite E1, E2, vac_r0_R. numcbn. cbn [INR]. unfold Rdiv. ring. Qed.
Lemma cfg0_zm_R_l J g p nc m quarks beta mu f0 : Forall (fun q : nat * R => fst q = 0%nat) quarks ->
  zm_qcd_gluon_dressing_l_inv_w_field_config J g p beta mu f0 (FieldConfig_new nc m quarks) = zm_ym_gluon_dressing_l_inv J g p m beta f0.
Proof. intros H. inv_unfold. numcbn. rewrite (sum_quarks_wsum_R (fun mq => zm_polarization_quark_l_thermal_part_landau J g p mq beta mu)), (wsum_nf0_R (fun mq => zm_polarization_quark_l_thermal_part_landau J g p mq beta mu) _ H), vac_nf0_R by auto. rewrite fc_gluon_new. unfold Rdiv. ring. Qed.
Lemma cfg0_zt_zm_R_l J g p nc m quarks mu f0 : Forall (fun q : nat * R => fst q = 0%nat) quarks ->
  zm_qcd_gluon_dressing_l_inv_zero_temp_w_field_config J g p mu f0 (FieldConfig_new nc m quarks) = ym_gluon_dressing_inv_landau ((p * p) / ofR (m * m))%num f0.
Proof. intros H. inv_unfold. numcbn. rewrite (sum_quarks_wsum_R (fun mq => zm_polarization_quark_l_thermal_part_zero_temp_landau J g p mq mu)), (wsum_nf0_R (fun mq => zm_polarization_quark_l_thermal_part_zero_temp_landau J g p mq mu) _ H), vac_nf0_R by auto. rewrite fc_gluon_new. unfold Rdiv. ring. Qed.
Lemma nf0_zm_R_t J g p m mq beta mu f0 : g_nf g = 0%nat -> g_nf_div_nc g = 0 ->
  zm_qcd_gluon_dressing_t_inv J g p m mq beta mu f0 = zm_ym_gluon_dressing_t_inv J g p m beta f0.
Proof. intros E1 E2. inv_unfold. unfold get_number_of_fermions, nf_div_nc. rewrite E1, E2, vac_r0_R. numcbn. cbn [INR]. unfold Rdiv. ring. Qed.
Lemma nf0_zt_zm_R_t J g p m mq mu f0 : g_nf g = 0%nat -> g_nf_div_nc g = 0 ->
  zm_qcd_gluon_dressing_t_inv_zero_temp J g p m mq mu f0 = ym_gluon_dressing_inv_landau ((p * p) / ofR (m * m))%num f0.
Proof. intros E1 E2. inv_unfold. unfold get_number_of_fermions, nf_div_nc. rewrite E1, E2, vac_r0_R. numcbn. cbn [INR]. unfold Rdiv. ring. Qed.
Lemma cfg0_zm_R_t J g p nc m quarks beta mu f0 : Forall (fun q : nat * R => fst q = 0%nat) quarks ->
  zm_qcd_gluon_dressing_t_inv_w_field_config J g p beta mu f0 (FieldConfig_new nc m quarks) = zm_ym_gluon_dressing_t_inv J g p m beta f0.
Proof. intros H. inv_unfold. numcbn. rewrite (sum_quarks_wsum_R (fun mq => zm_polarization_quark_t_thermal_part_landau J g p mq beta mu)), (wsum_nf0_R (fun mq => zm_polarization_quark_t_thermal_part_landau J g p mq beta mu) _ H), vac_nf0_R by auto. rewrite fc_gluon_new. unfold Rdiv. ring. Qed.
Lemma cfg0_zt_zm_R_t J g p nc m quarks mu f0 : Forall (fun q : nat * R => fst q = 0%nat) quarks ->
  zm_qcd_gluon_dressing_t_inv_zero_temp_w_field_config J g p mu f0 (FieldConfig_new nc m quarks) = ym_gluon_dressing_inv_landau ((p * p) / ofR (m * m))%num f0.
Proof. intros H. inv_unfold. numcbn. rewrite (sum_quarks_wsum_R (fun mq => zm_polarization_quark_t_thermal_part_zero_temp_landau J g p mq mu)), (wsum_nf0_R (fun mq => zm_polarization_quark_t_thermal_part_zero_temp_landau J g p mq mu) _ H), vac_nf0_R by auto. rewrite fc_gluon_new. unfold Rdiv. ring. Qed.
