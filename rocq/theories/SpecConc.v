(** * Vocabulary for evaluation under interference *)
From Coq Require Import Reals List.
From Coquelicot Require Import Coquelicot.
From Verif Require Import Num MCommon MConsts MVacuum MDress MConc.
Import List ListNotations.
Open Scope R_scope.

(** The thermal field-configuration functions: (program, sequential function of the globals). *)
Definition conc_cfg_C {T : Type} {N : Num T} (Q : Routine) (om : T) (p beta mu f0 : R) (config : FieldConfig) : list (conc C * (globals R -> C)) :=
  [ (c_qcd_gluon_dressing_l_inv_w_field_config Q om p beta mu f0 config, fun g => qcd_gluon_dressing_l_inv_w_field_config (J_of Q) g om p beta mu f0 config);
    (c_qcd_gluon_dressing_l_w_field_config Q om p beta mu f0 config, fun g => qcd_gluon_dressing_l_w_field_config (J_of Q) g om p beta mu f0 config);
    (c_qcd_gluon_propagator_l_w_field_config Q om p beta mu f0 config, fun g => qcd_gluon_propagator_l_w_field_config (J_of Q) g om p beta mu f0 config);
    (c_qcd_gluon_dressing_t_inv_w_field_config Q om p beta mu f0 config, fun g => qcd_gluon_dressing_t_inv_w_field_config (J_of Q) g om p beta mu f0 config);
    (c_qcd_gluon_dressing_t_w_field_config Q om p beta mu f0 config, fun g => qcd_gluon_dressing_t_w_field_config (J_of Q) g om p beta mu f0 config);
    (c_qcd_gluon_propagator_t_w_field_config Q om p beta mu f0 config, fun g => qcd_gluon_propagator_t_w_field_config (J_of Q) g om p beta mu f0 config);
    (c_qcd_gluon_dressing_l_inv_zero_temp_w_field_config Q om p mu f0 config, fun g => qcd_gluon_dressing_l_inv_zero_temp_w_field_config (J_of Q) g om p mu f0 config);
    (c_qcd_gluon_dressing_l_zero_temp_w_field_config Q om p mu f0 config, fun g => qcd_gluon_dressing_l_zero_temp_w_field_config (J_of Q) g om p mu f0 config);
    (c_qcd_gluon_propagator_l_zero_temp_w_field_config Q om p mu f0 config, fun g => qcd_gluon_propagator_l_zero_temp_w_field_config (J_of Q) g om p mu f0 config);
    (c_qcd_gluon_dressing_t_inv_zero_temp_w_field_config Q om p mu f0 config, fun g => qcd_gluon_dressing_t_inv_zero_temp_w_field_config (J_of Q) g om p mu f0 config);
    (c_qcd_gluon_dressing_t_zero_temp_w_field_config Q om p mu f0 config, fun g => qcd_gluon_dressing_t_zero_temp_w_field_config (J_of Q) g om p mu f0 config);
    (c_qcd_gluon_propagator_t_zero_temp_w_field_config Q om p mu f0 config, fun g => qcd_gluon_propagator_t_zero_temp_w_field_config (J_of Q) g om p mu f0 config);
    (c_zp_qcd_gluon_dressing_l_inv_w_field_config Q om beta mu f0 config, fun g => zp_qcd_gluon_dressing_l_inv_w_field_config (J_of Q) g om beta mu f0 config);
    (c_zp_qcd_gluon_dressing_l_w_field_config Q om beta mu f0 config, fun g => zp_qcd_gluon_dressing_l_w_field_config (J_of Q) g om beta mu f0 config);
    (c_zp_qcd_gluon_propagator_l_w_field_config Q om beta mu f0 config, fun g => zp_qcd_gluon_propagator_l_w_field_config (J_of Q) g om beta mu f0 config);
    (c_zp_qcd_gluon_dressing_t_inv_w_field_config Q om beta mu f0 config, fun g => zp_qcd_gluon_dressing_t_inv_w_field_config (J_of Q) g om beta mu f0 config);
    (c_zp_qcd_gluon_dressing_t_w_field_config Q om beta mu f0 config, fun g => zp_qcd_gluon_dressing_t_w_field_config (J_of Q) g om beta mu f0 config);
    (c_zp_qcd_gluon_propagator_t_w_field_config Q om beta mu f0 config, fun g => zp_qcd_gluon_propagator_t_w_field_config (J_of Q) g om beta mu f0 config);
    (c_zp_qcd_gluon_dressing_l_inv_zero_temp_w_field_config Q om mu f0 config, fun g => zp_qcd_gluon_dressing_l_inv_zero_temp_w_field_config (J_of Q) g om mu f0 config);
    (c_zp_qcd_gluon_dressing_l_zero_temp_w_field_config Q om mu f0 config, fun g => zp_qcd_gluon_dressing_l_zero_temp_w_field_config (J_of Q) g om mu f0 config);
    (c_zp_qcd_gluon_propagator_l_zero_temp_w_field_config Q om mu f0 config, fun g => zp_qcd_gluon_propagator_l_zero_temp_w_field_config (J_of Q) g om mu f0 config);
    (c_zp_qcd_gluon_dressing_t_inv_zero_temp_w_field_config Q om mu f0 config, fun g => zp_qcd_gluon_dressing_t_inv_zero_temp_w_field_config (J_of Q) g om mu f0 config);
    (c_zp_qcd_gluon_dressing_t_zero_temp_w_field_config Q om mu f0 config, fun g => zp_qcd_gluon_dressing_t_zero_temp_w_field_config (J_of Q) g om mu f0 config);
    (c_zp_qcd_gluon_propagator_t_zero_temp_w_field_config Q om mu f0 config, fun g => zp_qcd_gluon_propagator_t_zero_temp_w_field_config (J_of Q) g om mu f0 config) ].
Definition conc_cfg_R (Q : Routine) (p beta mu f0 : R) (config : FieldConfig) : list (conc R * (globals R -> R)) :=
  [ (c_zm_qcd_gluon_dressing_l_inv_w_field_config Q p beta mu f0 config, fun g => zm_qcd_gluon_dressing_l_inv_w_field_config (J_of Q) g p beta mu f0 config);
    (c_zm_qcd_gluon_dressing_l_w_field_config Q p beta mu f0 config, fun g => zm_qcd_gluon_dressing_l_w_field_config (J_of Q) g p beta mu f0 config);
    (c_zm_qcd_gluon_propagator_l_w_field_config Q p beta mu f0 config, fun g => zm_qcd_gluon_propagator_l_w_field_config (J_of Q) g p beta mu f0 config);
    (c_zm_qcd_gluon_dressing_t_inv_w_field_config Q p beta mu f0 config, fun g => zm_qcd_gluon_dressing_t_inv_w_field_config (J_of Q) g p beta mu f0 config);
    (c_zm_qcd_gluon_dressing_t_w_field_config Q p beta mu f0 config, fun g => zm_qcd_gluon_dressing_t_w_field_config (J_of Q) g p beta mu f0 config);
    (c_zm_qcd_gluon_propagator_t_w_field_config Q p beta mu f0 config, fun g => zm_qcd_gluon_propagator_t_w_field_config (J_of Q) g p beta mu f0 config);
    (c_zm_qcd_gluon_dressing_l_inv_zero_temp_w_field_config Q p mu f0 config, fun g => zm_qcd_gluon_dressing_l_inv_zero_temp_w_field_config (J_of Q) g p mu f0 config);
    (c_zm_qcd_gluon_dressing_l_zero_temp_w_field_config Q p mu f0 config, fun g => zm_qcd_gluon_dressing_l_zero_temp_w_field_config (J_of Q) g p mu f0 config);
    (c_zm_qcd_gluon_propagator_l_zero_temp_w_field_config Q p mu f0 config, fun g => zm_qcd_gluon_propagator_l_zero_temp_w_field_config (J_of Q) g p mu f0 config);
    (c_zm_qcd_gluon_dressing_t_inv_zero_temp_w_field_config Q p mu f0 config, fun g => zm_qcd_gluon_dressing_t_inv_zero_temp_w_field_config (J_of Q) g p mu f0 config);
    (c_zm_qcd_gluon_dressing_t_zero_temp_w_field_config Q p mu f0 config, fun g => zm_qcd_gluon_dressing_t_zero_temp_w_field_config (J_of Q) g p mu f0 config);
    (c_zm_qcd_gluon_propagator_t_zero_temp_w_field_config Q p mu f0 config, fun g => zm_qcd_gluon_propagator_t_zero_temp_w_field_config (J_of Q) g p mu f0 config) ].

(** Two memories that agree on everything a configuration function may read. *)
Definition same_but_nc (g g' : globals R) : Prop :=
  g_tol_integral g = g_tol_integral g' /\ g_max_iter_integral g = g_max_iter_integral g' /\ g_matsubara_reg g = g_matsubara_reg g'.

(** A fixed quadrature rule with relative weights and nodes. *)
Fixpoint rule_quad (a b : R) (l : list (R * R)) (acc : C) : quad C :=
  match l with
  | [] => QDone acc
  | (w, th) :: l' => QEval (a + (b - a) * th) (fun v => rule_quad a b l' (acc + RtoC (w * (b - a)) * v)%C)
  end.
Definition rule_routine (l : list (R * R)) : Routine :=
  {| routC := fun a b _ => rule_quad a b l (RtoC 0); routR := fun _ _ _ => QDone 0 |}.
