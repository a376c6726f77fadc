(** * Evaluation while other threads change the settings
    (consts.rs 3-24 module warning; qcd/thermal.rs [*_w_field_config])

    [conc A] is a program that performs loads of the global variables. A schedule
    [s : nat -> globals R] gives the memory seen by the k-th load; it is
    arbitrary, so it covers every interleaving with any number of setter threads.
    Simplification: memory is sequentially consistent and a load is atomic (in Rust
    a data race on [static mut] is undefined behaviour).

    An integration routine is a decision tree [quad]: it asks for the value of the
    integrand at a point and continues depending on the answer, so it may be
    adaptive and nonlinear. Each evaluation of the integrand loads NC anew. *)
From Coq Require Import Reals List Arith.
From Coquelicot Require Import Coquelicot.
From Verif Require Import Num MCommon MConsts MVacuum MThermal MThermalZM MThermalZP MPolar MDress.
Import List ListNotations.
Open Scope R_scope.
Open Scope num_scope.

Definition conc (A : Type) : Type := (nat -> globals R) -> nat -> A * nat.
Definition ret {A} (a : A) : conc A := fun _ n => (a, n).
Definition bind {A B} (c : conc A) (f : A -> conc B) : conc B := fun s n => let (a, n1) := c s n in f a s n1.
Definition load {A} (f : globals R -> A) : conc A := fun s n => (f (s n), S n).

(** Integration routines as decision trees, and the two ways to run one. *)
Inductive quad (V : Type) : Type := QDone (v : V) | QEval (x : R) (k : V -> quad V).
Arguments QDone {V}.
Arguments QEval {V}.
Fixpoint run_quad {V} (f : R -> V) (t : quad V) : V :=
  match t with QDone v => v | QEval x k => run_quad f (k (f x)) end.
Fixpoint run_quad_conc {V} (f : R -> conc V) (t : quad V) : conc V :=
  match t with QDone v => ret v | QEval x k => bind (f x) (fun v => run_quad_conc f (k v)) end.
Record Routine := {
  routC : R -> R -> Integral R -> quad C;
  routR : R -> R -> Integral R -> quad R
}.
Definition J_of (Q : Routine) : Integrator := {|
  integrateC := fun f a b I => run_quad f (routC Q a b I);
  integrateR := fun f a b I => run_quad f (routR Q a b I) |}.

(* consts.rs 156-158: two loads *)
Definition c_default_method : conc (Integral R) :=
  bind (load g_tol_integral) (fun ti => bind (load g_max_iter_integral) (fun mi => ret (G7K15 ti mi))).

(* thermal/gluon.rs 766-772: the tolerance is loaded again, and the number of
   iterations only if the two tolerances agree *)
Definition c_zm_default_method : conc (Integral R) :=
  bind c_default_method (fun integral => bind (load g_tol_integral) (fun dti =>
  match integral with
  | G7K15 ti mi =>
      if f_eqb OpsR ti dti
      then bind (load g_max_iter_integral) (fun mi' => ret (if Nat.eqb mi mi' then G7K15 (f_lit_1em8 OpsR) mi else integral))
      else ret integral
  | OtherMethod _ _ _ => ret integral
  end)).

(** [iter().map(..).sum()] *)
Definition c_sum_quarks {T : Type} {N : Num T} (f : QuarkInternal -> conc T) (l : list QuarkInternal) : conc T :=
  fold_left (fun acc qi => bind acc (fun a => bind (f qi) (fun x => ret (a + x)))) l (ret (ofR 0)).

(* qcd/gluon.rs 355-365: everything is taken from the configuration; nothing is loaded,
   neither before the loop over the quarks nor in its body *)
Definition c_qcd_gluon_dressing_inv_landau_w_field_config {T : Type} {N : Num T} (s : T) (f0 : R) (config : FieldConfig) : conc T :=
  let s_pl_1 := s + ofR 1 in
  let ln_s := nln s in
  let ln_s_pl_1 := nln s_pl_1 in
  fold_left (fun acc qi => bind acc (fun res => bind (ret (gl_f_q (s / ofR (qi_mq_div_m_2 qi)) * ofR (qi_nf_div_nc qi))) (fun x => ret (res + x))))
    (fc_quarks_internal config) (ret (gl_ym_dressing_inv_landau_sep s ln_s ln_s_pl_1 f0)).


(** ** Thermal parts *)

(* thermal/gluon.rs 195-208 *)
Definition c_polarization_glue_l_thermal_part_landau {T : Type} {N : Num T} (Q : Routine) (om : T) (p : R) (m beta : R) : conc C :=
  bind c_default_method (fun integral => run_quad_conc (fun t => ret (polarization_glue_l_thermal_part_landau_i ((1 - t) / t) om p m beta / toC (t * t))) (routC Q 0 1 integral)).

(* thermal/gluon.rs 220-235 *)
Definition c_polarization_quark_l_thermal_part_landau {T : Type} {N : Num T} (Q : Routine) (om : T) (p : R) (mq beta mu : R) : conc C :=
  bind c_default_method (fun integral => run_quad_conc (fun t => bind (load g_nc) (fun nc => ret (polarization_quark_l_thermal_part_landau_i nc ((1 - t) / t) om p mq beta mu / toC (t * t)))) (routC Q 0 1 integral)).

(* thermal/gluon.rs 254-267 *)
Definition c_polarization_quark_l_thermal_part_zero_temp_landau {T : Type} {N : Num T} (Q : Routine) (om : T) (p : R) (mq mu : R) : conc C :=
  bind c_default_method (fun integral => if Rlt_dec (Rabs mu) (Rabs mq) then ret (RtoC 0)
  else run_quad_conc (fun q => bind (load g_nc) (fun nc => ret (polarization_quark_l_thermal_part_zero_temp_landau_i nc q om p mq mu))) (routC Q 0 (fermi_momentum mq mu) integral)).

(* thermal/gluon.rs 210-218 *)
Definition c_polarization_glue_t_thermal_part_landau {T : Type} {N : Num T} (Q : Routine) (om : T) (p : R) (m beta : R) : conc C :=
  bind c_default_method (fun integral => run_quad_conc (fun t => ret (polarization_glue_t_thermal_part_landau_i ((1 - t) / t) om p m beta / toC (t * t))) (routC Q 0 1 integral)).

(* thermal/gluon.rs 237-252 *)
Definition c_polarization_quark_t_thermal_part_landau {T : Type} {N : Num T} (Q : Routine) (om : T) (p : R) (mq beta mu : R) : conc C :=
  bind c_default_method (fun integral => run_quad_conc (fun t => bind (load g_nc) (fun nc => ret (polarization_quark_t_thermal_part_landau_i nc ((1 - t) / t) om p mq beta mu / toC (t * t)))) (routC Q 0 1 integral)).

(* thermal/gluon.rs 269-282 *)
Definition c_polarization_quark_t_thermal_part_zero_temp_landau {T : Type} {N : Num T} (Q : Routine) (om : T) (p : R) (mq mu : R) : conc C :=
  bind c_default_method (fun integral => if Rlt_dec (Rabs mu) (Rabs mq) then ret (RtoC 0)
  else run_quad_conc (fun q => bind (load g_nc) (fun nc => ret (polarization_quark_t_thermal_part_zero_temp_landau_i nc q om p mq mu))) (routC Q 0 (fermi_momentum mq mu) integral)).

(* thermal/gluon.rs 766-775 *)
Definition c_zm_polarization_glue_l_thermal_part_landau (Q : Routine) (p : R) (m beta : R) : conc R :=
  bind c_zm_default_method (fun integral => run_quad_conc (fun t => bind (load g_matsubara_reg) (fun reg => ret (nre (polarization_glue_l_thermal_part_landau_i ((1 - t) / t) reg p m beta) / (t * t))%R)) (routR Q 0 1 integral)).

(* thermal/gluon.rs 788-797 *)
Definition c_zm_polarization_quark_l_thermal_part_landau (Q : Routine) (p : R) (mq beta mu : R) : conc R :=
  bind c_zm_default_method (fun integral => run_quad_conc (fun t => bind (load g_matsubara_reg) (fun reg => bind (load g_nc) (fun nc => ret (nre (polarization_quark_l_thermal_part_landau_i nc ((1 - t) / t) reg p mq beta mu) / (t * t))%R))) (routR Q 0 1 integral)).

(* thermal/gluon.rs 810-819 *)
Definition c_zm_polarization_quark_l_thermal_part_zero_temp_landau (Q : Routine) (p : R) (mq mu : R) : conc R :=
  bind c_zm_default_method (fun integral => if Rlt_dec (Rabs mu) (Rabs mq) then ret 0
  else run_quad_conc (fun q => bind (load g_matsubara_reg) (fun reg => bind (load g_nc) (fun nc => ret (nre (polarization_quark_l_thermal_part_zero_temp_landau_i nc q reg p mq mu))))) (routR Q 0 (fermi_momentum mq mu) integral)).

(* thermal/gluon.rs 777-786 *)
Definition c_zm_polarization_glue_t_thermal_part_landau (Q : Routine) (p : R) (m beta : R) : conc R :=
  bind c_zm_default_method (fun integral => run_quad_conc (fun t => bind (load g_matsubara_reg) (fun reg => ret (nre (polarization_glue_t_thermal_part_landau_i ((1 - t) / t) reg p m beta) / (t * t))%R)) (routR Q 0 1 integral)).

(* thermal/gluon.rs 799-808 *)
Definition c_zm_polarization_quark_t_thermal_part_landau (Q : Routine) (p : R) (mq beta mu : R) : conc R :=
  bind c_zm_default_method (fun integral => run_quad_conc (fun t => bind (load g_matsubara_reg) (fun reg => bind (load g_nc) (fun nc => ret (nre (polarization_quark_t_thermal_part_landau_i nc ((1 - t) / t) reg p mq beta mu) / (t * t))%R))) (routR Q 0 1 integral)).

(* thermal/gluon.rs 821-830 *)
Definition c_zm_polarization_quark_t_thermal_part_zero_temp_landau (Q : Routine) (p : R) (mq mu : R) : conc R :=
  bind c_zm_default_method (fun integral => if Rlt_dec (Rabs mu) (Rabs mq) then ret 0
  else run_quad_conc (fun q => bind (load g_matsubara_reg) (fun reg => bind (load g_nc) (fun nc => ret (nre (polarization_quark_t_thermal_part_zero_temp_landau_i nc q reg p mq mu))))) (routR Q 0 (fermi_momentum mq mu) integral)).

(* thermal/gluon.rs 1195-1202 *)
Definition c_zp_polarization_glue_l_thermal_part_landau {T : Type} {N : Num T} (Q : Routine) (om : T) (m beta : R) : conc C :=
  bind c_default_method (fun integral => run_quad_conc (fun t => ret (zp_polarization_glue_l_thermal_part_landau_i ((1 - t) / t) om m beta / toC (t * t))) (routC Q 0 1 integral)).

(* thermal/gluon.rs 1213-1221 *)
Definition c_zp_polarization_quark_l_thermal_part_landau {T : Type} {N : Num T} (Q : Routine) (om : T) (mq beta mu : R) : conc C :=
  bind c_default_method (fun integral => run_quad_conc (fun t => bind (load g_nc) (fun nc => ret (toC (zp_polarization_quark_l_thermal_part_landau_i nc ((1 - t) / t) om mq beta mu) / toC (t * t)))) (routC Q 0 1 integral)).

(* thermal/gluon.rs 1233-1244 *)
Definition c_zp_polarization_quark_l_thermal_part_zero_temp_landau {T : Type} {N : Num T} (Q : Routine) (om : T) (mq mu : R) : conc C :=
  bind c_default_method (fun integral => if Rlt_dec (Rabs mu) (Rabs mq) then ret (RtoC 0)
  else run_quad_conc (fun q => bind (load g_nc) (fun nc => ret (toC (zp_polarization_quark_l_thermal_part_zero_temp_landau_i nc q om mq mu)))) (routC Q 0 (fermi_momentum mq mu) integral)).

(* thermal/gluon.rs 1204-1211 *)
Definition c_zp_polarization_glue_t_thermal_part_landau {T : Type} {N : Num T} (Q : Routine) (om : T) (m beta : R) : conc C :=
  bind c_default_method (fun integral => run_quad_conc (fun t => ret (zp_polarization_glue_t_thermal_part_landau_i ((1 - t) / t) om m beta / toC (t * t))) (routC Q 0 1 integral)).

(* thermal/gluon.rs 1223-1231 *)
Definition c_zp_polarization_quark_t_thermal_part_landau {T : Type} {N : Num T} (Q : Routine) (om : T) (mq beta mu : R) : conc C :=
  bind c_default_method (fun integral => run_quad_conc (fun t => bind (load g_nc) (fun nc => ret (toC (zp_polarization_quark_t_thermal_part_landau_i nc ((1 - t) / t) om mq beta mu) / toC (t * t)))) (routC Q 0 1 integral)).

(* thermal/gluon.rs 1246-1257 *)
Definition c_zp_polarization_quark_t_thermal_part_zero_temp_landau {T : Type} {N : Num T} (Q : Routine) (om : T) (mq mu : R) : conc C :=
  bind c_default_method (fun integral => if Rlt_dec (Rabs mu) (Rabs mq) then ret (RtoC 0)
  else run_quad_conc (fun q => bind (load g_nc) (fun nc => ret (toC (zp_polarization_quark_t_thermal_part_zero_temp_landau_i nc q om mq mu)))) (routC Q 0 (fermi_momentum mq mu) integral)).

(** ** Inverse dressing functions, dressing functions and propagators *)

(* qcd/thermal.rs 99-124 *)
Definition c_qcd_gluon_dressing_l_inv_w_field_config {T : Type} {N : Num T} (Q : Routine) (om : T) (p : R) (beta mu f0 : R) (config : FieldConfig) : conc C :=
  let m := fc_gluon config in
  let sdim := om * om + ofR (p * p) in
  let s := sdim / ofR (m * m) in
  bind (c_sum_quarks (fun qi => bind (c_polarization_quark_l_thermal_part_landau Q om p (qi_mq qi) beta mu) (fun x => ret (x * toC (INR (qi_nf qi))))) (fc_quarks_internal config)) (fun quark_contribution =>
  bind (c_qcd_gluon_dressing_inv_landau_w_field_config s f0 config) (fun vac =>
  bind (c_polarization_glue_l_thermal_part_landau Q om p m beta) (fun glue =>
  ret (toC vac - toC (ninv sdim * ofR PREFACTOR) * (glue + quark_contribution))))).

(* qcd/thermal.rs 153-162 *)
Definition c_qcd_gluon_dressing_l_w_field_config {T : Type} {N : Num T} (Q : Routine) (om : T) (p : R) (beta mu f0 : R) (config : FieldConfig) : conc C :=
  bind (c_qcd_gluon_dressing_l_inv_w_field_config Q om p beta mu f0 config) (fun x => ret (ninv x)).

(* qcd/thermal.rs 175-185 *)
Definition c_qcd_gluon_propagator_l_w_field_config {T : Type} {N : Num T} (Q : Routine) (om : T) (p : R) (beta mu f0 : R) (config : FieldConfig) : conc C :=
  bind (c_qcd_gluon_dressing_l_w_field_config Q om p beta mu f0 config) (fun d => ret (toC (ninv (om * om + ofR (p * p))) * d)).

(* qcd/thermal.rs 126-151 *)
Definition c_qcd_gluon_dressing_t_inv_w_field_config {T : Type} {N : Num T} (Q : Routine) (om : T) (p : R) (beta mu f0 : R) (config : FieldConfig) : conc C :=
  let m := fc_gluon config in
  let sdim := om * om + ofR (p * p) in
  let s := sdim / ofR (m * m) in
  bind (c_sum_quarks (fun qi => bind (c_polarization_quark_t_thermal_part_landau Q om p (qi_mq qi) beta mu) (fun x => ret (x * toC (INR (qi_nf qi))))) (fc_quarks_internal config)) (fun quark_contribution =>
  bind (c_qcd_gluon_dressing_inv_landau_w_field_config s f0 config) (fun vac =>
  bind (c_polarization_glue_t_thermal_part_landau Q om p m beta) (fun glue =>
  ret (toC vac - toC (ninv sdim * ofR PREFACTOR) * (glue + quark_contribution))))).

(* qcd/thermal.rs 164-173 *)
Definition c_qcd_gluon_dressing_t_w_field_config {T : Type} {N : Num T} (Q : Routine) (om : T) (p : R) (beta mu f0 : R) (config : FieldConfig) : conc C :=
  bind (c_qcd_gluon_dressing_t_inv_w_field_config Q om p beta mu f0 config) (fun x => ret (ninv x)).

(* qcd/thermal.rs 187-196 *)
Definition c_qcd_gluon_propagator_t_w_field_config {T : Type} {N : Num T} (Q : Routine) (om : T) (p : R) (beta mu f0 : R) (config : FieldConfig) : conc C :=
  bind (c_qcd_gluon_dressing_t_w_field_config Q om p beta mu f0 config) (fun d => ret (toC (ninv (om * om + ofR (p * p))) * d)).

(* qcd/thermal.rs 198-219 *)
Definition c_qcd_gluon_dressing_l_inv_zero_temp_w_field_config {T : Type} {N : Num T} (Q : Routine) (om : T) (p : R) (mu f0 : R) (config : FieldConfig) : conc C :=
  let m := fc_gluon config in
  let sdim := om * om + ofR (p * p) in
  let s := sdim / ofR (m * m) in
  bind (c_sum_quarks (fun qi => bind (c_polarization_quark_l_thermal_part_zero_temp_landau Q om p (qi_mq qi) mu) (fun x => ret (x * toC (INR (qi_nf qi))))) (fc_quarks_internal config)) (fun quark_contribution =>
  bind (c_qcd_gluon_dressing_inv_landau_w_field_config s f0 config) (fun vac =>
  ret (toC vac - toC (ninv sdim * ofR PREFACTOR) * (quark_contribution)))).

(* qcd/thermal.rs 244-252 *)
Definition c_qcd_gluon_dressing_l_zero_temp_w_field_config {T : Type} {N : Num T} (Q : Routine) (om : T) (p : R) (mu f0 : R) (config : FieldConfig) : conc C :=
  bind (c_qcd_gluon_dressing_l_inv_zero_temp_w_field_config Q om p mu f0 config) (fun x => ret (ninv x)).

(* qcd/thermal.rs 264-273 *)
Definition c_qcd_gluon_propagator_l_zero_temp_w_field_config {T : Type} {N : Num T} (Q : Routine) (om : T) (p : R) (mu f0 : R) (config : FieldConfig) : conc C :=
  bind (c_qcd_gluon_dressing_l_zero_temp_w_field_config Q om p mu f0 config) (fun d => ret (toC (ninv (om * om + ofR (p * p))) * d)).

(* qcd/thermal.rs 221-242 *)
Definition c_qcd_gluon_dressing_t_inv_zero_temp_w_field_config {T : Type} {N : Num T} (Q : Routine) (om : T) (p : R) (mu f0 : R) (config : FieldConfig) : conc C :=
  let m := fc_gluon config in
  let sdim := om * om + ofR (p * p) in
  let s := sdim / ofR (m * m) in
  bind (c_sum_quarks (fun qi => bind (c_polarization_quark_t_thermal_part_zero_temp_landau Q om p (qi_mq qi) mu) (fun x => ret (x * toC (INR (qi_nf qi))))) (fc_quarks_internal config)) (fun quark_contribution =>
  bind (c_qcd_gluon_dressing_inv_landau_w_field_config s f0 config) (fun vac =>
  ret (toC vac - toC (ninv sdim * ofR PREFACTOR) * (quark_contribution)))).

(* qcd/thermal.rs 254-262 *)
Definition c_qcd_gluon_dressing_t_zero_temp_w_field_config {T : Type} {N : Num T} (Q : Routine) (om : T) (p : R) (mu f0 : R) (config : FieldConfig) : conc C :=
  bind (c_qcd_gluon_dressing_t_inv_zero_temp_w_field_config Q om p mu f0 config) (fun x => ret (ninv x)).

(* qcd/thermal.rs 275-283 *)
Definition c_qcd_gluon_propagator_t_zero_temp_w_field_config {T : Type} {N : Num T} (Q : Routine) (om : T) (p : R) (mu f0 : R) (config : FieldConfig) : conc C :=
  bind (c_qcd_gluon_dressing_t_zero_temp_w_field_config Q om p mu f0 config) (fun d => ret (toC (ninv (om * om + ofR (p * p))) * d)).

(* qcd/thermal.rs 462-486 *)
Definition c_zm_qcd_gluon_dressing_l_inv_w_field_config (Q : Routine) (p : R) (beta mu f0 : R) (config : FieldConfig) : conc R :=
  let m := fc_gluon config in
  let sdim := p * p in
  let s := sdim / ofR (m * m) in
  bind (c_sum_quarks (fun qi => bind (c_zm_polarization_quark_l_thermal_part_landau Q p (qi_mq qi) beta mu) (fun x => ret (x * ofR (INR (qi_nf qi))))) (fc_quarks_internal config)) (fun quark_contribution =>
  bind (c_qcd_gluon_dressing_inv_landau_w_field_config s f0 config) (fun vac =>
  bind (c_zm_polarization_glue_l_thermal_part_landau Q p m beta) (fun glue =>
  ret (vac - (PREFACTOR * (glue + quark_contribution)) / sdim)))).

(* qcd/thermal.rs 514-522 *)
Definition c_zm_qcd_gluon_dressing_l_w_field_config (Q : Routine) (p : R) (beta mu f0 : R) (config : FieldConfig) : conc R :=
  bind (c_zm_qcd_gluon_dressing_l_inv_w_field_config Q p beta mu f0 config) (fun x => ret (ninv x)).

(* qcd/thermal.rs 534-542 *)
Definition c_zm_qcd_gluon_propagator_l_w_field_config (Q : Routine) (p : R) (beta mu f0 : R) (config : FieldConfig) : conc R :=
  bind (c_zm_qcd_gluon_dressing_l_w_field_config Q p beta mu f0 config) (fun d => ret (d / (p * p))).

(* qcd/thermal.rs 488-512 *)
Definition c_zm_qcd_gluon_dressing_t_inv_w_field_config (Q : Routine) (p : R) (beta mu f0 : R) (config : FieldConfig) : conc R :=
  let m := fc_gluon config in
  let sdim := p * p in
  let s := sdim / ofR (m * m) in
  bind (c_sum_quarks (fun qi => bind (c_zm_polarization_quark_t_thermal_part_landau Q p (qi_mq qi) beta mu) (fun x => ret (x * ofR (INR (qi_nf qi))))) (fc_quarks_internal config)) (fun quark_contribution =>
  bind (c_qcd_gluon_dressing_inv_landau_w_field_config s f0 config) (fun vac =>
  bind (c_zm_polarization_glue_t_thermal_part_landau Q p m beta) (fun glue =>
  ret (vac - (PREFACTOR * (glue + quark_contribution)) / sdim)))).

(* qcd/thermal.rs 524-532 *)
Definition c_zm_qcd_gluon_dressing_t_w_field_config (Q : Routine) (p : R) (beta mu f0 : R) (config : FieldConfig) : conc R :=
  bind (c_zm_qcd_gluon_dressing_t_inv_w_field_config Q p beta mu f0 config) (fun x => ret (ninv x)).

(* qcd/thermal.rs 544-552 *)
Definition c_zm_qcd_gluon_propagator_t_w_field_config (Q : Routine) (p : R) (beta mu f0 : R) (config : FieldConfig) : conc R :=
  bind (c_zm_qcd_gluon_dressing_t_w_field_config Q p beta mu f0 config) (fun d => ret (d / (p * p))).

(* qcd/thermal.rs 554-573 *)
Definition c_zm_qcd_gluon_dressing_l_inv_zero_temp_w_field_config (Q : Routine) (p : R) (mu f0 : R) (config : FieldConfig) : conc R :=
  let m := fc_gluon config in
  let sdim := p * p in
  let s := sdim / ofR (m * m) in
  bind (c_sum_quarks (fun qi => bind (c_zm_polarization_quark_l_thermal_part_zero_temp_landau Q p (qi_mq qi) mu) (fun x => ret (x * ofR (INR (qi_nf qi))))) (fc_quarks_internal config)) (fun quark_contribution =>
  bind (c_qcd_gluon_dressing_inv_landau_w_field_config s f0 config) (fun vac =>
  ret (vac - (PREFACTOR * (quark_contribution)) / sdim))).

(* qcd/thermal.rs 596-603 *)
Definition c_zm_qcd_gluon_dressing_l_zero_temp_w_field_config (Q : Routine) (p : R) (mu f0 : R) (config : FieldConfig) : conc R :=
  bind (c_zm_qcd_gluon_dressing_l_inv_zero_temp_w_field_config Q p mu f0 config) (fun x => ret (ninv x)).

(* qcd/thermal.rs 614-621 *)
Definition c_zm_qcd_gluon_propagator_l_zero_temp_w_field_config (Q : Routine) (p : R) (mu f0 : R) (config : FieldConfig) : conc R :=
  bind (c_zm_qcd_gluon_dressing_l_zero_temp_w_field_config Q p mu f0 config) (fun d => ret (d / (p * p))).

(* qcd/thermal.rs 575-594 *)
Definition c_zm_qcd_gluon_dressing_t_inv_zero_temp_w_field_config (Q : Routine) (p : R) (mu f0 : R) (config : FieldConfig) : conc R :=
  let m := fc_gluon config in
  let sdim := p * p in
  let s := sdim / ofR (m * m) in
  bind (c_sum_quarks (fun qi => bind (c_zm_polarization_quark_t_thermal_part_zero_temp_landau Q p (qi_mq qi) mu) (fun x => ret (x * ofR (INR (qi_nf qi))))) (fc_quarks_internal config)) (fun quark_contribution =>
  bind (c_qcd_gluon_dressing_inv_landau_w_field_config s f0 config) (fun vac =>
  ret (vac - (PREFACTOR * (quark_contribution)) / sdim))).

(* qcd/thermal.rs 605-612 *)
Definition c_zm_qcd_gluon_dressing_t_zero_temp_w_field_config (Q : Routine) (p : R) (mu f0 : R) (config : FieldConfig) : conc R :=
  bind (c_zm_qcd_gluon_dressing_t_inv_zero_temp_w_field_config Q p mu f0 config) (fun x => ret (ninv x)).

(* qcd/thermal.rs 623-630 *)
Definition c_zm_qcd_gluon_propagator_t_zero_temp_w_field_config (Q : Routine) (p : R) (mu f0 : R) (config : FieldConfig) : conc R :=
  bind (c_zm_qcd_gluon_dressing_t_zero_temp_w_field_config Q p mu f0 config) (fun d => ret (d / (p * p))).

(* qcd/thermal.rs 733-757 *)
Definition c_zp_qcd_gluon_dressing_l_inv_w_field_config {T : Type} {N : Num T} (Q : Routine) (om : T) (beta mu f0 : R) (config : FieldConfig) : conc C :=
  let m := fc_gluon config in
  let sdim := om * om in
  let s := sdim / ofR (m * m) in
  bind (c_sum_quarks (fun qi => bind (c_zp_polarization_quark_l_thermal_part_landau Q om (qi_mq qi) beta mu) (fun x => ret (x * toC (INR (qi_nf qi))))) (fc_quarks_internal config)) (fun quark_contribution =>
  bind (c_qcd_gluon_dressing_inv_landau_w_field_config s f0 config) (fun vac =>
  bind (c_zp_polarization_glue_l_thermal_part_landau Q om m beta) (fun glue =>
  ret (toC vac - toC (ninv sdim * ofR PREFACTOR) * (glue + quark_contribution))))).

(* qcd/thermal.rs 785-793 *)
Definition c_zp_qcd_gluon_dressing_l_w_field_config {T : Type} {N : Num T} (Q : Routine) (om : T) (beta mu f0 : R) (config : FieldConfig) : conc C :=
  bind (c_zp_qcd_gluon_dressing_l_inv_w_field_config Q om beta mu f0 config) (fun x => ret (ninv x)).

(* qcd/thermal.rs 805-813 *)
Definition c_zp_qcd_gluon_propagator_l_w_field_config {T : Type} {N : Num T} (Q : Routine) (om : T) (beta mu f0 : R) (config : FieldConfig) : conc C :=
  bind (c_zp_qcd_gluon_dressing_l_w_field_config Q om beta mu f0 config) (fun d => ret (toC (ninv (om * om)) * d)).

(* qcd/thermal.rs 759-783 *)
Definition c_zp_qcd_gluon_dressing_t_inv_w_field_config {T : Type} {N : Num T} (Q : Routine) (om : T) (beta mu f0 : R) (config : FieldConfig) : conc C :=
  let m := fc_gluon config in
  let sdim := om * om in
  let s := sdim / ofR (m * m) in
  bind (c_sum_quarks (fun qi => bind (c_zp_polarization_quark_t_thermal_part_landau Q om (qi_mq qi) beta mu) (fun x => ret (x * toC (INR (qi_nf qi))))) (fc_quarks_internal config)) (fun quark_contribution =>
  bind (c_qcd_gluon_dressing_inv_landau_w_field_config s f0 config) (fun vac =>
  bind (c_zp_polarization_glue_t_thermal_part_landau Q om m beta) (fun glue =>
  ret (toC vac - toC (ninv sdim * ofR PREFACTOR) * (glue + quark_contribution))))).

(* qcd/thermal.rs 795-803 *)
Definition c_zp_qcd_gluon_dressing_t_w_field_config {T : Type} {N : Num T} (Q : Routine) (om : T) (beta mu f0 : R) (config : FieldConfig) : conc C :=
  bind (c_zp_qcd_gluon_dressing_t_inv_w_field_config Q om beta mu f0 config) (fun x => ret (ninv x)).

(* qcd/thermal.rs 815-823 *)
Definition c_zp_qcd_gluon_propagator_t_w_field_config {T : Type} {N : Num T} (Q : Routine) (om : T) (beta mu f0 : R) (config : FieldConfig) : conc C :=
  bind (c_zp_qcd_gluon_dressing_t_w_field_config Q om beta mu f0 config) (fun d => ret (toC (ninv (om * om)) * d)).

(* qcd/thermal.rs 825-845 *)
Definition c_zp_qcd_gluon_dressing_l_inv_zero_temp_w_field_config {T : Type} {N : Num T} (Q : Routine) (om : T) (mu f0 : R) (config : FieldConfig) : conc C :=
  let m := fc_gluon config in
  let sdim := om * om in
  let s := sdim / ofR (m * m) in
  bind (c_sum_quarks (fun qi => bind (c_zp_polarization_quark_l_thermal_part_zero_temp_landau Q om (qi_mq qi) mu) (fun x => ret (x * toC (INR (qi_nf qi))))) (fc_quarks_internal config)) (fun quark_contribution =>
  bind (c_qcd_gluon_dressing_inv_landau_w_field_config s f0 config) (fun vac =>
  ret (toC vac - toC (ninv sdim * ofR PREFACTOR) * (quark_contribution)))).

(* qcd/thermal.rs 869-876 *)
Definition c_zp_qcd_gluon_dressing_l_zero_temp_w_field_config {T : Type} {N : Num T} (Q : Routine) (om : T) (mu f0 : R) (config : FieldConfig) : conc C :=
  bind (c_zp_qcd_gluon_dressing_l_inv_zero_temp_w_field_config Q om mu f0 config) (fun x => ret (ninv x)).

(* qcd/thermal.rs 887-894 *)
Definition c_zp_qcd_gluon_propagator_l_zero_temp_w_field_config {T : Type} {N : Num T} (Q : Routine) (om : T) (mu f0 : R) (config : FieldConfig) : conc C :=
  bind (c_zp_qcd_gluon_dressing_l_zero_temp_w_field_config Q om mu f0 config) (fun d => ret (toC (ninv (om * om)) * d)).

(* qcd/thermal.rs 847-867 *)
Definition c_zp_qcd_gluon_dressing_t_inv_zero_temp_w_field_config {T : Type} {N : Num T} (Q : Routine) (om : T) (mu f0 : R) (config : FieldConfig) : conc C :=
  let m := fc_gluon config in
  let sdim := om * om in
  let s := sdim / ofR (m * m) in
  bind (c_sum_quarks (fun qi => bind (c_zp_polarization_quark_t_thermal_part_zero_temp_landau Q om (qi_mq qi) mu) (fun x => ret (x * toC (INR (qi_nf qi))))) (fc_quarks_internal config)) (fun quark_contribution =>
  bind (c_qcd_gluon_dressing_inv_landau_w_field_config s f0 config) (fun vac =>
  ret (toC vac - toC (ninv sdim * ofR PREFACTOR) * (quark_contribution)))).

(* qcd/thermal.rs 878-885 *)
Definition c_zp_qcd_gluon_dressing_t_zero_temp_w_field_config {T : Type} {N : Num T} (Q : Routine) (om : T) (mu f0 : R) (config : FieldConfig) : conc C :=
  bind (c_zp_qcd_gluon_dressing_t_inv_zero_temp_w_field_config Q om mu f0 config) (fun x => ret (ninv x)).

(* qcd/thermal.rs 896-903 *)
Definition c_zp_qcd_gluon_propagator_t_zero_temp_w_field_config {T : Type} {N : Num T} (Q : Routine) (om : T) (mu f0 : R) (config : FieldConfig) : conc C :=
  bind (c_zp_qcd_gluon_dressing_t_zero_temp_w_field_config Q om mu f0 config) (fun d => ret (toC (ninv (om * om)) * d)).
