(** * Integrated thermal parts, dressing functions and propagators
    (qcd-sme/src/low_level/oneloop/thermal/{ghost,gluon}.rs wrappers, ym/thermal.rs,
     qcd/thermal.rs)

    [peroxide::integrate] is an external routine; it is the argument [J] of type
    [Integrator], a pair of functions for complex- and real-valued integrands.
    The global variables are the argument [g]. Simplification: generic momenta
    [p: T2] of a few longitudinal functions are fixed to [R]. *)
From Coq Require Import Reals List.
From Coquelicot Require Import Coquelicot.
From Verif Require Import Num MCommon MConsts MVacuum MThermal MThermalZM MThermalZP MPolar.
Open Scope R_scope.
Open Scope num_scope.

Record Integrator := {
  integrateC : (R -> C) -> R -> R -> Integral R -> C;
  integrateR : (R -> R) -> R -> R -> Integral R -> R
}.

(** Real-number instance of the operations of consts.rs. *)
Definition OpsR : FloatOps R := {|
  f_of_u32 := INR;
  f_div := Rdiv;
  f_pos := fun x => if Rlt_dec 0 x then true else false;
  f_eqb := fun x y => if Req_EM_T x y then true else false;
  f_lit_half := (5 / 10)%R;
  f_lit_1em10 := (/ 10 ^ 10)%R;
  f_lit_1em8 := (/ 10 ^ 8)%R;
  f_lit_1em5 := (/ 10 ^ 5)%R |}.

(* ym/thermal.rs 7, qcd/thermal.rs 15, and the other [PREFACTOR] constants *)
Definition PREFACTOR : R := ((16 * PI * PI) / 3)%R.

(** ** Ghost self-energy *)

(* thermal/ghost.rs 20-32 *)
Definition ghost_self_energy_w_method {T : Type} {N : Num T} (J : Integrator) (om : T) (p : R) (m beta : R) (integral : Integral R) : C :=
  integrateC J (fun t => ghost_self_energy_thermal_part_landau_i ((1 - t) / t) om p m beta / toC (t * t)) 0 1 integral.

(* thermal/ghost.rs 34-36 *)
Definition ghost_self_energy {T : Type} {N : Num T} (J : Integrator) (g : globals R) (om : T) (p : R) (m beta : R) : C :=
  ghost_self_energy_w_method J om p m beta (get_default_integration_method g).

(* thermal/ghost.rs 105-119 *)
Definition zm_ghost_self_energy_w_method (J : Integrator) (p : R) (m beta : R) (integral : Integral R) : R :=
  integrateR J (fun t => (nre (zm_ghost_self_energy_thermal_part_landau_i ((1 - t) / t) p m beta) / (t * t))%R) 0 1 integral.

(* thermal/ghost.rs 121-123 *)
Definition zm_ghost_self_energy (J : Integrator) (g : globals R) (p : R) (m beta : R) : R :=
  zm_ghost_self_energy_w_method J p m beta (get_default_integration_method g).

(* thermal/ghost.rs 176-187 *)
Definition zp_ghost_self_energy_w_method {T : Type} {N : Num T} (J : Integrator) (om : T) (m beta : R) (integral : Integral R) : C :=
  integrateC J (fun t => zp_ghost_self_energy_thermal_part_landau_i ((1 - t) / t) om m beta / toC (t * t)) 0 1 integral.

(* thermal/ghost.rs 189-191 *)
Definition zp_ghost_self_energy {T : Type} {N : Num T} (J : Integrator) (g : globals R) (om : T) (m beta : R) : C :=
  zp_ghost_self_energy_w_method J om m beta (get_default_integration_method g).

(** ** Gluon polarization *)

(* thermal/gluon.rs 79-94 *)
Definition polarization_glue_l_thermal_part_landau_w_method {T : Type} {N : Num T} (J : Integrator) (om : T) (p : R) (m beta : R) (integral : Integral R) : C :=
  integrateC J (fun t => polarization_glue_l_thermal_part_landau_i ((1 - t) / t) om p m beta / toC (t * t)) 0 1 integral.

(* thermal/gluon.rs 195-208 *)
Definition polarization_glue_l_thermal_part_landau {T : Type} {N : Num T} (J : Integrator) (g : globals R) (om : T) (p : R) (m beta : R) : C :=
  polarization_glue_l_thermal_part_landau_w_method J om p m beta (get_default_integration_method g).

(* thermal/gluon.rs 96-111 *)
Definition polarization_glue_t_thermal_part_landau_w_method {T : Type} {N : Num T} (J : Integrator) (om : T) (p : R) (m beta : R) (integral : Integral R) : C :=
  integrateC J (fun t => polarization_glue_t_thermal_part_landau_i ((1 - t) / t) om p m beta / toC (t * t)) 0 1 integral.

(* thermal/gluon.rs 210-218 *)
Definition polarization_glue_t_thermal_part_landau {T : Type} {N : Num T} (J : Integrator) (g : globals R) (om : T) (p : R) (m beta : R) : C :=
  polarization_glue_t_thermal_part_landau_w_method J om p m beta (get_default_integration_method g).

(* thermal/gluon.rs 113-135 *)
Definition polarization_quark_l_thermal_part_landau_w_method {T : Type} {N : Num T} (J : Integrator) (g : globals R) (om : T) (p : R) (mq beta mu : R) (integral : Integral R) : C :=
  integrateC J (fun t => polarization_quark_l_thermal_part_landau_i (get_number_of_colors g) ((1 - t) / t) om p mq beta mu / toC (t * t)) 0 1 integral.

(* thermal/gluon.rs 220-235 *)
Definition polarization_quark_l_thermal_part_landau {T : Type} {N : Num T} (J : Integrator) (g : globals R) (om : T) (p : R) (mq beta mu : R) : C :=
  polarization_quark_l_thermal_part_landau_w_method J g om p mq beta mu (get_default_integration_method g).

(* thermal/gluon.rs 161-176 *)
Definition polarization_quark_l_thermal_part_zero_temp_landau_w_method {T : Type} {N : Num T} (J : Integrator) (g : globals R) (om : T) (p : R) (mq mu : R) (integral : Integral R) : C :=
  if Rlt_dec (Rabs mu) (Rabs mq) then (RtoC 0)
  else integrateC J (fun q => polarization_quark_l_thermal_part_zero_temp_landau_i (get_number_of_colors g) q om p mq mu) 0 (fermi_momentum mq mu) integral.

(* thermal/gluon.rs 254-267 *)
Definition polarization_quark_l_thermal_part_zero_temp_landau {T : Type} {N : Num T} (J : Integrator) (g : globals R) (om : T) (p : R) (mq mu : R) : C :=
  polarization_quark_l_thermal_part_zero_temp_landau_w_method J g om p mq mu (get_default_integration_method g).

(* thermal/gluon.rs 137-159 *)
Definition polarization_quark_t_thermal_part_landau_w_method {T : Type} {N : Num T} (J : Integrator) (g : globals R) (om : T) (p : R) (mq beta mu : R) (integral : Integral R) : C :=
  integrateC J (fun t => polarization_quark_t_thermal_part_landau_i (get_number_of_colors g) ((1 - t) / t) om p mq beta mu / toC (t * t)) 0 1 integral.

(* thermal/gluon.rs 237-252 *)
Definition polarization_quark_t_thermal_part_landau {T : Type} {N : Num T} (J : Integrator) (g : globals R) (om : T) (p : R) (mq beta mu : R) : C :=
  polarization_quark_t_thermal_part_landau_w_method J g om p mq beta mu (get_default_integration_method g).

(* thermal/gluon.rs 178-193 *)
Definition polarization_quark_t_thermal_part_zero_temp_landau_w_method {T : Type} {N : Num T} (J : Integrator) (g : globals R) (om : T) (p : R) (mq mu : R) (integral : Integral R) : C :=
  if Rlt_dec (Rabs mu) (Rabs mq) then (RtoC 0)
  else integrateC J (fun q => polarization_quark_t_thermal_part_zero_temp_landau_i (get_number_of_colors g) q om p mq mu) 0 (fermi_momentum mq mu) integral.

(* thermal/gluon.rs 269-282 *)
Definition polarization_quark_t_thermal_part_zero_temp_landau {T : Type} {N : Num T} (J : Integrator) (g : globals R) (om : T) (p : R) (mq mu : R) : C :=
  polarization_quark_t_thermal_part_zero_temp_landau_w_method J g om p mq mu (get_default_integration_method g).

(* thermal/gluon.rs 610-638 *)
Definition zm_polarization_glue_l_thermal_part_landau_w_method (J : Integrator) (g : globals R) (p : R) (m beta : R) (integral : Integral R) : R :=
  integrateR J (fun t => (nre (polarization_glue_l_thermal_part_landau_i ((1 - t) / t) (get_matsubara_reg g) p m beta) / (t * t))%R) 0 1 integral.

(* thermal/gluon.rs 766-775 *)
Definition zm_polarization_glue_l_thermal_part_landau (J : Integrator) (g : globals R) (p : R) (m beta : R) : R :=
  zm_polarization_glue_l_thermal_part_landau_w_method J g p m beta (zm_default_method OpsR g).

(* thermal/gluon.rs 640-660 *)
Definition zm_polarization_glue_t_thermal_part_landau_w_method (J : Integrator) (g : globals R) (p : R) (m beta : R) (integral : Integral R) : R :=
  integrateR J (fun t => (nre (polarization_glue_t_thermal_part_landau_i ((1 - t) / t) (get_matsubara_reg g) p m beta) / (t * t))%R) 0 1 integral.

(* thermal/gluon.rs 777-786 *)
Definition zm_polarization_glue_t_thermal_part_landau (J : Integrator) (g : globals R) (p : R) (m beta : R) : R :=
  zm_polarization_glue_t_thermal_part_landau_w_method J g p m beta (zm_default_method OpsR g).

(* thermal/gluon.rs 662-684 *)
Definition zm_polarization_quark_l_thermal_part_landau_w_method (J : Integrator) (g : globals R) (p : R) (mq beta mu : R) (integral : Integral R) : R :=
  integrateR J (fun t => (nre (polarization_quark_l_thermal_part_landau_i (get_number_of_colors g) ((1 - t) / t) (get_matsubara_reg g) p mq beta mu) / (t * t))%R) 0 1 integral.

(* thermal/gluon.rs 788-797 *)
Definition zm_polarization_quark_l_thermal_part_landau (J : Integrator) (g : globals R) (p : R) (mq beta mu : R) : R :=
  zm_polarization_quark_l_thermal_part_landau_w_method J g p mq beta mu (zm_default_method OpsR g).

(* thermal/gluon.rs 710-733 *)
Definition zm_polarization_quark_l_thermal_part_zero_temp_landau_w_method (J : Integrator) (g : globals R) (p : R) (mq mu : R) (integral : Integral R) : R :=
  if Rlt_dec (Rabs mu) (Rabs mq) then 0
  else integrateR J (fun q => nre (polarization_quark_l_thermal_part_zero_temp_landau_i (get_number_of_colors g) q (get_matsubara_reg g) p mq mu)) 0 (fermi_momentum mq mu) integral.

(* thermal/gluon.rs 810-819 *)
Definition zm_polarization_quark_l_thermal_part_zero_temp_landau (J : Integrator) (g : globals R) (p : R) (mq mu : R) : R :=
  zm_polarization_quark_l_thermal_part_zero_temp_landau_w_method J g p mq mu (zm_default_method OpsR g).

(* thermal/gluon.rs 686-708 *)
Definition zm_polarization_quark_t_thermal_part_landau_w_method (J : Integrator) (g : globals R) (p : R) (mq beta mu : R) (integral : Integral R) : R :=
  integrateR J (fun t => (nre (polarization_quark_t_thermal_part_landau_i (get_number_of_colors g) ((1 - t) / t) (get_matsubara_reg g) p mq beta mu) / (t * t))%R) 0 1 integral.

(* thermal/gluon.rs 799-808 *)
Definition zm_polarization_quark_t_thermal_part_landau (J : Integrator) (g : globals R) (p : R) (mq beta mu : R) : R :=
  zm_polarization_quark_t_thermal_part_landau_w_method J g p mq beta mu (zm_default_method OpsR g).

(* thermal/gluon.rs 735-758 *)
Definition zm_polarization_quark_t_thermal_part_zero_temp_landau_w_method (J : Integrator) (g : globals R) (p : R) (mq mu : R) (integral : Integral R) : R :=
  if Rlt_dec (Rabs mu) (Rabs mq) then 0
  else integrateR J (fun q => nre (polarization_quark_t_thermal_part_zero_temp_landau_i (get_number_of_colors g) q (get_matsubara_reg g) p mq mu)) 0 (fermi_momentum mq mu) integral.

(* thermal/gluon.rs 821-830 *)
Definition zm_polarization_quark_t_thermal_part_zero_temp_landau (J : Integrator) (g : globals R) (p : R) (mq mu : R) : R :=
  zm_polarization_quark_t_thermal_part_zero_temp_landau_w_method J g p mq mu (zm_default_method OpsR g).

(* thermal/gluon.rs 1077-1091 *)
Definition zp_polarization_glue_l_thermal_part_landau_w_method {T : Type} {N : Num T} (J : Integrator) (om : T) (m beta : R) (integral : Integral R) : C :=
  integrateC J (fun t => zp_polarization_glue_l_thermal_part_landau_i ((1 - t) / t) om m beta / toC (t * t)) 0 1 integral.

(* thermal/gluon.rs 1195-1202 *)
Definition zp_polarization_glue_l_thermal_part_landau {T : Type} {N : Num T} (J : Integrator) (g : globals R) (om : T) (m beta : R) : C :=
  zp_polarization_glue_l_thermal_part_landau_w_method J om m beta (get_default_integration_method g).

(* thermal/gluon.rs 1093-1107 *)
Definition zp_polarization_glue_t_thermal_part_landau_w_method {T : Type} {N : Num T} (J : Integrator) (om : T) (m beta : R) (integral : Integral R) : C :=
  integrateC J (fun t => zp_polarization_glue_t_thermal_part_landau_i ((1 - t) / t) om m beta / toC (t * t)) 0 1 integral.

(* thermal/gluon.rs 1204-1211 *)
Definition zp_polarization_glue_t_thermal_part_landau {T : Type} {N : Num T} (J : Integrator) (g : globals R) (om : T) (m beta : R) : C :=
  zp_polarization_glue_t_thermal_part_landau_w_method J om m beta (get_default_integration_method g).

(* thermal/gluon.rs 1109-1131 *)
Definition zp_polarization_quark_l_thermal_part_landau_w_method {T : Type} {N : Num T} (J : Integrator) (g : globals R) (om : T) (mq beta mu : R) (integral : Integral R) : C :=
  integrateC J (fun t => toC (zp_polarization_quark_l_thermal_part_landau_i (get_number_of_colors g) ((1 - t) / t) om mq beta mu) / toC (t * t)) 0 1 integral.

(* thermal/gluon.rs 1213-1221 *)
Definition zp_polarization_quark_l_thermal_part_landau {T : Type} {N : Num T} (J : Integrator) (g : globals R) (om : T) (mq beta mu : R) : C :=
  zp_polarization_quark_l_thermal_part_landau_w_method J g om mq beta mu (get_default_integration_method g).

(* thermal/gluon.rs 1157-1174 *)
Definition zp_polarization_quark_l_thermal_part_zero_temp_landau_w_method {T : Type} {N : Num T} (J : Integrator) (g : globals R) (om : T) (mq mu : R) (integral : Integral R) : C :=
  if Rlt_dec (Rabs mu) (Rabs mq) then (RtoC 0)
  else integrateC J (fun q => toC (zp_polarization_quark_l_thermal_part_zero_temp_landau_i (get_number_of_colors g) q om mq mu)) 0 (fermi_momentum mq mu) integral.

(* thermal/gluon.rs 1233-1244 *)
Definition zp_polarization_quark_l_thermal_part_zero_temp_landau {T : Type} {N : Num T} (J : Integrator) (g : globals R) (om : T) (mq mu : R) : C :=
  zp_polarization_quark_l_thermal_part_zero_temp_landau_w_method J g om mq mu (get_default_integration_method g).

(* thermal/gluon.rs 1133-1155 *)
Definition zp_polarization_quark_t_thermal_part_landau_w_method {T : Type} {N : Num T} (J : Integrator) (g : globals R) (om : T) (mq beta mu : R) (integral : Integral R) : C :=
  integrateC J (fun t => toC (zp_polarization_quark_t_thermal_part_landau_i (get_number_of_colors g) ((1 - t) / t) om mq beta mu) / toC (t * t)) 0 1 integral.

(* thermal/gluon.rs 1223-1231 *)
Definition zp_polarization_quark_t_thermal_part_landau {T : Type} {N : Num T} (J : Integrator) (g : globals R) (om : T) (mq beta mu : R) : C :=
  zp_polarization_quark_t_thermal_part_landau_w_method J g om mq beta mu (get_default_integration_method g).

(* thermal/gluon.rs 1176-1193 *)
Definition zp_polarization_quark_t_thermal_part_zero_temp_landau_w_method {T : Type} {N : Num T} (J : Integrator) (g : globals R) (om : T) (mq mu : R) (integral : Integral R) : C :=
  if Rlt_dec (Rabs mu) (Rabs mq) then (RtoC 0)
  else integrateC J (fun q => toC (zp_polarization_quark_t_thermal_part_zero_temp_landau_i (get_number_of_colors g) q om mq mu)) 0 (fermi_momentum mq mu) integral.

(* thermal/gluon.rs 1246-1257 *)
Definition zp_polarization_quark_t_thermal_part_zero_temp_landau {T : Type} {N : Num T} (J : Integrator) (g : globals R) (om : T) (mq mu : R) : C :=
  zp_polarization_quark_t_thermal_part_zero_temp_landau_w_method J g om mq mu (get_default_integration_method g).

(** ** Yang-Mills dressing functions and propagators (ym/thermal.rs)

    [1. / x] is [ninv x]. *)

(* ym/thermal.rs 9-14 *)
Definition ym_ghost_dressing_inv {T : Type} {N : Num T} (J : Integrator) (g : globals R) (om : T) (p : R) (m beta g0 : R) : C :=
  let sdim := om * om + ofR (p * p) in
  let s := sdim / ofR (m * m) in
  toC (ym_ghost_dressing_inv_landau s g0) + toC (ninv sdim * ofR PREFACTOR) * (ghost_self_energy J g om p m beta).

(* ym/thermal.rs 16-18 *)
Definition ym_ghost_dressing {T : Type} {N : Num T} (J : Integrator) (g : globals R) (om : T) (p : R) (m beta g0 : R) : C :=
  ninv (ym_ghost_dressing_inv J g om p m beta g0).

(* ym/thermal.rs 20-22 *)
Definition ym_ghost_propagator {T : Type} {N : Num T} (J : Integrator) (g : globals R) (om : T) (p : R) (m beta g0 : R) : C :=
  toC (ninv (om * om + ofR (p * p))) * ym_ghost_dressing J g om p m beta g0.

(* ym/thermal.rs 37-42 *)
Definition ym_gluon_dressing_l_inv {T : Type} {N : Num T} (J : Integrator) (g : globals R) (om : T) (p : R) (m beta f0 : R) : C :=
  let sdim := om * om + ofR (p * p) in
  let s := sdim / ofR (m * m) in
  toC (ym_gluon_dressing_inv_landau s f0) - toC (ninv sdim * ofR PREFACTOR) * (polarization_glue_l_thermal_part_landau J g om p m beta).

(* ym/thermal.rs 44-49 *)
Definition ym_gluon_dressing_t_inv {T : Type} {N : Num T} (J : Integrator) (g : globals R) (om : T) (p : R) (m beta f0 : R) : C :=
  let sdim := om * om + ofR (p * p) in
  let s := sdim / ofR (m * m) in
  toC (ym_gluon_dressing_inv_landau s f0) - toC (ninv sdim * ofR PREFACTOR) * (polarization_glue_t_thermal_part_landau J g om p m beta).

(* ym/thermal.rs 51-53 *)
Definition ym_gluon_dressing_l {T : Type} {N : Num T} (J : Integrator) (g : globals R) (om : T) (p : R) (m beta f0 : R) : C :=
  ninv (ym_gluon_dressing_l_inv J g om p m beta f0).

(* ym/thermal.rs 59-61 *)
Definition ym_gluon_propagator_l {T : Type} {N : Num T} (J : Integrator) (g : globals R) (om : T) (p : R) (m beta f0 : R) : C :=
  toC (ninv (om * om + ofR (p * p))) * ym_gluon_dressing_l J g om p m beta f0.

(* ym/thermal.rs 55-57 *)
Definition ym_gluon_dressing_t {T : Type} {N : Num T} (J : Integrator) (g : globals R) (om : T) (p : R) (m beta f0 : R) : C :=
  ninv (ym_gluon_dressing_t_inv J g om p m beta f0).

(* ym/thermal.rs 63-65 *)
Definition ym_gluon_propagator_t {T : Type} {N : Num T} (J : Integrator) (g : globals R) (om : T) (p : R) (m beta f0 : R) : C :=
  toC (ninv (om * om + ofR (p * p))) * ym_gluon_dressing_t J g om p m beta f0.

(* ym/thermal.rs 79-84 *)
Definition zm_ym_ghost_dressing_inv (J : Integrator) (g : globals R) (p : R) (m beta g0 : R) : R :=
  let sdim := p * p in
  let s := sdim / ofR (m * m) in
  ym_ghost_dressing_inv_landau s g0 + (PREFACTOR * (zm_ghost_self_energy J g p m beta)) / sdim.

(* ym/thermal.rs 86-88 *)
Definition zm_ym_ghost_dressing (J : Integrator) (g : globals R) (p : R) (m beta g0 : R) : R :=
  ninv (zm_ym_ghost_dressing_inv J g p m beta g0).

(* ym/thermal.rs 90-92 *)
Definition zm_ym_ghost_propagator (J : Integrator) (g : globals R) (p : R) (m beta g0 : R) : R :=
  zm_ym_ghost_dressing J g p m beta g0 / (p * p).

(* ym/thermal.rs 107-112 *)
Definition zm_ym_gluon_dressing_l_inv (J : Integrator) (g : globals R) (p : R) (m beta f0 : R) : R :=
  let sdim := p * p in
  let s := sdim / ofR (m * m) in
  ym_gluon_dressing_inv_landau s f0 - (PREFACTOR * (zm_polarization_glue_l_thermal_part_landau J g p m beta)) / sdim.

(* ym/thermal.rs 114-119 *)
Definition zm_ym_gluon_dressing_t_inv (J : Integrator) (g : globals R) (p : R) (m beta f0 : R) : R :=
  let sdim := p * p in
  let s := sdim / ofR (m * m) in
  ym_gluon_dressing_inv_landau s f0 - (PREFACTOR * (zm_polarization_glue_t_thermal_part_landau J g p m beta)) / sdim.

(* ym/thermal.rs 121-123 *)
Definition zm_ym_gluon_dressing_l (J : Integrator) (g : globals R) (p : R) (m beta f0 : R) : R :=
  ninv (zm_ym_gluon_dressing_l_inv J g p m beta f0).

(* ym/thermal.rs 129-131 *)
Definition zm_ym_gluon_propagator_l (J : Integrator) (g : globals R) (p : R) (m beta f0 : R) : R :=
  zm_ym_gluon_dressing_l J g p m beta f0 / (p * p).

(* ym/thermal.rs 125-127 *)
Definition zm_ym_gluon_dressing_t (J : Integrator) (g : globals R) (p : R) (m beta f0 : R) : R :=
  ninv (zm_ym_gluon_dressing_t_inv J g p m beta f0).

(* ym/thermal.rs 133-135 *)
Definition zm_ym_gluon_propagator_t (J : Integrator) (g : globals R) (p : R) (m beta f0 : R) : R :=
  zm_ym_gluon_dressing_t J g p m beta f0 / (p * p).

(* ym/thermal.rs 150-155 *)
Definition zp_ym_ghost_dressing_inv {T : Type} {N : Num T} (J : Integrator) (g : globals R) (om : T) (m beta g0 : R) : C :=
  let sdim := om * om in
  let s := sdim / ofR (m * m) in
  toC (ym_ghost_dressing_inv_landau s g0) + toC (ninv sdim * ofR PREFACTOR) * (zp_ghost_self_energy J g om m beta).

(* ym/thermal.rs 157-159 *)
Definition zp_ym_ghost_dressing {T : Type} {N : Num T} (J : Integrator) (g : globals R) (om : T) (m beta g0 : R) : C :=
  ninv (zp_ym_ghost_dressing_inv J g om m beta g0).

(* ym/thermal.rs 161-163 *)
Definition zp_ym_ghost_propagator {T : Type} {N : Num T} (J : Integrator) (g : globals R) (om : T) (m beta g0 : R) : C :=
  toC (ninv (om * om)) * zp_ym_ghost_dressing J g om m beta g0.

(* ym/thermal.rs 176-181 *)
Definition zp_ym_gluon_dressing_l_inv {T : Type} {N : Num T} (J : Integrator) (g : globals R) (om : T) (m beta f0 : R) : C :=
  let sdim := om * om in
  let s := sdim / ofR (m * m) in
  toC (ym_gluon_dressing_inv_landau s f0) - toC (ninv sdim * ofR PREFACTOR) * (zp_polarization_glue_l_thermal_part_landau J g om m beta).

(* ym/thermal.rs 183-185 *)
Definition zp_ym_gluon_dressing_t_inv {T : Type} {N : Num T} (J : Integrator) (g : globals R) (om : T) (m beta f0 : R) : C :=
  zp_ym_gluon_dressing_l_inv J g om m beta f0.

(* ym/thermal.rs 187-189 *)
Definition zp_ym_gluon_dressing_l {T : Type} {N : Num T} (J : Integrator) (g : globals R) (om : T) (m beta f0 : R) : C :=
  ninv (zp_ym_gluon_dressing_l_inv J g om m beta f0).

(* ym/thermal.rs 195-197 *)
Definition zp_ym_gluon_propagator_l {T : Type} {N : Num T} (J : Integrator) (g : globals R) (om : T) (m beta f0 : R) : C :=
  toC (ninv (om * om)) * zp_ym_gluon_dressing_l J g om m beta f0.

(* ym/thermal.rs 191-193 *)
Definition zp_ym_gluon_dressing_t {T : Type} {N : Num T} (J : Integrator) (g : globals R) (om : T) (m beta f0 : R) : C :=
  ninv (zp_ym_gluon_dressing_t_inv J g om m beta f0).

(* ym/thermal.rs 199-201 *)
Definition zp_ym_gluon_propagator_t {T : Type} {N : Num T} (J : Integrator) (g : globals R) (om : T) (m beta f0 : R) : C :=
  toC (ninv (om * om)) * zp_ym_gluon_dressing_t J g om m beta f0.

(** ** QCD dressing functions and propagators (qcd/thermal.rs) *)

(** [iter().map(..).sum()]: fold from zero in list order. *)
Definition sum_quarks {T : Type} {N : Num T} (f : QuarkInternal -> T) (l : list QuarkInternal) : T :=
  fold_left (fun acc qi => acc + f qi) l (ofR 0).

(* qcd/thermal.rs 17-28 *)
Definition qcd_gluon_dressing_l_inv {T : Type} {N : Num T} (J : Integrator) (g : globals R) (om : T) (p : R) (m mq beta mu f0 : R) : C :=
  let sdim := om * om + ofR (p * p) in
  let s := sdim / ofR (m * m) in
  toC (qcd_gluon_dressing_inv_landau (nf_div_nc g) s (mq / m) f0) - toC (ninv sdim * ofR PREFACTOR) * (polarization_glue_l_thermal_part_landau J g om p m beta + toC (INR (get_number_of_fermions g)) * (polarization_quark_l_thermal_part_landau J g om p mq beta mu)).

(* qcd/thermal.rs 30-41 *)
Definition qcd_gluon_dressing_t_inv {T : Type} {N : Num T} (J : Integrator) (g : globals R) (om : T) (p : R) (m mq beta mu f0 : R) : C :=
  let sdim := om * om + ofR (p * p) in
  let s := sdim / ofR (m * m) in
  toC (qcd_gluon_dressing_inv_landau (nf_div_nc g) s (mq / m) f0) - toC (ninv sdim * ofR PREFACTOR) * (polarization_glue_t_thermal_part_landau J g om p m beta + toC (INR (get_number_of_fermions g)) * (polarization_quark_t_thermal_part_landau J g om p mq beta mu)).

(* qcd/thermal.rs 43-45 *)
Definition qcd_gluon_dressing_l {T : Type} {N : Num T} (J : Integrator) (g : globals R) (om : T) (p : R) (m mq beta mu f0 : R) : C :=
  ninv (qcd_gluon_dressing_l_inv J g om p m mq beta mu f0).

(* qcd/thermal.rs 51-53 *)
Definition qcd_gluon_propagator_l {T : Type} {N : Num T} (J : Integrator) (g : globals R) (om : T) (p : R) (m mq beta mu f0 : R) : C :=
  toC (ninv (om * om + ofR (p * p))) * qcd_gluon_dressing_l J g om p m mq beta mu f0.

(* qcd/thermal.rs 47-49 *)
Definition qcd_gluon_dressing_t {T : Type} {N : Num T} (J : Integrator) (g : globals R) (om : T) (p : R) (m mq beta mu f0 : R) : C :=
  ninv (qcd_gluon_dressing_t_inv J g om p m mq beta mu f0).

(* qcd/thermal.rs 55-57 *)
Definition qcd_gluon_propagator_t {T : Type} {N : Num T} (J : Integrator) (g : globals R) (om : T) (p : R) (m mq beta mu f0 : R) : C :=
  toC (ninv (om * om + ofR (p * p))) * qcd_gluon_dressing_t J g om p m mq beta mu f0.

(* qcd/thermal.rs 59-69 *)
Definition qcd_gluon_dressing_l_inv_zero_temp {T : Type} {N : Num T} (J : Integrator) (g : globals R) (om : T) (p : R) (m mq mu f0 : R) : C :=
  let sdim := om * om + ofR (p * p) in
  let s := sdim / ofR (m * m) in
  toC (qcd_gluon_dressing_inv_landau (nf_div_nc g) s (mq / m) f0) - toC (ninv sdim * ofR PREFACTOR) * (toC (INR (get_number_of_fermions g)) * (polarization_quark_l_thermal_part_zero_temp_landau J g om p mq mu)).

(* qcd/thermal.rs 71-81 *)
Definition qcd_gluon_dressing_t_inv_zero_temp {T : Type} {N : Num T} (J : Integrator) (g : globals R) (om : T) (p : R) (m mq mu f0 : R) : C :=
  let sdim := om * om + ofR (p * p) in
  let s := sdim / ofR (m * m) in
  toC (qcd_gluon_dressing_inv_landau (nf_div_nc g) s (mq / m) f0) - toC (ninv sdim * ofR PREFACTOR) * (toC (INR (get_number_of_fermions g)) * (polarization_quark_t_thermal_part_zero_temp_landau J g om p mq mu)).

(* qcd/thermal.rs 83-85 *)
Definition qcd_gluon_dressing_l_zero_temp {T : Type} {N : Num T} (J : Integrator) (g : globals R) (om : T) (p : R) (m mq mu f0 : R) : C :=
  ninv (qcd_gluon_dressing_l_inv_zero_temp J g om p m mq mu f0).

(* qcd/thermal.rs 91-93 *)
Definition qcd_gluon_propagator_l_zero_temp {T : Type} {N : Num T} (J : Integrator) (g : globals R) (om : T) (p : R) (m mq mu f0 : R) : C :=
  toC (ninv (om * om + ofR (p * p))) * qcd_gluon_dressing_l_zero_temp J g om p m mq mu f0.

(* qcd/thermal.rs 87-89 *)
Definition qcd_gluon_dressing_t_zero_temp {T : Type} {N : Num T} (J : Integrator) (g : globals R) (om : T) (p : R) (m mq mu f0 : R) : C :=
  ninv (qcd_gluon_dressing_t_inv_zero_temp J g om p m mq mu f0).

(* qcd/thermal.rs 95-97 *)
Definition qcd_gluon_propagator_t_zero_temp {T : Type} {N : Num T} (J : Integrator) (g : globals R) (om : T) (p : R) (m mq mu f0 : R) : C :=
  toC (ninv (om * om + ofR (p * p))) * qcd_gluon_dressing_t_zero_temp J g om p m mq mu f0.

(* qcd/thermal.rs 99-124 *)
Definition qcd_gluon_dressing_l_inv_w_field_config {T : Type} {N : Num T} (J : Integrator) (g : globals R) (om : T) (p : R) (beta mu f0 : R) (config : FieldConfig) : C :=
  let m := fc_gluon config in
  let sdim := om * om + ofR (p * p) in
  let s := sdim / ofR (m * m) in
  let quark_contribution := sum_quarks (fun qi => (polarization_quark_l_thermal_part_landau J g om p (qi_mq qi) beta mu) * toC (INR (qi_nf qi))) (fc_quarks_internal config) in
  toC (qcd_gluon_dressing_inv_landau_w_field_config s f0 config) - toC (ninv sdim * ofR PREFACTOR) * (polarization_glue_l_thermal_part_landau J g om p m beta + quark_contribution).

(* qcd/thermal.rs 126-151 *)
Definition qcd_gluon_dressing_t_inv_w_field_config {T : Type} {N : Num T} (J : Integrator) (g : globals R) (om : T) (p : R) (beta mu f0 : R) (config : FieldConfig) : C :=
  let m := fc_gluon config in
  let sdim := om * om + ofR (p * p) in
  let s := sdim / ofR (m * m) in
  let quark_contribution := sum_quarks (fun qi => (polarization_quark_t_thermal_part_landau J g om p (qi_mq qi) beta mu) * toC (INR (qi_nf qi))) (fc_quarks_internal config) in
  toC (qcd_gluon_dressing_inv_landau_w_field_config s f0 config) - toC (ninv sdim * ofR PREFACTOR) * (polarization_glue_t_thermal_part_landau J g om p m beta + quark_contribution).

(* qcd/thermal.rs 153-162 *)
Definition qcd_gluon_dressing_l_w_field_config {T : Type} {N : Num T} (J : Integrator) (g : globals R) (om : T) (p : R) (beta mu f0 : R) (config : FieldConfig) : C :=
  ninv (qcd_gluon_dressing_l_inv_w_field_config J g om p beta mu f0 config).

(* qcd/thermal.rs 175-185 *)
Definition qcd_gluon_propagator_l_w_field_config {T : Type} {N : Num T} (J : Integrator) (g : globals R) (om : T) (p : R) (beta mu f0 : R) (config : FieldConfig) : C :=
  toC (ninv (om * om + ofR (p * p))) * qcd_gluon_dressing_l_w_field_config J g om p beta mu f0 config.

(* qcd/thermal.rs 164-173 *)
Definition qcd_gluon_dressing_t_w_field_config {T : Type} {N : Num T} (J : Integrator) (g : globals R) (om : T) (p : R) (beta mu f0 : R) (config : FieldConfig) : C :=
  ninv (qcd_gluon_dressing_t_inv_w_field_config J g om p beta mu f0 config).

(* qcd/thermal.rs 187-196 *)
Definition qcd_gluon_propagator_t_w_field_config {T : Type} {N : Num T} (J : Integrator) (g : globals R) (om : T) (p : R) (beta mu f0 : R) (config : FieldConfig) : C :=
  toC (ninv (om * om + ofR (p * p))) * qcd_gluon_dressing_t_w_field_config J g om p beta mu f0 config.

(* qcd/thermal.rs 198-219 *)
Definition qcd_gluon_dressing_l_inv_zero_temp_w_field_config {T : Type} {N : Num T} (J : Integrator) (g : globals R) (om : T) (p : R) (mu f0 : R) (config : FieldConfig) : C :=
  let m := fc_gluon config in
  let sdim := om * om + ofR (p * p) in
  let s := sdim / ofR (m * m) in
  let quark_contribution := sum_quarks (fun qi => (polarization_quark_l_thermal_part_zero_temp_landau J g om p (qi_mq qi) mu) * toC (INR (qi_nf qi))) (fc_quarks_internal config) in
  toC (qcd_gluon_dressing_inv_landau_w_field_config s f0 config) - toC (ninv sdim * ofR PREFACTOR) * (quark_contribution).

(* qcd/thermal.rs 221-242 *)
Definition qcd_gluon_dressing_t_inv_zero_temp_w_field_config {T : Type} {N : Num T} (J : Integrator) (g : globals R) (om : T) (p : R) (mu f0 : R) (config : FieldConfig) : C :=
  let m := fc_gluon config in
  let sdim := om * om + ofR (p * p) in
  let s := sdim / ofR (m * m) in
  let quark_contribution := sum_quarks (fun qi => (polarization_quark_t_thermal_part_zero_temp_landau J g om p (qi_mq qi) mu) * toC (INR (qi_nf qi))) (fc_quarks_internal config) in
  toC (qcd_gluon_dressing_inv_landau_w_field_config s f0 config) - toC (ninv sdim * ofR PREFACTOR) * (quark_contribution).

(* qcd/thermal.rs 244-252 *)
Definition qcd_gluon_dressing_l_zero_temp_w_field_config {T : Type} {N : Num T} (J : Integrator) (g : globals R) (om : T) (p : R) (mu f0 : R) (config : FieldConfig) : C :=
  ninv (qcd_gluon_dressing_l_inv_zero_temp_w_field_config J g om p mu f0 config).

(* qcd/thermal.rs 264-273 *)
Definition qcd_gluon_propagator_l_zero_temp_w_field_config {T : Type} {N : Num T} (J : Integrator) (g : globals R) (om : T) (p : R) (mu f0 : R) (config : FieldConfig) : C :=
  toC (ninv (om * om + ofR (p * p))) * qcd_gluon_dressing_l_zero_temp_w_field_config J g om p mu f0 config.

(* qcd/thermal.rs 254-262 *)
Definition qcd_gluon_dressing_t_zero_temp_w_field_config {T : Type} {N : Num T} (J : Integrator) (g : globals R) (om : T) (p : R) (mu f0 : R) (config : FieldConfig) : C :=
  ninv (qcd_gluon_dressing_t_inv_zero_temp_w_field_config J g om p mu f0 config).

(* qcd/thermal.rs 275-283 *)
Definition qcd_gluon_propagator_t_zero_temp_w_field_config {T : Type} {N : Num T} (J : Integrator) (g : globals R) (om : T) (p : R) (mu f0 : R) (config : FieldConfig) : C :=
  toC (ninv (om * om + ofR (p * p))) * qcd_gluon_dressing_t_zero_temp_w_field_config J g om p mu f0 config.

(* qcd/thermal.rs 380-392 *)
Definition zm_qcd_gluon_dressing_l_inv (J : Integrator) (g : globals R) (p : R) (m mq beta mu f0 : R) : R :=
  let sdim := p * p in
  let s := sdim / ofR (m * m) in
  qcd_gluon_dressing_inv_landau (nf_div_nc g) s (mq / m) f0 - (PREFACTOR * (INR (get_number_of_fermions g) * (zm_polarization_quark_l_thermal_part_landau J g p mq beta mu) + zm_polarization_glue_l_thermal_part_landau J g p m beta)) / sdim.

(* qcd/thermal.rs 394-406 *)
Definition zm_qcd_gluon_dressing_t_inv (J : Integrator) (g : globals R) (p : R) (m mq beta mu f0 : R) : R :=
  let sdim := p * p in
  let s := sdim / ofR (m * m) in
  qcd_gluon_dressing_inv_landau (nf_div_nc g) s (mq / m) f0 - (PREFACTOR * (INR (get_number_of_fermions g) * (zm_polarization_quark_t_thermal_part_landau J g p mq beta mu) + zm_polarization_glue_t_thermal_part_landau J g p m beta)) / sdim.

(* qcd/thermal.rs 408-410 *)
Definition zm_qcd_gluon_dressing_l (J : Integrator) (g : globals R) (p : R) (m mq beta mu f0 : R) : R :=
  ninv (zm_qcd_gluon_dressing_l_inv J g p m mq beta mu f0).

(* qcd/thermal.rs 416-418 *)
Definition zm_qcd_gluon_propagator_l (J : Integrator) (g : globals R) (p : R) (m mq beta mu f0 : R) : R :=
  zm_qcd_gluon_dressing_l J g p m mq beta mu f0 / (p * p).

(* qcd/thermal.rs 412-414 *)
Definition zm_qcd_gluon_dressing_t (J : Integrator) (g : globals R) (p : R) (m mq beta mu f0 : R) : R :=
  ninv (zm_qcd_gluon_dressing_t_inv J g p m mq beta mu f0).

(* qcd/thermal.rs 420-422 *)
Definition zm_qcd_gluon_propagator_t (J : Integrator) (g : globals R) (p : R) (m mq beta mu f0 : R) : R :=
  zm_qcd_gluon_dressing_t J g p m mq beta mu f0 / (p * p).

(* qcd/thermal.rs 424-433 *)
Definition zm_qcd_gluon_dressing_l_inv_zero_temp (J : Integrator) (g : globals R) (p : R) (m mq mu f0 : R) : R :=
  let sdim := p * p in
  let s := sdim / ofR (m * m) in
  qcd_gluon_dressing_inv_landau (nf_div_nc g) s (mq / m) f0 - (PREFACTOR * (INR (get_number_of_fermions g) * (zm_polarization_quark_l_thermal_part_zero_temp_landau J g p mq mu))) / sdim.

(* qcd/thermal.rs 435-444 *)
Definition zm_qcd_gluon_dressing_t_inv_zero_temp (J : Integrator) (g : globals R) (p : R) (m mq mu f0 : R) : R :=
  let sdim := p * p in
  let s := sdim / ofR (m * m) in
  qcd_gluon_dressing_inv_landau (nf_div_nc g) s (mq / m) f0 - (PREFACTOR * (INR (get_number_of_fermions g) * (zm_polarization_quark_t_thermal_part_zero_temp_landau J g p mq mu))) / sdim.

(* qcd/thermal.rs 446-448 *)
Definition zm_qcd_gluon_dressing_l_zero_temp (J : Integrator) (g : globals R) (p : R) (m mq mu f0 : R) : R :=
  ninv (zm_qcd_gluon_dressing_l_inv_zero_temp J g p m mq mu f0).

(* qcd/thermal.rs 454-456 *)
Definition zm_qcd_gluon_propagator_l_zero_temp (J : Integrator) (g : globals R) (p : R) (m mq mu f0 : R) : R :=
  zm_qcd_gluon_dressing_l_zero_temp J g p m mq mu f0 / (p * p).

(* qcd/thermal.rs 450-452 *)
Definition zm_qcd_gluon_dressing_t_zero_temp (J : Integrator) (g : globals R) (p : R) (m mq mu f0 : R) : R :=
  ninv (zm_qcd_gluon_dressing_t_inv_zero_temp J g p m mq mu f0).

(* qcd/thermal.rs 458-460 *)
Definition zm_qcd_gluon_propagator_t_zero_temp (J : Integrator) (g : globals R) (p : R) (m mq mu f0 : R) : R :=
  zm_qcd_gluon_dressing_t_zero_temp J g p m mq mu f0 / (p * p).

(* qcd/thermal.rs 462-486 *)
Definition zm_qcd_gluon_dressing_l_inv_w_field_config (J : Integrator) (g : globals R) (p : R) (beta mu f0 : R) (config : FieldConfig) : R :=
  let m := fc_gluon config in
  let sdim := p * p in
  let s := sdim / ofR (m * m) in
  let quark_contribution := sum_quarks (fun qi => (zm_polarization_quark_l_thermal_part_landau J g p (qi_mq qi) beta mu) * ofR (INR (qi_nf qi))) (fc_quarks_internal config) in
  qcd_gluon_dressing_inv_landau_w_field_config s f0 config - (PREFACTOR * (zm_polarization_glue_l_thermal_part_landau J g p m beta + quark_contribution)) / sdim.

(* qcd/thermal.rs 488-512 *)
Definition zm_qcd_gluon_dressing_t_inv_w_field_config (J : Integrator) (g : globals R) (p : R) (beta mu f0 : R) (config : FieldConfig) : R :=
  let m := fc_gluon config in
  let sdim := p * p in
  let s := sdim / ofR (m * m) in
  let quark_contribution := sum_quarks (fun qi => (zm_polarization_quark_t_thermal_part_landau J g p (qi_mq qi) beta mu) * ofR (INR (qi_nf qi))) (fc_quarks_internal config) in
  qcd_gluon_dressing_inv_landau_w_field_config s f0 config - (PREFACTOR * (zm_polarization_glue_t_thermal_part_landau J g p m beta + quark_contribution)) / sdim.

(* qcd/thermal.rs 514-522 *)
Definition zm_qcd_gluon_dressing_l_w_field_config (J : Integrator) (g : globals R) (p : R) (beta mu f0 : R) (config : FieldConfig) : R :=
  ninv (zm_qcd_gluon_dressing_l_inv_w_field_config J g p beta mu f0 config).

(* qcd/thermal.rs 534-542 *)
Definition zm_qcd_gluon_propagator_l_w_field_config (J : Integrator) (g : globals R) (p : R) (beta mu f0 : R) (config : FieldConfig) : R :=
  zm_qcd_gluon_dressing_l_w_field_config J g p beta mu f0 config / (p * p).

(* qcd/thermal.rs 524-532 *)
Definition zm_qcd_gluon_dressing_t_w_field_config (J : Integrator) (g : globals R) (p : R) (beta mu f0 : R) (config : FieldConfig) : R :=
  ninv (zm_qcd_gluon_dressing_t_inv_w_field_config J g p beta mu f0 config).

(* qcd/thermal.rs 544-552 *)
Definition zm_qcd_gluon_propagator_t_w_field_config (J : Integrator) (g : globals R) (p : R) (beta mu f0 : R) (config : FieldConfig) : R :=
  zm_qcd_gluon_dressing_t_w_field_config J g p beta mu f0 config / (p * p).

(* qcd/thermal.rs 554-573 *)
Definition zm_qcd_gluon_dressing_l_inv_zero_temp_w_field_config (J : Integrator) (g : globals R) (p : R) (mu f0 : R) (config : FieldConfig) : R :=
  let m := fc_gluon config in
  let sdim := p * p in
  let s := sdim / ofR (m * m) in
  let quark_contribution := sum_quarks (fun qi => (zm_polarization_quark_l_thermal_part_zero_temp_landau J g p (qi_mq qi) mu) * ofR (INR (qi_nf qi))) (fc_quarks_internal config) in
  qcd_gluon_dressing_inv_landau_w_field_config s f0 config - (PREFACTOR * (quark_contribution)) / sdim.

(* qcd/thermal.rs 575-594 *)
Definition zm_qcd_gluon_dressing_t_inv_zero_temp_w_field_config (J : Integrator) (g : globals R) (p : R) (mu f0 : R) (config : FieldConfig) : R :=
  let m := fc_gluon config in
  let sdim := p * p in
  let s := sdim / ofR (m * m) in
  let quark_contribution := sum_quarks (fun qi => (zm_polarization_quark_t_thermal_part_zero_temp_landau J g p (qi_mq qi) mu) * ofR (INR (qi_nf qi))) (fc_quarks_internal config) in
  qcd_gluon_dressing_inv_landau_w_field_config s f0 config - (PREFACTOR * (quark_contribution)) / sdim.

(* qcd/thermal.rs 596-603 *)
Definition zm_qcd_gluon_dressing_l_zero_temp_w_field_config (J : Integrator) (g : globals R) (p : R) (mu f0 : R) (config : FieldConfig) : R :=
  ninv (zm_qcd_gluon_dressing_l_inv_zero_temp_w_field_config J g p mu f0 config).

(* qcd/thermal.rs 614-621 *)
Definition zm_qcd_gluon_propagator_l_zero_temp_w_field_config (J : Integrator) (g : globals R) (p : R) (mu f0 : R) (config : FieldConfig) : R :=
  zm_qcd_gluon_dressing_l_zero_temp_w_field_config J g p mu f0 config / (p * p).

(* qcd/thermal.rs 605-612 *)
Definition zm_qcd_gluon_dressing_t_zero_temp_w_field_config (J : Integrator) (g : globals R) (p : R) (mu f0 : R) (config : FieldConfig) : R :=
  ninv (zm_qcd_gluon_dressing_t_inv_zero_temp_w_field_config J g p mu f0 config).

(* qcd/thermal.rs 623-630 *)
Definition zm_qcd_gluon_propagator_t_zero_temp_w_field_config (J : Integrator) (g : globals R) (p : R) (mu f0 : R) (config : FieldConfig) : R :=
  zm_qcd_gluon_dressing_t_zero_temp_w_field_config J g p mu f0 config / (p * p).

(* qcd/thermal.rs 651-662 *)
Definition zp_qcd_gluon_dressing_l_inv {T : Type} {N : Num T} (J : Integrator) (g : globals R) (om : T) (m mq beta mu f0 : R) : C :=
  let sdim := om * om in
  let s := sdim / ofR (m * m) in
  toC (qcd_gluon_dressing_inv_landau (nf_div_nc g) s (mq / m) f0) - toC (ninv sdim * ofR PREFACTOR) * (zp_polarization_glue_l_thermal_part_landau J g om m beta + toC (INR (get_number_of_fermions g)) * (zp_polarization_quark_l_thermal_part_landau J g om mq beta mu)).

(* qcd/thermal.rs 664-675 *)
Definition zp_qcd_gluon_dressing_t_inv {T : Type} {N : Num T} (J : Integrator) (g : globals R) (om : T) (m mq beta mu f0 : R) : C :=
  let sdim := om * om in
  let s := sdim / ofR (m * m) in
  toC (qcd_gluon_dressing_inv_landau (nf_div_nc g) s (mq / m) f0) - toC (ninv sdim * ofR PREFACTOR) * (zp_polarization_glue_t_thermal_part_landau J g om m beta + toC (INR (get_number_of_fermions g)) * (zp_polarization_quark_t_thermal_part_landau J g om mq beta mu)).

(* qcd/thermal.rs 677-679 *)
Definition zp_qcd_gluon_dressing_l {T : Type} {N : Num T} (J : Integrator) (g : globals R) (om : T) (m mq beta mu f0 : R) : C :=
  ninv (zp_qcd_gluon_dressing_l_inv J g om m mq beta mu f0).

(* qcd/thermal.rs 685-687 *)
Definition zp_qcd_gluon_propagator_l {T : Type} {N : Num T} (J : Integrator) (g : globals R) (om : T) (m mq beta mu f0 : R) : C :=
  toC (ninv (om * om)) * zp_qcd_gluon_dressing_l J g om m mq beta mu f0.

(* qcd/thermal.rs 681-683 *)
Definition zp_qcd_gluon_dressing_t {T : Type} {N : Num T} (J : Integrator) (g : globals R) (om : T) (m mq beta mu f0 : R) : C :=
  ninv (zp_qcd_gluon_dressing_t_inv J g om m mq beta mu f0).

(* qcd/thermal.rs 689-691 *)
Definition zp_qcd_gluon_propagator_t {T : Type} {N : Num T} (J : Integrator) (g : globals R) (om : T) (m mq beta mu f0 : R) : C :=
  toC (ninv (om * om)) * zp_qcd_gluon_dressing_t J g om m mq beta mu f0.

(* qcd/thermal.rs 693-703 *)
Definition zp_qcd_gluon_dressing_l_inv_zero_temp {T : Type} {N : Num T} (J : Integrator) (g : globals R) (om : T) (m mq mu f0 : R) : C :=
  let sdim := om * om in
  let s := sdim / ofR (m * m) in
  toC (qcd_gluon_dressing_inv_landau (nf_div_nc g) s (mq / m) f0) - toC (ninv sdim * ofR PREFACTOR) * (toC (INR (get_number_of_fermions g)) * (zp_polarization_quark_l_thermal_part_zero_temp_landau J g om mq mu)).

(* qcd/thermal.rs 705-715 *)
Definition zp_qcd_gluon_dressing_t_inv_zero_temp {T : Type} {N : Num T} (J : Integrator) (g : globals R) (om : T) (m mq mu f0 : R) : C :=
  let sdim := om * om in
  let s := sdim / ofR (m * m) in
  toC (qcd_gluon_dressing_inv_landau (nf_div_nc g) s (mq / m) f0) - toC (ninv sdim * ofR PREFACTOR) * (toC (INR (get_number_of_fermions g)) * (zp_polarization_quark_t_thermal_part_zero_temp_landau J g om mq mu)).

(* qcd/thermal.rs 717-719 *)
Definition zp_qcd_gluon_dressing_l_zero_temp {T : Type} {N : Num T} (J : Integrator) (g : globals R) (om : T) (m mq mu f0 : R) : C :=
  ninv (zp_qcd_gluon_dressing_l_inv_zero_temp J g om m mq mu f0).

(* qcd/thermal.rs 725-727 *)
Definition zp_qcd_gluon_propagator_l_zero_temp {T : Type} {N : Num T} (J : Integrator) (g : globals R) (om : T) (m mq mu f0 : R) : C :=
  toC (ninv (om * om)) * zp_qcd_gluon_dressing_l_zero_temp J g om m mq mu f0.

(* qcd/thermal.rs 721-723 *)
Definition zp_qcd_gluon_dressing_t_zero_temp {T : Type} {N : Num T} (J : Integrator) (g : globals R) (om : T) (m mq mu f0 : R) : C :=
  ninv (zp_qcd_gluon_dressing_t_inv_zero_temp J g om m mq mu f0).

(* qcd/thermal.rs 729-731 *)
Definition zp_qcd_gluon_propagator_t_zero_temp {T : Type} {N : Num T} (J : Integrator) (g : globals R) (om : T) (m mq mu f0 : R) : C :=
  toC (ninv (om * om)) * zp_qcd_gluon_dressing_t_zero_temp J g om m mq mu f0.

(* qcd/thermal.rs 733-757 *)
Definition zp_qcd_gluon_dressing_l_inv_w_field_config {T : Type} {N : Num T} (J : Integrator) (g : globals R) (om : T) (beta mu f0 : R) (config : FieldConfig) : C :=
  let m := fc_gluon config in
  let sdim := om * om in
  let s := sdim / ofR (m * m) in
  let quark_contribution := sum_quarks (fun qi => (zp_polarization_quark_l_thermal_part_landau J g om (qi_mq qi) beta mu) * toC (INR (qi_nf qi))) (fc_quarks_internal config) in
  toC (qcd_gluon_dressing_inv_landau_w_field_config s f0 config) - toC (ninv sdim * ofR PREFACTOR) * (zp_polarization_glue_l_thermal_part_landau J g om m beta + quark_contribution).

(* qcd/thermal.rs 759-783 *)
Definition zp_qcd_gluon_dressing_t_inv_w_field_config {T : Type} {N : Num T} (J : Integrator) (g : globals R) (om : T) (beta mu f0 : R) (config : FieldConfig) : C :=
  let m := fc_gluon config in
  let sdim := om * om in
  let s := sdim / ofR (m * m) in
  let quark_contribution := sum_quarks (fun qi => (zp_polarization_quark_t_thermal_part_landau J g om (qi_mq qi) beta mu) * toC (INR (qi_nf qi))) (fc_quarks_internal config) in
  toC (qcd_gluon_dressing_inv_landau_w_field_config s f0 config) - toC (ninv sdim * ofR PREFACTOR) * (zp_polarization_glue_t_thermal_part_landau J g om m beta + quark_contribution).

(* qcd/thermal.rs 785-793 *)
Definition zp_qcd_gluon_dressing_l_w_field_config {T : Type} {N : Num T} (J : Integrator) (g : globals R) (om : T) (beta mu f0 : R) (config : FieldConfig) : C :=
  ninv (zp_qcd_gluon_dressing_l_inv_w_field_config J g om beta mu f0 config).

(* qcd/thermal.rs 805-813 *)
Definition zp_qcd_gluon_propagator_l_w_field_config {T : Type} {N : Num T} (J : Integrator) (g : globals R) (om : T) (beta mu f0 : R) (config : FieldConfig) : C :=
  toC (ninv (om * om)) * zp_qcd_gluon_dressing_l_w_field_config J g om beta mu f0 config.

(* qcd/thermal.rs 795-803 *)
Definition zp_qcd_gluon_dressing_t_w_field_config {T : Type} {N : Num T} (J : Integrator) (g : globals R) (om : T) (beta mu f0 : R) (config : FieldConfig) : C :=
  ninv (zp_qcd_gluon_dressing_t_inv_w_field_config J g om beta mu f0 config).

(* qcd/thermal.rs 815-823 *)
Definition zp_qcd_gluon_propagator_t_w_field_config {T : Type} {N : Num T} (J : Integrator) (g : globals R) (om : T) (beta mu f0 : R) (config : FieldConfig) : C :=
  toC (ninv (om * om)) * zp_qcd_gluon_dressing_t_w_field_config J g om beta mu f0 config.

(* qcd/thermal.rs 825-845 *)
Definition zp_qcd_gluon_dressing_l_inv_zero_temp_w_field_config {T : Type} {N : Num T} (J : Integrator) (g : globals R) (om : T) (mu f0 : R) (config : FieldConfig) : C :=
  let m := fc_gluon config in
  let sdim := om * om in
  let s := sdim / ofR (m * m) in
  let quark_contribution := sum_quarks (fun qi => (zp_polarization_quark_l_thermal_part_zero_temp_landau J g om (qi_mq qi) mu) * toC (INR (qi_nf qi))) (fc_quarks_internal config) in
  toC (qcd_gluon_dressing_inv_landau_w_field_config s f0 config) - toC (ninv sdim * ofR PREFACTOR) * (quark_contribution).

(* qcd/thermal.rs 847-867 *)
Definition zp_qcd_gluon_dressing_t_inv_zero_temp_w_field_config {T : Type} {N : Num T} (J : Integrator) (g : globals R) (om : T) (mu f0 : R) (config : FieldConfig) : C :=
  let m := fc_gluon config in
  let sdim := om * om in
  let s := sdim / ofR (m * m) in
  let quark_contribution := sum_quarks (fun qi => (zp_polarization_quark_t_thermal_part_zero_temp_landau J g om (qi_mq qi) mu) * toC (INR (qi_nf qi))) (fc_quarks_internal config) in
  toC (qcd_gluon_dressing_inv_landau_w_field_config s f0 config) - toC (ninv sdim * ofR PREFACTOR) * (quark_contribution).

(* qcd/thermal.rs 869-876 *)
Definition zp_qcd_gluon_dressing_l_zero_temp_w_field_config {T : Type} {N : Num T} (J : Integrator) (g : globals R) (om : T) (mu f0 : R) (config : FieldConfig) : C :=
  ninv (zp_qcd_gluon_dressing_l_inv_zero_temp_w_field_config J g om mu f0 config).

(* qcd/thermal.rs 887-894 *)
Definition zp_qcd_gluon_propagator_l_zero_temp_w_field_config {T : Type} {N : Num T} (J : Integrator) (g : globals R) (om : T) (mu f0 : R) (config : FieldConfig) : C :=
  toC (ninv (om * om)) * zp_qcd_gluon_dressing_l_zero_temp_w_field_config J g om mu f0 config.

(* qcd/thermal.rs 878-885 *)
Definition zp_qcd_gluon_dressing_t_zero_temp_w_field_config {T : Type} {N : Num T} (J : Integrator) (g : globals R) (om : T) (mu f0 : R) (config : FieldConfig) : C :=
  ninv (zp_qcd_gluon_dressing_t_inv_zero_temp_w_field_config J g om mu f0 config).

(* qcd/thermal.rs 896-903 *)
Definition zp_qcd_gluon_propagator_t_zero_temp_w_field_config {T : Type} {N : Num T} (J : Integrator) (g : globals R) (om : T) (mu f0 : R) (config : FieldConfig) : C :=
  toC (ninv (om * om)) * zp_qcd_gluon_dressing_t_zero_temp_w_field_config J g om mu f0 config.
