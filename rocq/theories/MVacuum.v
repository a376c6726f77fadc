(** * Vacuum one-loop functions
    (qcd-sme/src/low_level/oneloop/{ghost,gluon}.rs, ym/{ghost,gluon}.rs,
     qcd/{types,gluon}.rs; qcd/ghost.rs only re-exports ym/ghost.rs)

    Functions reading the global ratio [nf_div_nc()] take it as a parameter. *)
From Coq Require Import Reals List.
From Coquelicot Require Import Coquelicot.
From Verif Require Import Num.
Open Scope R_scope.
Open Scope num_scope.

(** ** Ghost, low level *)
(* low_level/oneloop/ghost.rs 144-150 *)
Definition gh_l_g {T : Type} {NT : Num T} (s : T) (ln_s : T) (ln_s_pl_1 : T) : T :=
  let sinv := ninv s in
  let sinv2 := sinv * sinv in
  let s_pl_1 := s + (ofR 1) in
  let s_pl_1_2 := s_pl_1 * s_pl_1 in
  ((s_pl_1_2 * ((sinv * (ofR 2)) - sinv2)) * ln_s_pl_1) - ((s * (ofR 2)) * ln_s).

(* low_level/oneloop/ghost.rs 153-155 *)
Definition gh_r_g {T : Type} {NT : Num T} (s : T) : T :=
  (ninv s) + (ofR 2).

(* low_level/oneloop/ghost.rs 158-160 *)
Definition gh_g_sep {T : Type} {NT : Num T} (s : T) (ln_s : T) (ln_s_pl_1 : T) : T :=
  ((gh_l_g s ln_s ln_s_pl_1) + (gh_r_g s)) / (ofR 12).

(* low_level/oneloop/ghost.rs 163-168 *)
Definition gh_g {T : Type} {NT : Num T} (s : T) : T :=
  let s_pl_1 := s + (ofR 1) in
  let ln_s := nln s in
  let ln_s_pl_1 := nln s_pl_1 in
  gh_g_sep s ln_s ln_s_pl_1.

(* low_level/oneloop/ghost.rs 171-173 *)
Definition gh_g_xi_sep {T : Type} {NT : Num T} (ln_s : T) : T :=
  (- ln_s) / (ofR 12).

(* low_level/oneloop/ghost.rs 176-178 *)
Definition gh_g_xi {T : Type} {NT : Num T} (s : T) : T :=
  (- (nln s)) / (ofR 12).

(* low_level/oneloop/ghost.rs 181-183 *)
Definition gh_dressing_inv_landau_sep {T : Type} {NT : Num T} (s : T) (ln_s : T) (ln_s_pl_1 : T) (g0 : R) : T :=
  (gh_g_sep s ln_s ln_s_pl_1) + (ofR g0).

(* low_level/oneloop/ghost.rs 186-188 *)
Definition gh_dressing_inv_sep {T : Type} {NT : Num T} (s : T) (ln_s : T) (ln_s_pl_1 : T) (g0 : R) (xi : R) : T :=
  (gh_dressing_inv_landau_sep s ln_s ln_s_pl_1 g0) + ((gh_g_xi_sep ln_s) * (ofR xi)).

(** ** Gluon, low level *)
(* low_level/oneloop/gluon.rs 172-177 *)
Definition gl_l_a {T : Type} {NT : Num T} (s : T) (ln_s : T) : T :=
  let s2 := s * s in
  let sinv := ninv s in
  let a := nsqrt ((sinv * (ofR 4)) + (ofR 1)) in
  (((((s2 * (ofR 3)) - (s * (ofR 34))) - (ofR 28)) - (sinv * (ofR 24))) * a) * (((nln ((a - (ofR 1)) / (ofR 2))) * (ofR 2)) + ln_s).

(* low_level/oneloop/gluon.rs 180-187 *)
Definition gl_l_b {T : Type} {NT : Num T} (s : T) (ln_s_pl_1 : T) : T :=
  let sinv := ninv s in
  let sinv2 := sinv * sinv in
  let sinv3 := sinv * sinv2 in
  let s_pl_1 := s + (ofR 1) in
  let s_pl_1_2 := s_pl_1 * s_pl_1 in
  ((s_pl_1_2 * (((((- sinv) * (ofR 20)) + (ofR 3)) + (sinv2 * (ofR 11))) - (sinv3 * (ofR 2)))) * (ofR 2)) * ln_s_pl_1.

(* low_level/oneloop/gluon.rs 190-193 *)
Definition gl_l_c {T : Type} {NT : Num T} (s : T) (ln_s : T) : T :=
  let s2 := s * s in
  (((- s2) * (ofR 3)) + (ofR 2)) * ln_s.

(* low_level/oneloop/gluon.rs 196-199 *)
Definition gl_r_a {T : Type} {NT : Num T} (s : T) : T :=
  let sinv := ninv s in
  (- (s + (ofR 4))) * ((s - (ofR 20)) + (sinv * (ofR 12))).

(* low_level/oneloop/gluon.rs 202-208 *)
Definition gl_r_b {T : Type} {NT : Num T} (s : T) : T :=
  let sinv := ninv s in
  let sinv2 := sinv * sinv in
  let s_pl_1 := s + (ofR 1) in
  let s_pl_1_2 := s_pl_1 * s_pl_1 in
  (s_pl_1_2 * (ofR 2)) * ((((- sinv) * (ofR 10)) + (ofR 1)) + sinv2).

(* low_level/oneloop/gluon.rs 211-216 *)
Definition gl_r_c {T : Type} {NT : Num T} (s : T) : T :=
  let s2 := s * s in
  let sinv := ninv s in
  let sinv2 := sinv * sinv in
  ((sinv2 * (ofR 2)) + (ofR 2)) - s2.

(* low_level/oneloop/gluon.rs 219-223 *)
Definition gl_f_sep {T : Type} {NT : Num T} (s : T) (ln_s : T) (ln_s_pl_1 : T) : T :=
  let sinv := ninv s in
  (((((((gl_l_a s ln_s) + (gl_l_b s ln_s_pl_1)) + (gl_l_c s ln_s)) + (gl_r_a s)) + (gl_r_b s)) + (gl_r_c s)) / (ofR 72)) + ((sinv * (ofR 5)) / (ofR 8)).

(* low_level/oneloop/gluon.rs 226-231 *)
Definition gl_f {T : Type} {NT : Num T} (s : T) : T :=
  let s_pl_1 := s + (ofR 1) in
  let ln_s := nln s in
  let ln_s_pl_1 := nln s_pl_1 in
  gl_f_sep s ln_s ln_s_pl_1.

(* low_level/oneloop/gluon.rs 234-242 *)
Definition gl_f_xi_sep {T : Type} {NT : Num T} (s : T) (ln_s : T) (ln_s_pl_1 : T) : T :=
  let s2 := s * s in
  let sinv := ninv s in
  let sinv2 := sinv * sinv in
  (sinv / (ofR 4)) - (((((((s * (ofR 2)) * ln_s) - ((((sinv2 - sinv) * (sinv - s2)) * (ofR 2)) * ln_s_pl_1)) + (ofR 3)) - (sinv * (ofR 3))) + (sinv2 * (ofR 2))) / (ofR 12)).

(* low_level/oneloop/gluon.rs 245-250 *)
Definition gl_f_xi {T : Type} {NT : Num T} (s : T) : T :=
  let ln_s := nln s in
  let s_pl_1 := s + (ofR 1) in
  let ln_s_pl_1 := nln s_pl_1 in
  gl_f_xi_sep s ln_s ln_s_pl_1.

(* low_level/oneloop/gluon.rs 257-262 *)
Definition gl_f_q {T : Type} {NT : Num T} (s : T) : T :=
  let sinv := ninv s in
  let a2 := (sinv * (ofR 4)) + (ofR 1) in
  let a := nsqrt a2 in
  (((((((- sinv) + (ofR (5 / 10))) * a) * (nln ((a - (ofR 1)) / (a + (ofR 1))))) - (sinv * (ofR 2))) + (ofR (5 / 6))) * (ofR 4)) / (ofR 9).

(* low_level/oneloop/gluon.rs 269-275 *)
Definition gl_f_q_crossed {T : Type} {NT : Num T} (s : T) : T :=
  let sinv := ninv s in
  let sinv2 := sinv * sinv in
  let a2 := (sinv * (ofR 4)) + (ofR 1) in
  let a := nsqrt a2 in
  ((((sinv * (ofR 4)) - (ofR (1 / 6))) + ((((sinv + (ofR (5 / 10))) + (sinv2 * (ofR 8))) / a) * (nln ((a - (ofR 1)) / (a + (ofR 1)))))) * (ofR 4)) / (ofR 9).

(* low_level/oneloop/gluon.rs 278-280 *)
Definition gl_ym_dressing_inv_landau_sep {T : Type} {NT : Num T} (s : T) (ln_s : T) (ln_s_pl_1 : T) (f0 : R) : T :=
  (gl_f_sep s ln_s ln_s_pl_1) + (ofR f0).

(* low_level/oneloop/gluon.rs 283-285 *)
Definition gl_ym_dressing_inv_sep {T : Type} {NT : Num T} (s : T) (ln_s : T) (ln_s_pl_1 : T) (f0 : R) (xi : R) : T :=
  (gl_ym_dressing_inv_landau_sep s ln_s ln_s_pl_1 f0) + ((gl_f_xi_sep s ln_s ln_s_pl_1) * (ofR xi)).

(** ** Pure Yang-Mills, ghost *)
(* ym/ghost.rs 125-130 *)
Definition ym_ghost_dressing_inv_landau {T : Type} {NT : Num T} (s : T) (g0 : R) : T :=
  let s_pl_1 := s + (ofR 1) in
  let ln_s := nln s in
  let ln_s_pl_1 := nln s_pl_1 in
  gh_dressing_inv_landau_sep s ln_s ln_s_pl_1 g0.

(* ym/ghost.rs 133-138 *)
Definition ym_ghost_dressing_inv {T : Type} {NT : Num T} (s : T) (g0 : R) (xi : R) : T :=
  let s_pl_1 := s + (ofR 1) in
  let ln_s := nln s in
  let ln_s_pl_1 := nln s_pl_1 in
  gh_dressing_inv_sep s ln_s ln_s_pl_1 g0 xi.

(* ym/ghost.rs 141-143 *)
Definition ym_ghost_dressing_landau {T : Type} {NT : Num T} (s : T) (g0 : R) : T :=
  ninv (ym_ghost_dressing_inv_landau s g0).

(* ym/ghost.rs 146-148 *)
Definition ym_ghost_dressing {T : Type} {NT : Num T} (s : T) (g0 : R) (xi : R) : T :=
  ninv (ym_ghost_dressing_inv s g0 xi).

(* ym/ghost.rs 151-153 *)
Definition ym_ghost_propagator_landau {T : Type} {NT : Num T} (s : T) (g0 : R) : T :=
  (ninv s) * (ym_ghost_dressing_landau s g0).

(* ym/ghost.rs 156-158 *)
Definition ym_ghost_propagator {T : Type} {NT : Num T} (s : T) (g0 : R) (xi : R) : T :=
  (ninv s) * (ym_ghost_dressing s g0 xi).

(** ** Pure Yang-Mills, gluon *)
(* ym/gluon.rs 124-129 *)
Definition ym_gluon_dressing_inv_landau {T : Type} {NT : Num T} (s : T) (f0 : R) : T :=
  let s_pl_1 := s + (ofR 1) in
  let ln_s := nln s in
  let ln_s_pl_1 := nln s_pl_1 in
  gl_ym_dressing_inv_landau_sep s ln_s ln_s_pl_1 f0.

(* ym/gluon.rs 132-137 *)
Definition ym_gluon_dressing_inv {T : Type} {NT : Num T} (s : T) (f0 : R) (xi : R) : T :=
  let s_pl_1 := s + (ofR 1) in
  let ln_s := nln s in
  let ln_s_pl_1 := nln s_pl_1 in
  gl_ym_dressing_inv_sep s ln_s ln_s_pl_1 f0 xi.

(* ym/gluon.rs 140-142 *)
Definition ym_gluon_dressing_landau {T : Type} {NT : Num T} (s : T) (f0 : R) : T :=
  ninv (ym_gluon_dressing_inv_landau s f0).

(* ym/gluon.rs 145-147 *)
Definition ym_gluon_dressing {T : Type} {NT : Num T} (s : T) (f0 : R) (xi : R) : T :=
  ninv (ym_gluon_dressing_inv s f0 xi).

(* ym/gluon.rs 150-152 *)
Definition ym_gluon_propagator_landau {T : Type} {NT : Num T} (s : T) (f0 : R) : T :=
  (ym_gluon_dressing_landau s f0) * (ninv s).

(* ym/gluon.rs 155-157 *)
Definition ym_gluon_propagator {T : Type} {NT : Num T} (s : T) (f0 : R) (xi : R) : T :=
  (ym_gluon_dressing s f0 xi) * (ninv s).

(** ** QCD gluon with global variables *)
(* qcd/gluon.rs 275-282 *)
Definition qcd_gluon_dressing_inv_landau {T : Type} {NT : Num T} (nf_div_nc : R) (s : T) (mq : R) (f0 : R) : T :=
  let s_pl_1 := s + (ofR 1) in
  let ln_s := nln s in
  let ln_s_pl_1 := nln s_pl_1 in
  let mq2 := mq * mq in
  let s_q := s / (ofR mq2) in
  (gl_ym_dressing_inv_landau_sep s ln_s ln_s_pl_1 f0) + ((gl_f_q s_q) * (ofR nf_div_nc)).

(* qcd/gluon.rs 285-292 *)
Definition qcd_gluon_dressing_inv {T : Type} {NT : Num T} (nf_div_nc : R) (s : T) (mq : R) (f0 : R) (xi : R) : T :=
  let s_pl_1 := s + (ofR 1) in
  let ln_s := nln s in
  let ln_s_pl_1 := nln s_pl_1 in
  let mq2 := mq * mq in
  let s_q := s / (ofR mq2) in
  (gl_ym_dressing_inv_sep s ln_s ln_s_pl_1 f0 xi) + ((gl_f_q s_q) * (ofR nf_div_nc)).

(* qcd/gluon.rs 295-297 *)
Definition qcd_gluon_dressing_landau {T : Type} {NT : Num T} (nf_div_nc : R) (s : T) (mq : R) (f0 : R) : T :=
  ninv (qcd_gluon_dressing_inv_landau nf_div_nc s mq f0).

(* qcd/gluon.rs 300-302 *)
Definition qcd_gluon_dressing {T : Type} {NT : Num T} (nf_div_nc : R) (s : T) (mq : R) (f0 : R) (xi : R) : T :=
  ninv (qcd_gluon_dressing_inv nf_div_nc s mq f0 xi).

(* qcd/gluon.rs 305-307 *)
Definition qcd_gluon_propagator_landau {T : Type} {NT : Num T} (nf_div_nc : R) (s : T) (mq : R) (f0 : R) : T :=
  (qcd_gluon_dressing_landau nf_div_nc s mq f0) / s.

(* qcd/gluon.rs 310-312 *)
Definition qcd_gluon_propagator {T : Type} {NT : Num T} (nf_div_nc : R) (s : T) (mq : R) (f0 : R) (xi : R) : T :=
  (qcd_gluon_dressing nf_div_nc s mq f0 xi) / s.

(* qcd/gluon.rs 315-322 *)
Definition qcd_gluon_dressing_crossed_inv_landau {T : Type} {NT : Num T} (nf_div_nc : R) (s : T) (mq : R) (f0 : R) : T :=
  let s_pl_1 := s + (ofR 1) in
  let ln_s := nln s in
  let ln_s_pl_1 := nln s_pl_1 in
  let mq2 := mq * mq in
  let s_q := s / (ofR mq2) in
  (gl_ym_dressing_inv_landau_sep s ln_s ln_s_pl_1 f0) + ((gl_f_q_crossed s_q) * (ofR nf_div_nc)).

(* qcd/gluon.rs 325-332 *)
Definition qcd_gluon_dressing_crossed_inv {T : Type} {NT : Num T} (nf_div_nc : R) (s : T) (mq : R) (f0 : R) (xi : R) : T :=
  let s_pl_1 := s + (ofR 1) in
  let ln_s := nln s in
  let ln_s_pl_1 := nln s_pl_1 in
  let mq2 := mq * mq in
  let s_q := s / (ofR mq2) in
  (gl_ym_dressing_inv_sep s ln_s ln_s_pl_1 f0 xi) + ((gl_f_q_crossed s_q) * (ofR nf_div_nc)).

(* qcd/gluon.rs 335-337 *)
Definition qcd_gluon_dressing_crossed_landau {T : Type} {NT : Num T} (nf_div_nc : R) (s : T) (mq : R) (f0 : R) : T :=
  ninv (qcd_gluon_dressing_crossed_inv_landau nf_div_nc s mq f0).

(* qcd/gluon.rs 340-342 *)
Definition qcd_gluon_dressing_crossed {T : Type} {NT : Num T} (nf_div_nc : R) (s : T) (mq : R) (f0 : R) (xi : R) : T :=
  ninv (qcd_gluon_dressing_crossed_inv nf_div_nc s mq f0 xi).

(* qcd/gluon.rs 345-347 *)
Definition qcd_gluon_propagator_crossed_landau {T : Type} {NT : Num T} (nf_div_nc : R) (s : T) (mq : R) (f0 : R) : T :=
  (qcd_gluon_dressing_crossed_landau nf_div_nc s mq f0) / s.

(* qcd/gluon.rs 350-352 *)
Definition qcd_gluon_propagator_crossed {T : Type} {NT : Num T} (nf_div_nc : R) (s : T) (mq : R) (f0 : R) (xi : R) : T :=
  (qcd_gluon_dressing_crossed nf_div_nc s mq f0 xi) / s.

(** ** Field configurations *)

(* qcd/types.rs 33-39 *)
Record QuarkInternal := mkQI {
  qi_nf : nat;
  qi_mq : R;
  qi_nf_div_nc : R;
  qi_mq_div_m_2 : R
}.

(* qcd/types.rs 41-53 *)
Definition QuarkInternal_new (nc : nat) (m : R) (nf : nat) (mq : R) : QuarkInternal :=
  let nf_div_nc := (INR nf / INR nc)%R in
  let mq_div_m := (mq / m)%R in
  let mq_div_m_2 := (mq_div_m * mq_div_m)%R in
  mkQI nf mq nf_div_nc mq_div_m_2.

(* qcd/types.rs 6-16; [fc_nc], [fc_gluon], [fc_quarks] are the public fields *)
Record FieldConfig := mkFC {
  fc_nc : nat;
  fc_gluon : R;
  fc_quarks : list (nat * R);
  fc_quarks_internal : list QuarkInternal
}.

(* qcd/types.rs 19-30 *)
Definition FieldConfig_new (nc : nat) (gluon : R) (quarks : list (nat * R)) : FieldConfig :=
  mkFC nc gluon quarks
    (map (fun nm => QuarkInternal_new nc gluon (fst nm) (snd nm)) quarks).

(** Assignments to the public fields (plain Rust field writes). *)
Definition fc_write_nc (c : FieldConfig) (nc : nat) : FieldConfig :=
  mkFC nc (fc_gluon c) (fc_quarks c) (fc_quarks_internal c).
Definition fc_write_gluon (c : FieldConfig) (m : R) : FieldConfig :=
  mkFC (fc_nc c) m (fc_quarks c) (fc_quarks_internal c).
Definition fc_write_quarks (c : FieldConfig) (q : list (nat * R)) : FieldConfig :=
  mkFC (fc_nc c) (fc_gluon c) q (fc_quarks_internal c).

(** ** QCD gluon with a field configuration *)

(* qcd/gluon.rs 355-365 *)
Definition qcd_gluon_dressing_inv_landau_w_field_config {T : Type} {NT : Num T} (s : T) (f0 : R) (config : FieldConfig) : T :=
  let s_pl_1 := s + ofR 1 in
  let ln_s := nln s in
  let ln_s_pl_1 := nln s_pl_1 in
  fold_left (fun res qi =>
      let s_q := s / ofR (qi_mq_div_m_2 qi) in
      res + gl_f_q s_q * ofR (qi_nf_div_nc qi))
    (fc_quarks_internal config) (gl_ym_dressing_inv_landau_sep s ln_s ln_s_pl_1 f0).

(* qcd/gluon.rs 368-378 *)
Definition qcd_gluon_dressing_inv_w_field_config {T : Type} {NT : Num T} (s : T) (f0 : R) (xi : R) (config : FieldConfig) : T :=
  let s_pl_1 := s + ofR 1 in
  let ln_s := nln s in
  let ln_s_pl_1 := nln s_pl_1 in
  fold_left (fun res qi =>
      let s_q := s / ofR (qi_mq_div_m_2 qi) in
      res + gl_f_q s_q * ofR (qi_nf_div_nc qi))
    (fc_quarks_internal config) (gl_ym_dressing_inv_sep s ln_s ln_s_pl_1 f0 xi).

(* qcd/gluon.rs 381-383 *)
Definition qcd_gluon_dressing_landau_w_field_config {T : Type} {NT : Num T} (s : T) (f0 : R) (config : FieldConfig) : T :=
  ninv (qcd_gluon_dressing_inv_landau_w_field_config s f0 config).

(* qcd/gluon.rs 386-388 *)
Definition qcd_gluon_dressing_w_field_config {T : Type} {NT : Num T} (s : T) (f0 : R) (xi : R) (config : FieldConfig) : T :=
  ninv (qcd_gluon_dressing_inv_w_field_config s f0 xi config).

(* qcd/gluon.rs 391-393 *)
Definition qcd_gluon_propagator_landau_w_field_config {T : Type} {NT : Num T} (s : T) (f0 : R) (config : FieldConfig) : T :=
  (qcd_gluon_dressing_landau_w_field_config s f0 config) / s.

(* qcd/gluon.rs 396-398 *)
Definition qcd_gluon_propagator_w_field_config {T : Type} {NT : Num T} (s : T) (f0 : R) (xi : R) (config : FieldConfig) : T :=
  (qcd_gluon_dressing_w_field_config s f0 xi config) / s.

(* qcd/gluon.rs 401-415 *)
Definition qcd_gluon_dressing_crossed_inv_landau_w_field_config {T : Type} {NT : Num T} (s : T) (f0 : R) (config : FieldConfig) : T :=
  let s_pl_1 := s + ofR 1 in
  let ln_s := nln s in
  let ln_s_pl_1 := nln s_pl_1 in
  fold_left (fun res qi =>
      let s_q := s / ofR (qi_mq_div_m_2 qi) in
      res + gl_f_q_crossed s_q * ofR (qi_nf_div_nc qi))
    (fc_quarks_internal config) (gl_ym_dressing_inv_landau_sep s ln_s ln_s_pl_1 f0).

(* qcd/gluon.rs 418-433 *)
Definition qcd_gluon_dressing_crossed_inv_w_field_config {T : Type} {NT : Num T} (s : T) (f0 : R) (xi : R) (config : FieldConfig) : T :=
  let s_pl_1 := s + ofR 1 in
  let ln_s := nln s in
  let ln_s_pl_1 := nln s_pl_1 in
  fold_left (fun res qi =>
      let s_q := s / ofR (qi_mq_div_m_2 qi) in
      res + gl_f_q_crossed s_q * ofR (qi_nf_div_nc qi))
    (fc_quarks_internal config) (gl_ym_dressing_inv_sep s ln_s ln_s_pl_1 f0 xi).

(* qcd/gluon.rs 436-438 *)
Definition qcd_gluon_dressing_crossed_landau_w_field_config {T : Type} {NT : Num T} (s : T) (f0 : R) (config : FieldConfig) : T :=
  ninv (qcd_gluon_dressing_crossed_inv_landau_w_field_config s f0 config).

(* qcd/gluon.rs 441-443 *)
Definition qcd_gluon_dressing_crossed_w_field_config {T : Type} {NT : Num T} (s : T) (f0 : R) (xi : R) (config : FieldConfig) : T :=
  ninv (qcd_gluon_dressing_crossed_inv_w_field_config s f0 xi config).

(* qcd/gluon.rs 446-452 *)
Definition qcd_gluon_propagator_crossed_landau_w_field_config {T : Type} {NT : Num T} (s : T) (f0 : R) (config : FieldConfig) : T :=
  (qcd_gluon_dressing_crossed_landau_w_field_config s f0 config) / s.

(* qcd/gluon.rs 455-462 *)
Definition qcd_gluon_propagator_crossed_w_field_config {T : Type} {NT : Num T} (s : T) (f0 : R) (xi : R) (config : FieldConfig) : T :=
  (qcd_gluon_dressing_crossed_w_field_config s f0 xi config) / s.

