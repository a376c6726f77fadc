(** * Vocabulary for the vacuum functions *)
From Coq Require Import Reals List.
From Coquelicot Require Import Coquelicot.
From Verif Require Import Num MVacuum.
Import ListNotations.
Open Scope R_scope.

(** [z] is not on the cut (-oo, 0]. *)
Definition off_cut (z : C) : Prop := ~ (snd z = 0 /\ fst z <= 0).

(** The public one-variable vacuum functions, all other arguments fixed:
    [r] is the global nf/nc, [cfg] a field configuration. *)
Definition vacuum_functions {T : Type} {NT : Num T} (r g0 f0 xi mq : R) (cfg : FieldConfig) : list (T -> T) :=
  [ gh_g; gh_g_xi; gl_f; gl_f_xi; gl_f_q; gl_f_q_crossed;
    (fun s => ym_ghost_dressing_inv_landau s g0);
    (fun s => ym_ghost_dressing_inv s g0 xi);
    (fun s => ym_ghost_dressing_landau s g0);
    (fun s => ym_ghost_dressing s g0 xi);
    (fun s => ym_ghost_propagator_landau s g0);
    (fun s => ym_ghost_propagator s g0 xi);
    (fun s => ym_gluon_dressing_inv_landau s f0);
    (fun s => ym_gluon_dressing_inv s f0 xi);
    (fun s => ym_gluon_dressing_landau s f0);
    (fun s => ym_gluon_dressing s f0 xi);
    (fun s => ym_gluon_propagator_landau s f0);
    (fun s => ym_gluon_propagator s f0 xi);
    (fun s => qcd_gluon_dressing_inv_landau r s mq f0);
    (fun s => qcd_gluon_dressing_inv r s mq f0 xi);
    (fun s => qcd_gluon_dressing_landau r s mq f0);
    (fun s => qcd_gluon_dressing r s mq f0 xi);
    (fun s => qcd_gluon_propagator_landau r s mq f0);
    (fun s => qcd_gluon_propagator r s mq f0 xi);
    (fun s => qcd_gluon_dressing_crossed_inv_landau r s mq f0);
    (fun s => qcd_gluon_dressing_crossed_inv r s mq f0 xi);
    (fun s => qcd_gluon_dressing_crossed_landau r s mq f0);
    (fun s => qcd_gluon_dressing_crossed r s mq f0 xi);
    (fun s => qcd_gluon_propagator_crossed_landau r s mq f0);
    (fun s => qcd_gluon_propagator_crossed r s mq f0 xi);
    (fun s => qcd_gluon_dressing_inv_landau_w_field_config s f0 cfg);
    (fun s => qcd_gluon_dressing_inv_w_field_config s f0 xi cfg);
    (fun s => qcd_gluon_dressing_landau_w_field_config s f0 cfg);
    (fun s => qcd_gluon_dressing_w_field_config s f0 xi cfg);
    (fun s => qcd_gluon_propagator_landau_w_field_config s f0 cfg);
    (fun s => qcd_gluon_propagator_w_field_config s f0 xi cfg);
    (fun s => qcd_gluon_dressing_crossed_inv_landau_w_field_config s f0 cfg);
    (fun s => qcd_gluon_dressing_crossed_inv_w_field_config s f0 xi cfg);
    (fun s => qcd_gluon_dressing_crossed_landau_w_field_config s f0 cfg);
    (fun s => qcd_gluon_dressing_crossed_w_field_config s f0 xi cfg);
    (fun s => qcd_gluon_propagator_crossed_landau_w_field_config s f0 cfg);
    (fun s => qcd_gluon_propagator_crossed_w_field_config s f0 xi cfg) ].

(** The inverse dressing functions as functions of s, additive constant and gauge
    parameter, in Landau gauge and in general gauge. *)
Definition inverse_dressings {T : Type} {NT : Num T} (r mq : R) (cfg : FieldConfig)
  : list ((T -> R -> T) * (T -> R -> R -> T)) :=
  [ (ym_ghost_dressing_inv_landau, ym_ghost_dressing_inv);
    (ym_gluon_dressing_inv_landau, ym_gluon_dressing_inv);
    ((fun s f0 => qcd_gluon_dressing_inv_landau r s mq f0), (fun s f0 xi => qcd_gluon_dressing_inv r s mq f0 xi));
    ((fun s f0 => qcd_gluon_dressing_crossed_inv_landau r s mq f0),
     (fun s f0 xi => qcd_gluon_dressing_crossed_inv r s mq f0 xi));
    ((fun s f0 => qcd_gluon_dressing_inv_landau_w_field_config s f0 cfg),
     (fun s f0 xi => qcd_gluon_dressing_inv_w_field_config s f0 xi cfg));
    ((fun s f0 => qcd_gluon_dressing_crossed_inv_landau_w_field_config s f0 cfg),
     (fun s f0 xi => qcd_gluon_dressing_crossed_inv_w_field_config s f0 xi cfg)) ].

(** (inverse dressing, dressing, propagator), same order, Landau then general. *)
Definition dressing_families {T : Type} {NT : Num T} (r g0 f0 xi mq : R) (cfg : FieldConfig)
  : list ((T -> T) * (T -> T) * (T -> T)) :=
  [ ((fun s => ym_ghost_dressing_inv_landau s g0), (fun s => ym_ghost_dressing_landau s g0), (fun s => ym_ghost_propagator_landau s g0));
    ((fun s => ym_ghost_dressing_inv s g0 xi), (fun s => ym_ghost_dressing s g0 xi), (fun s => ym_ghost_propagator s g0 xi));
    ((fun s => ym_gluon_dressing_inv_landau s f0), (fun s => ym_gluon_dressing_landau s f0), (fun s => ym_gluon_propagator_landau s f0));
    ((fun s => ym_gluon_dressing_inv s f0 xi), (fun s => ym_gluon_dressing s f0 xi), (fun s => ym_gluon_propagator s f0 xi));
    ((fun s => qcd_gluon_dressing_inv_landau r s mq f0), (fun s => qcd_gluon_dressing_landau r s mq f0), (fun s => qcd_gluon_propagator_landau r s mq f0));
    ((fun s => qcd_gluon_dressing_inv r s mq f0 xi), (fun s => qcd_gluon_dressing r s mq f0 xi), (fun s => qcd_gluon_propagator r s mq f0 xi));
    ((fun s => qcd_gluon_dressing_crossed_inv_landau r s mq f0), (fun s => qcd_gluon_dressing_crossed_landau r s mq f0), (fun s => qcd_gluon_propagator_crossed_landau r s mq f0));
    ((fun s => qcd_gluon_dressing_crossed_inv r s mq f0 xi), (fun s => qcd_gluon_dressing_crossed r s mq f0 xi), (fun s => qcd_gluon_propagator_crossed r s mq f0 xi));
    ((fun s => qcd_gluon_dressing_inv_landau_w_field_config s f0 cfg), (fun s => qcd_gluon_dressing_landau_w_field_config s f0 cfg), (fun s => qcd_gluon_propagator_landau_w_field_config s f0 cfg));
    ((fun s => qcd_gluon_dressing_inv_w_field_config s f0 xi cfg), (fun s => qcd_gluon_dressing_w_field_config s f0 xi cfg), (fun s => qcd_gluon_propagator_w_field_config s f0 xi cfg));
    ((fun s => qcd_gluon_dressing_crossed_inv_landau_w_field_config s f0 cfg), (fun s => qcd_gluon_dressing_crossed_landau_w_field_config s f0 cfg), (fun s => qcd_gluon_propagator_crossed_landau_w_field_config s f0 cfg));
    ((fun s => qcd_gluon_dressing_crossed_inv_w_field_config s f0 xi cfg), (fun s => qcd_gluon_dressing_crossed_w_field_config s f0 xi cfg), (fun s => qcd_gluon_propagator_crossed_w_field_config s f0 xi cfg)) ].

(** ** Field configurations *)
(** Sum over (flavour number, mass) pairs of (nf/nc) F(s m^2/mq^2). *)
Definition quark_sum_R (F : R -> R) (nc : nat) (m : R) (s : R) (l : list (nat * R)) : R :=
  fold_right (fun q acc => INR (fst q) / INR nc * F (s * (m * m) / (snd q * snd q)) + acc) 0 l.
Definition quark_sum_C (F : C -> C) (nc : nat) (m : R) (s : C) (l : list (nat * R)) : C :=
  fold_right (fun q acc => (RtoC (INR (fst q) / INR nc) * F (s * RtoC (m * m) / RtoC (snd q * snd q)) + acc)%C) (RtoC 0) l.

(** All public functions of a field configuration. *)
Definition field_config_functions {T : Type} {NT : Num T} (f0 xi : R) : list (T -> FieldConfig -> T) :=
  [ (fun s c => qcd_gluon_dressing_inv_landau_w_field_config s f0 c);
    (fun s c => qcd_gluon_dressing_inv_w_field_config s f0 xi c);
    (fun s c => qcd_gluon_dressing_landau_w_field_config s f0 c);
    (fun s c => qcd_gluon_dressing_w_field_config s f0 xi c);
    (fun s c => qcd_gluon_propagator_landau_w_field_config s f0 c);
    (fun s c => qcd_gluon_propagator_w_field_config s f0 xi c);
    (fun s c => qcd_gluon_dressing_crossed_inv_landau_w_field_config s f0 c);
    (fun s c => qcd_gluon_dressing_crossed_inv_w_field_config s f0 xi c);
    (fun s c => qcd_gluon_dressing_crossed_landau_w_field_config s f0 c);
    (fun s c => qcd_gluon_dressing_crossed_w_field_config s f0 xi c);
    (fun s c => qcd_gluon_propagator_crossed_landau_w_field_config s f0 c);
    (fun s c => qcd_gluon_propagator_crossed_w_field_config s f0 xi c) ].

(** The pure Yang-Mills functions, same order. *)
Definition yang_mills_functions {T : Type} {NT : Num T} (f0 xi : R) : list (T -> T) :=
  [ (fun s => ym_gluon_dressing_inv_landau s f0); (fun s => ym_gluon_dressing_inv s f0 xi);
    (fun s => ym_gluon_dressing_landau s f0); (fun s => ym_gluon_dressing s f0 xi);
    (fun s => ym_gluon_propagator_landau s f0); (fun s => ym_gluon_propagator s f0 xi);
    (fun s => ym_gluon_dressing_inv_landau s f0); (fun s => ym_gluon_dressing_inv s f0 xi);
    (fun s => ym_gluon_dressing_landau s f0); (fun s => ym_gluon_dressing s f0 xi);
    (fun s => ym_gluon_propagator_landau s f0); (fun s => ym_gluon_propagator s f0 xi) ].

(** The functions of the global nf/nc ratio, same order. *)
Definition global_functions {T : Type} {NT : Num T} (f0 xi : R) : list (R -> T -> R -> T) :=
  [ (fun r s mq => qcd_gluon_dressing_inv_landau r s mq f0); (fun r s mq => qcd_gluon_dressing_inv r s mq f0 xi);
    (fun r s mq => qcd_gluon_dressing_landau r s mq f0); (fun r s mq => qcd_gluon_dressing r s mq f0 xi);
    (fun r s mq => qcd_gluon_propagator_landau r s mq f0); (fun r s mq => qcd_gluon_propagator r s mq f0 xi);
    (fun r s mq => qcd_gluon_dressing_crossed_inv_landau r s mq f0); (fun r s mq => qcd_gluon_dressing_crossed_inv r s mq f0 xi);
    (fun r s mq => qcd_gluon_dressing_crossed_landau r s mq f0); (fun r s mq => qcd_gluon_dressing_crossed r s mq f0 xi);
    (fun r s mq => qcd_gluon_propagator_crossed_landau r s mq f0); (fun r s mq => qcd_gluon_propagator_crossed r s mq f0 xi) ].

(** Total number of flavours. *)
Definition flavours (l : list (nat * R)) : nat := list_sum (map fst l).
