(** * Global variables and their setters (qcd-sme/src/consts.rs)

    The [static mut] variables are a record; a setter is a function from records
    to records. Everything is polymorphic in the floating-point type [F] and
    its operations [FloatOps], about which nothing is assumed, so that the
    results hold for idealised reals and for IEEE binary64 alike. *)
From Coq Require Import List Bool.
Import ListNotations.

(** The floating-point operations and literals used by consts.rs. *)
Record FloatOps (F : Type) := {
  f_of_u32 : nat -> F;          (* [n as R] *)
  f_div : F -> F -> F;
  f_pos : F -> bool;            (* [x > 0.], false on NaN *)
  f_eqb : F -> F -> bool;       (* [x == y], false on NaN *)
  f_lit_half : F;               (* 0.5 *)
  f_lit_1em10 : F;              (* 1E-10 *)
  f_lit_1em8 : F;               (* 1E-8 *)
  f_lit_1em5 : F                (* 1E-5 *)
}.
Arguments f_of_u32 {F}. Arguments f_div {F}. Arguments f_pos {F}. Arguments f_eqb {F}.
Arguments f_lit_half {F}. Arguments f_lit_1em10 {F}. Arguments f_lit_1em8 {F}. Arguments f_lit_1em5 {F}.

(* consts.rs 19, 44, 68, 77, 101, 130, 161: the statics *)
Record globals (F : Type) := mkGlobals {
  g_nc : nat;
  g_nf : nat;
  g_nf_div_nc : F;
  g_m_quark : F;
  g_tol_integral : F;
  g_max_iter_integral : nat;
  g_matsubara_reg : F
}.
Arguments mkGlobals {F}. Arguments g_nc {F}. Arguments g_nf {F}. Arguments g_nf_div_nc {F}.
Arguments g_m_quark {F}. Arguments g_tol_integral {F}. Arguments g_max_iter_integral {F}.
Arguments g_matsubara_reg {F}.

(** peroxide's [Integral] (external crate). The library itself only builds and
    inspects [G7K15(tol, max_iter)]; the other methods are represented by a
    natural number code. *)
Inductive Integral (F : Type) :=
| G7K15 (tol : F) (max_iter : nat)
| OtherMethod (code : nat) (tol : F) (max_iter : nat).
Arguments G7K15 {F}. Arguments OtherMethod {F}.

(** peroxide's [Integral::get_tol]. (For Newton-Cotes and Gauss-Legendre the
    external function panics; such methods are not represented.) *)
Definition get_tol {F : Type} (i : Integral F) : F :=
  match i with G7K15 t _ => t | OtherMethod _ t _ => t end.

Section Consts.
Context {F : Type} (O : FloatOps F).

(* consts.rs 19, 44, 68, 77, 101, 130, 161. The literal [1. / 3.] is the
   correctly rounded quotient of the floats 1 and 3. *)
Definition default_globals : globals F :=
  mkGlobals 3 1 (f_div O (f_of_u32 O 1) (f_of_u32 O 3)) (f_lit_half O) (f_lit_1em10 O) 50 (f_lit_1em5 O).

(* consts.rs 29-34 *)
Definition set_number_of_colors (n : nat) (g : globals F) : globals F :=
  let g1 := mkGlobals n (g_nf g) (g_nf_div_nc g) (g_m_quark g) (g_tol_integral g) (g_max_iter_integral g) (g_matsubara_reg g) in
  mkGlobals (g_nc g1) (g_nf g1) (f_div O (f_of_u32 O (g_nf g1)) (f_of_u32 O (g_nc g1)))
    (g_m_quark g1) (g_tol_integral g1) (g_max_iter_integral g1) (g_matsubara_reg g1).

(* consts.rs 54-59 *)
Definition set_number_of_fermions (n : nat) (g : globals F) : globals F :=
  let g1 := mkGlobals (g_nc g) n (g_nf_div_nc g) (g_m_quark g) (g_tol_integral g) (g_max_iter_integral g) (g_matsubara_reg g) in
  mkGlobals (g_nc g1) (g_nf g1) (f_div O (f_of_u32 O (g_nf g1)) (f_of_u32 O (g_nc g1)))
    (g_m_quark g1) (g_tol_integral g1) (g_max_iter_integral g1) (g_matsubara_reg g1).

(* consts.rs 88-92 *)
Definition set_default_quark_mass (m : F) (g : globals F) : globals F :=
  mkGlobals (g_nc g) (g_nf g) (g_nf_div_nc g) m (g_tol_integral g) (g_max_iter_integral g) (g_matsubara_reg g).

(* consts.rs 116-121; [None] is the panic of [assert!(tol > 0.)] *)
Definition set_default_tol_integral (tol : F) (g : globals F) : option (globals F) :=
  if f_pos O tol then
    Some (mkGlobals (g_nc g) (g_nf g) (g_nf_div_nc g) (g_m_quark g) tol (g_max_iter_integral g) (g_matsubara_reg g))
  else None.

(* consts.rs 141-145 *)
Definition set_default_max_iter_integral (n : nat) (g : globals F) : globals F :=
  mkGlobals (g_nc g) (g_nf g) (g_nf_div_nc g) (g_m_quark g) (g_tol_integral g) n (g_matsubara_reg g).

(* consts.rs 176-181; [None] is the panic of [assert!(reg > 0.)] *)
Definition set_matsubara_reg (reg : F) (g : globals F) : option (globals F) :=
  if f_pos O reg then
    Some (mkGlobals (g_nc g) (g_nf g) (g_nf_div_nc g) (g_m_quark g) (g_tol_integral g) (g_max_iter_integral g) reg)
  else None.

(* consts.rs 23, 48, 72, 82, 106, 135, 166: the getters *)
Definition get_number_of_colors (g : globals F) := g_nc g.
Definition get_number_of_fermions (g : globals F) := g_nf g.
Definition nf_div_nc (g : globals F) := g_nf_div_nc g.
Definition get_default_quark_mass (g : globals F) := g_m_quark g.
Definition get_default_tol_integral (g : globals F) := g_tol_integral g.
Definition get_default_max_iter_integral (g : globals F) := g_max_iter_integral g.
Definition get_matsubara_reg (g : globals F) := g_matsubara_reg g.

(* consts.rs 156-158 *)
Definition get_default_integration_method (g : globals F) : Integral F :=
  G7K15 (g_tol_integral g) (g_max_iter_integral g).

(* low_level/oneloop/thermal/gluon.rs 766-772 (and the five identical
   fragments up to 829): the method used by the zero-Matsubara wrappers *)
Definition zm_default_method (g : globals F) : Integral F :=
  let integral := get_default_integration_method g in
  let dti := g_tol_integral g in
  match integral with
  | G7K15 ti mi =>
      if f_eqb O ti dti && Nat.eqb mi (g_max_iter_integral g)
      then G7K15 (f_lit_1em8 O) mi
      else integral
  | OtherMethod _ _ _ => integral
  end.

(** A call of one of the public setters. *)
Inductive call :=
| SetNC (n : nat)
| SetNF (n : nat)
| SetMQ (m : F)
| SetTol (t : F)
| SetMaxIter (n : nat)
| SetReg (r : F).

(** Effect of a call: the new state, and whether the call panicked. A panic
    unwinds before any write; the caller observes the old state. *)
Definition do_call (g : globals F) (c : call) : globals F * bool :=
  match c with
  | SetNC n => (set_number_of_colors n g, false)
  | SetNF n => (set_number_of_fermions n g, false)
  | SetMQ m => (set_default_quark_mass m g, false)
  | SetTol t => match set_default_tol_integral t g with Some g' => (g', false) | None => (g, true) end
  | SetMaxIter n => (set_default_max_iter_integral n g, false)
  | SetReg r => match set_matsubara_reg r g with Some g' => (g', false) | None => (g, true) end
  end.

Definition run_calls (g : globals F) (h : list call) : globals F :=
  fold_left (fun g c => fst (do_call g c)) h g.

End Consts.
Arguments SetNC {F}. Arguments SetNF {F}. Arguments SetMQ {F}. Arguments SetTol {F}.
Arguments SetMaxIter {F}. Arguments SetReg {F}.

(** ** Concurrent setters

    Micro-steps of [set_number_of_colors n] / [set_number_of_fermions n]
    (consts.rs 29-34, 54-59): store the variable, load NF, load NC, store the
    quotient. Memory is sequentially consistent (a simplification: a data race
    on [static mut] is undefined behaviour in Rust; the interleaving model is
    the most benign reading of it). *)
Inductive instr := StoreNC (n : nat) | StoreNF (n : nat) | LoadNF | LoadNC | StoreRatio.
Record thread := mkThread { t_code : list instr; t_nf : nat; t_nc : nat }.

Definition prog_set_nc (n : nat) : thread := mkThread [StoreNC n; LoadNF; LoadNC; StoreRatio] 0 0.
Definition prog_set_nf (n : nat) : thread := mkThread [StoreNF n; LoadNF; LoadNC; StoreRatio] 0 0.

Section Race.
Context {F : Type} (O : FloatOps F).

Definition exec_instr (i : instr) (g : globals F) (t : thread) : globals F * thread :=
  match i with
  | StoreNC n => (mkGlobals n (g_nf g) (g_nf_div_nc g) (g_m_quark g) (g_tol_integral g) (g_max_iter_integral g) (g_matsubara_reg g), t)
  | StoreNF n => (mkGlobals (g_nc g) n (g_nf_div_nc g) (g_m_quark g) (g_tol_integral g) (g_max_iter_integral g) (g_matsubara_reg g), t)
  | LoadNF => (g, mkThread (t_code t) (g_nf g) (t_nc t))
  | LoadNC => (g, mkThread (t_code t) (t_nf t) (g_nc g))
  | StoreRatio => (mkGlobals (g_nc g) (g_nf g) (f_div O (f_of_u32 O (t_nf t)) (f_of_u32 O (t_nc t))) (g_m_quark g) (g_tol_integral g) (g_max_iter_integral g) (g_matsubara_reg g), t)
  end.

Definition step_thread (g : globals F) (t : thread) : globals F * thread :=
  match t_code t with
  | [] => (g, t)
  | i :: rest => exec_instr i g (mkThread rest (t_nf t) (t_nc t))
  end.

(** Run two threads under a schedule ([true] = first thread moves). *)
Fixpoint run_race (sched : list bool) (g : globals F) (t1 t2 : thread) : globals F * thread * thread :=
  match sched with
  | [] => (g, t1, t2)
  | true :: s => let '(g', t1') := step_thread g t1 in run_race s g' t1' t2
  | false :: s => let '(g', t2') := step_thread g t2 in run_race s g' t1 t2'
  end.

End Race.
