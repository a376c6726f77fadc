(** * The fitted phase boundary in binary64

    tc_long_prop/src/lib.rs. *)
From Coq Require Import ZArith List.
From Flocq Require Import IEEE754.BinarySingleNaN IEEE754.Binary IEEE754.Bits.
From Verif Require Import MFloat MGrid MUtils.
Import ListNotations.
Open Scope Z_scope.

(* tc_long_prop/src/lib.rs 65-72 at type R; slicing [params[1..]] panics on an empty slice *)
Definition parametric_phase_diagram_f64 (mu : F64) (params : list F64) : outcome F64 :=
  match params with
  | [] => Panic
  | p0 :: rest => Ret (fold_left (fun res p => (res [+] p) [*] mu) (rev rest) f64_zero [+] p0)
  end.
