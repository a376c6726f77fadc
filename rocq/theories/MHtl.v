(** * Hard-thermal-loop reference functions (qcd-sme/examples/qed_htl_limit.rs) *)
From Coq Require Import Reals.
From Coquelicot Require Import Coquelicot.
From Verif Require Import Num MCommon.
Open Scope R_scope.

(* examples/qed_htl_limit.rs 12-17; [om * I] is the complex product of the Rust trait *)
Definition f_htl {T : Type} {NT : Num T} (om : T) (p t : R) : C :=
  let k2 := nsub (nopp (nmul om om)) (ofR (p * p)) in
  let p2 := p * p in
  let k0 := Cmult (toC om) Ci in
  Cmult (toC (ndiv (nmul (nopp k2) (ofR (t * t / 3))) (ofR p2)))
    (Cminus (RtoC 1) (Cmult (Cdiv k0 (RtoC (2 * p))) (Cln (Cdiv (Cplus k0 (RtoC p)) (Cminus k0 (RtoC p)))))).

(* examples/qed_htl_limit.rs 20-22 *)
Definition g_htl {T : Type} {NT : Num T} (om : T) (p t : R) : C :=
  Cminus (RtoC (t * t / 6)) (Cdiv (f_htl om p t) (RtoC 2)).

(* examples/qcd_gluon_propagator_asymptotics.rs 14-18; nc, nf : u32 *)
Definition asymptotics_known (t mu : R) (nc nf : nat) (rem : R) : R :=
  let nf := INR nf in
  let nc := INR nc in
  ln ((nc + nf / 2) * t * t + 3 * nf * mu * mu / (2 * PI * PI)) + rem.
