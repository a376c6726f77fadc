(** * Root finding, residues, spectral functions (qcd-sme/src/utils.rs) *)
From Coq Require Import Reals.
From Coquelicot Require Import Coquelicot.
From Verif Require Import Num.

Inductive outcome (A : Type) := Panic | Ret (a : A).
Arguments Panic {A}. Arguments Ret {A}.

(** The operations used by [find_root], over an arbitrary number type and an
    arbitrary tolerance type. Nothing is assumed about them, so NaN and
    rounding are covered. *)
Record RootOps (T Tol : Type) := {
  ro_eq : T -> T -> bool;            (* [a == b] *)
  ro_pos : Tol -> bool;              (* [tol > 0.] *)
  ro_nan : T -> bool;                (* [x.re().is_nan() || x.im().is_nan()] *)
  ro_small : T -> Tol -> bool;       (* [x.abs() < tol] *)
  ro_sub : T -> T -> T;
  ro_mul : T -> T -> T;
  ro_div : T -> T -> T
}.
Arguments ro_eq {T Tol}. Arguments ro_pos {T Tol}. Arguments ro_nan {T Tol}.
Arguments ro_small {T Tol}. Arguments ro_sub {T Tol}. Arguments ro_mul {T Tol}. Arguments ro_div {T Tol}.

Section FindRoot.
Context {T Tol : Type} (Ops : RootOps T Tol).

(* utils.rs 33-43: the loop; [z0 z1 f0 f1] are the loop variables *)
Fixpoint find_root_loop (f : T -> T) (tol : Tol) (iter : nat) (z0 z1 f0 f1 : T) : option (T * T) :=
  match iter with
  | O => None
  | S n =>
      if ro_nan Ops f1 then None
      else if ro_small Ops f1 tol then Some (z1, f1)
      else
        let z2 := ro_div Ops (ro_sub Ops (ro_mul Ops z0 f1) (ro_mul Ops z1 f0)) (ro_sub Ops f1 f0) in
        find_root_loop f tol n z1 z2 f1 (f z2)
  end.

(* utils.rs 22-44 *)
Definition find_root (f : T -> T) (guesses : T * T) (tol : Tol) (max_iter : nat) : outcome (option (T * T)) :=
  if ro_eq Ops (fst guesses) (snd guesses) then Panic
  else if negb (ro_pos Ops tol) then Panic
  else
    let z0 := fst guesses in
    let z1 := snd guesses in
    let f0 := f z0 in
    let f1 := f z1 in
    Ret (find_root_loop f tol max_iter z0 z1 f0 f1).

End FindRoot.

Open Scope R_scope.

(** Real and complex instances (no NaN in the idealisation). *)
Definition RootOpsR : RootOps R R := {|
  ro_eq := fun a b => if Req_EM_T a b then true else false;
  ro_pos := fun t => if Rlt_dec 0 t then true else false;
  ro_nan := fun _ => false;
  ro_small := fun x t => if Rlt_dec (Rabs x) t then true else false;
  ro_sub := Rminus; ro_mul := Rmult; ro_div := Rdiv |}.

Definition RootOpsC : RootOps C R := {|
  ro_eq := fun a b => if Ceq_dec a b then true else false;
  ro_pos := fun t => if Rlt_dec 0 t then true else false;
  ro_nan := fun _ => false;
  ro_small := fun x t => if Rlt_dec (Cmod x) t then true else false;
  ro_sub := Cminus; ro_mul := Cmult; ro_div := Cdiv |}.

Open Scope num_scope.

(* utils.rs 48-50 *)
Definition compute_residue_with_eps {T : Type} {N : Num T} (f : T -> T) (z : T) (eps : R) : T :=
  ninv (ninv (f (z + ofR eps)) - ninv (f (z - ofR eps))) * ofR 2 * ofR eps.

(* utils.rs 54-56 *)
Definition compute_residue {T : Type} {N : Num T} (f : T -> T) (z : T) : T :=
  compute_residue_with_eps f z (/ 10 ^ 12)%R.

(* utils.rs 61-63 *)
Definition spectral_function_with_eps (f : C -> C) (z : C) (eps : R) : C :=
  Ci * (f (z + Ci * ofR eps) - f (z - Ci * ofR eps)) / ofR (2 * PI).

(* utils.rs 68-70 *)
Definition spectral_function (f : C -> C) (z : C) : C :=
  spectral_function_with_eps f z (/ 10 ^ 12)%R.
