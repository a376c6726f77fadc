(** * Numbers: the model of trait [Num] (qcd-sme/src/types.rs)

    [f64] is idealised as [R] and [num::Complex<f64>] as Coquelicot's [C]
    (see DESIGN.md, idealisation 1). *)
From Coq Require Import Reals.
From Coquelicot Require Import Coquelicot.
Open Scope R_scope.
Global Arguments Cmod _%C.
Global Arguments Cconj _%C.
Global Arguments RtoC _%R.

(** ** Elementary complex functions

    The code calls num-complex's [exp], [ln], [sqrt] (types.rs 93-131). They are
    the principal branches; the sign of a floating-point zero imaginary part
    (which selects the side of the cut) is not modelled: on the cut the value
    from above is used. *)

(** Principal argument, i.e. [atan2 (Im z) (Re z)], in (-PI, PI]. *)
Definition Carg (z : C) : R :=
  let x := fst z in
  let y := snd z in
  if Rlt_dec 0 x then atan (y / x)
  else if Rlt_dec x 0 then
    (if Rlt_dec y 0 then atan (y / x) - PI else atan (y / x) + PI)
  else if Rlt_dec 0 y then PI / 2
  else if Rlt_dec y 0 then - (PI / 2)
  else 0.

(** [Complex::ln]: (ln |z|, arg z). *)
Definition Cln (z : C) : C := (ln (Cmod z), Carg z).

(** [Complex::exp]. *)
Definition Cexp (z : C) : C := (exp (fst z) * cos (snd z), exp (fst z) * sin (snd z)).

(** [Complex::sqrt]: principal branch, non-negative real part. *)
Definition Csqrt (z : C) : C :=
  (sqrt ((Cmod z + fst z) / 2),
   if Rlt_dec (snd z) 0 then - sqrt ((Cmod z - fst z) / 2)
   else sqrt ((Cmod z - fst z) / 2)).

Global Arguments Carg _%C.
Global Arguments Cln _%C.
Global Arguments Cexp _%C.
Global Arguments Csqrt _%C.

(** ** The trait (types.rs 26-57)

    [T op R] of the Rust trait is [op] applied to [ofR r]; [T op C] is the
    complex operation applied to [toC x]; [From<R>] is [ofR]; [Into<C>] is
    [toC]. *)
Class Num (T : Type) := {
  nadd : T -> T -> T;
  nsub : T -> T -> T;
  nmul : T -> T -> T;
  ndiv : T -> T -> T;
  nopp : T -> T;
  ninv : T -> T;
  nln : T -> T;
  nexp : T -> T;
  nsqrt : T -> T;
  nabs : T -> R;
  nre : T -> R;
  nim : T -> R;
  ofR : R -> T;
  toC : T -> C
}.

Declare Scope num_scope.
Delimit Scope num_scope with num.
Notation "x + y" := (nadd x y) : num_scope.
Notation "x - y" := (nsub x y) : num_scope.
Notation "x * y" := (nmul x y) : num_scope.
Notation "x / y" := (ndiv x y) : num_scope.
Notation "- x" := (nopp x) : num_scope.
Arguments ofR {T Num} _%R.

(** impl Num for R (types.rs 59-93). *)
Global Instance NumR : Num R := {|
  nadd := Rplus; nsub := Rminus; nmul := Rmult; ndiv := Rdiv; nopp := Ropp;
  ninv := Rinv; nln := ln; nexp := exp; nsqrt := sqrt; nabs := Rabs;
  nre := fun x => x; nim := fun _ => 0; ofR := fun x => x; toC := RtoC |}.

(** impl Num for C (types.rs 96-131). *)
Global Instance NumC : Num C := {|
  nadd := Cplus; nsub := Cminus; nmul := Cmult; ndiv := Cdiv; nopp := Copp;
  ninv := Cinv; nln := Cln; nexp := Cexp; nsqrt := Csqrt; nabs := Cmod;
  nre := fst; nim := snd; ofR := RtoC; toC := fun z => z |}.
