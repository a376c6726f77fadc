(** * IEEE binary64 instances (Flocq) of the operations used by consts.rs,
    utils.rs and tc_long_prop's [find_critical_temperature] *)
From Coq Require Import ZArith Bool.
From Flocq Require Import IEEE754.BinarySingleNaN IEEE754.Binary IEEE754.Bits.
From Verif Require Import MConsts MUtils.
Open Scope Z_scope.

Definition F64 := binary64.
Definition f64_of_nat (n : nat) : F64 :=
  binary_normalize 53 1024 (eq_refl _) (eq_refl _) mode_NE (Z.of_nat n) 0 false.
Definition f64_zero : F64 := f64_of_nat 0.
Definition f64_gt (x y : F64) : bool := match b64_compare x y with Some Gt => true | _ => false end.
Definition f64_lt (x y : F64) : bool := match b64_compare x y with Some Lt => true | _ => false end.
Definition f64_eq (x y : F64) : bool := match b64_compare x y with Some Eq => true | _ => false end.
Definition f64_isnan (x : F64) : bool := is_nan 53 1024 x.
Definition f64_nan : F64 := b64_of_bits 9221120237041090560.   (* 0x7ff8000000000000 *)

(** consts.rs over f64. *)
Definition OpsF64 : FloatOps F64 := {|
  f_of_u32 := f64_of_nat;
  f_div := b64_div mode_NE;
  f_pos := fun x => f64_gt x f64_zero;
  f_eqb := f64_eq;
  f_lit_half := b64_of_bits 4602678819172646912;
  f_lit_1em10 := b64_of_bits 4457293557087583675;
  f_lit_1em8 := b64_of_bits 4487126258331716666;
  f_lit_1em5 := b64_of_bits 4532020583610935537 |}.

(** utils.rs's [find_root] over f64. *)
Definition RootOpsF64 : RootOps F64 F64 := {|
  ro_eq := f64_eq;
  ro_pos := fun t => f64_gt t f64_zero;
  ro_nan := f64_isnan;
  ro_small := fun x t => f64_lt (b64_abs x) t;
  ro_sub := b64_minus mode_NE;
  ro_mul := b64_mult mode_NE;
  ro_div := b64_div mode_NE |}.
