(** * C98: the critical temperature from binary64 propagators *)
From Coq Require Import ZArith Reals List.
From Flocq Require Import Core IEEE754.Binary IEEE754.Bits.
From Verif Require Import MFloat MGrid MUtils MTc SpecGrid SpecTc SpecCrit64 PTc PFerm64b PCrit64.
Import List ListNotations.
Open Scope R_scope.

(** Unless the first propagator is a NaN, the result stands beside the first of the largest entries;
    later NaNs are passed over and infinities are ordered as usual. *)
Theorem C98_first_largest : forall (ts : list F64) (d0 : F64) (ds : list F64) (t : F64), ts <> [] -> ~ not_a_number d0 ->
  (find_critical_temperature_gen f64_gt ts (d0 :: ds) = Ret t <-> at_first_largest ts (d0 :: ds) t).
Proof. exact (@fct_largest_iff F64). Qed.
Print Assumptions C98_first_largest.

Theorem C98_exists : forall (ts : list F64) (d0 : F64) (ds : list F64), ts <> [] -> ~ not_a_number d0 ->
  exists t, find_critical_temperature_gen f64_gt ts (d0 :: ds) = Ret t /\ at_first_largest ts (d0 :: ds) t.
Proof. exact (@fct_largest F64). Qed.
Print Assumptions C98_exists.

(** Any NaN in front, whatever follows, selects the first temperature. *)
Theorem C98_leading_nan : forall (t0 : F64) (ts : list F64) (d : F64) (ds : list F64), not_a_number d ->
  find_critical_temperature_gen f64_gt (t0 :: ts) (d :: ds) = Ret t0.
Proof. exact (@fct_nan_first F64). Qed.
Print Assumptions C98_leading_nan.

(** On finite propagators there is no rounding: the result is that of exact arithmetic. *)
Theorem C98_exact_on_finite : forall (ts : list R) (ds : list F64), Forall fin ds ->
  find_critical_temperature_gen f64_gt ts ds = find_critical_temperature ts (map val ds).
Proof. exact fct_exact. Qed.
Print Assumptions C98_exact_on_finite.

Theorem C98_panics_iff_empty : forall (ts ds : list F64),
  find_critical_temperature_gen f64_gt ts ds = Panic <-> ts = [] \/ ds = [].
Proof. exact (fct_panic f64_gt). Qed.
Print Assumptions C98_panics_iff_empty.

Example C98_example : find_critical_temperature_gen f64_gt [10; 20; 30; 40; 50] ex_crit = Ret 30 /\ ~ not_a_number (f64_lit 1 1) /\ not_a_number f64_nan /\
  find_critical_temperature_gen f64_gt [10; 20; 30] [f64_nan; f64_inf; f64_lit 5 1] = Ret 10.
Proof. exact ex_crit_ok. Qed.
