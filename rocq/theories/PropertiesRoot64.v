(** * C101: the secant method in binary64 *)
From Coq Require Import ZArith Reals.
From Flocq Require Import Core IEEE754.Binary IEEE754.Bits.
From Verif Require Import MFloat MGrid MUtils SpecGrid SpecRoot64 PRoot64.
Open Scope R_scope.

(** A root that is returned is a number and so is the function there. *)
Theorem C101_root_is_finite : forall f guesses tol n z w, keeps_non_finite f ->
  find_root RootOpsF64 f guesses tol n = Ret (Some (z, w)) -> fin z /\ fin w /\ w = f z.
Proof. exact root_finite. Qed.
Print Assumptions C101_root_is_finite.

(** Guesses with the same function value, not yet below the tolerance: failure, whatever the number of iterations. *)
Theorem C101_equal_values_fail : forall f a b tol n, keeps_non_finite f -> f64_eq a b = false -> f64_gt tol f64_zero = true ->
  fin (f a) -> fin (f b) -> val (f a) = val (f b) -> f64_lt (b64_abs (f b)) tol = false -> find_root RootOpsF64 f (a, b) tol n = Ret None.
Proof. exact flat_fails. Qed.
Print Assumptions C101_equal_values_fail.

(** A second guess that is infinite or NaN: failure, not a panic. *)
Theorem C101_non_finite_guess_fails : forall f a b tol n, keeps_non_finite f -> f64_eq a b = false -> f64_gt tol f64_zero = true ->
  ~ fin b -> find_root RootOpsF64 f (a, b) tol n = Ret None.
Proof. exact nonfinite_guess_fails. Qed.
Print Assumptions C101_non_finite_guess_fails.

(** x^2 - 2 from -2 and 2, and x^2 - 4 from 1 and 3. *)
Example C101_example : (forall c, keeps_non_finite (ex_square c)) /\
  find_root RootOpsF64 (ex_square (f64_lit 2 1)) (f64_lit (-2) 1, f64_lit 2 1) (f64_lit 1 1000) 100 = Ret None /\
  match find_root RootOpsF64 (ex_square (f64_lit 4 1)) (f64_lit 1 1, f64_lit 3 1) (f64_lit 1 1000) 100 with
  | Ret (Some (z, _)) => (f64_gt z (f64_lit 1999 1000) && f64_lt z (f64_lit 2001 1000))%bool | _ => false end = true.
Proof. exact ex_root. Qed.
