(** * Thermal smearing

    The weight 1/(4 cosh^2 (y/2)), with which a zero-temperature quantity is
    averaged over the chemical potential at finite temperature. *)
From Coq Require Import Reals.
Open Scope R_scope.

Definition smear (y : R) : R := / (exp y + 2 + exp (- y)).
