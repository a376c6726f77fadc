(** * When a thermal integrand has no pole at zero momentum *)
From Coq Require Import Reals.
From Coquelicot Require Import Coquelicot.
Open Scope R_scope.

(** At p = 0 the denominators of the integrands with masses m1, m2 are the
    factors of om^4 + 2 om^2 (2 q^2 + m1^2 + m2^2) + (m2^2 - m1^2)^2.  For real
    om <> 0, real masses and q > 0 the number is positive. *)
Definition off_resonance (q : R) (om m1 m2 : C) : Prop :=
  (om * om * (om * om) + RtoC 2 * (om * om) * (RtoC 2 * (RtoC q * RtoC q) + m1 * m1 + m2 * m2)
   + (m2 * m2 - m1 * m1) * (m2 * m2 - m1 * m1))%C <> RtoC 0.
