(** * Vocabulary for distributions and densities *)
From Coq Require Import Reals.
Open Scope R_scope.

(** Occupied iff the energy does not exceed the chemical potential. *)
Definition occupied (en mu : R) : R := if Rle_dec en mu then 1 else 0.

(** Net density of states in momentum space at zero temperature: quarks minus
    antiquarks, [nc] colours, two spin states, measure q^2/pi^2. *)
Definition charge_integrand_zt (nc : nat) (m mu q : R) : R :=
  INR nc * q ^ 2 / PI ^ 2 *
  (occupied (sqrt (q ^ 2 + m ^ 2)) mu - occupied (sqrt (q ^ 2 + m ^ 2)) (- mu)).
