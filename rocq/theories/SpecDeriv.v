(** * Mass derivatives of integrands up to a total derivative *)
From Coq Require Import Reals.
From Coquelicot Require Import Coquelicot.
From Verif Require Import Num.
Open Scope R_scope.

(** The derivative of [f] with respect to the square of its (positive or
    negative) mass argument, at mass [m], is [D]. *)
Definition mass_derivative (f : R -> R) (m D : R) : Prop := is_derive (fun x => f (sqrt x)) (m * m) D.

(** The mass derivative of [f] at mass [m] is [d] plus the derivative at [q] of
    the function [T] of the loop momentum. *)
Definition mass_derivative_up_to (f : R -> R) (m d : R) (T : R -> R) (q : R) : Prop :=
  exists T', is_derive T q T' /\ mass_derivative f m (d + T').

(** [T] contributes no boundary term to an integral over (0, +infinity). *)
Definition no_boundary_term (T : R -> R) : Prop :=
  filterlim T (at_right 0) (locally 0) /\ filterlim T (Rbar_locally p_infty) (locally 0).

(** The same for a complex-valued function whose imaginary part needs no total
    derivative. *)
Definition Cmass_derivative_up_to (f : R -> C) (m : R) (d : C) (T : R -> R) (q : R) : Prop :=
  mass_derivative_up_to (fun mu => fst (f mu)) m (fst d) T q /\ mass_derivative (fun mu => snd (f mu)) m (snd d).

(** Total derivatives for the scalar, longitudinal and transverse bubble, as
    functions of the loop momentum [z]; [m1], [m2] are the two masses. *)
Section Total.
Variables (om p m1 m2 beta z : R).
Let e := sqrt (m1 * m1 + z * z).
Let occ := / (exp (e * beta) - 1) / e.
Let s := om * om + p * p + (m2 * m2 - m1 * m1).
Definition den (w : R) : C := (RtoC s + RtoC 2 * RtoC e * RtoC w * Ci)%C.
Definition plog (w : R) : C := Cln ((den w + RtoC 2 * RtoC z * RtoC p) / (den w - RtoC 2 * RtoC z * RtoC p))%C.
Definition lfac (w : R) : C := (RtoC w * RtoC s + RtoC 2 * RtoC e * (RtoC w * RtoC w + RtoC p * RtoC p) * Ci)%C.
Definition tfac (w : R) : C := (den w * den w - (RtoC 2 * RtoC z * RtoC p) * (RtoC 2 * RtoC z * RtoC p))%C.
Definition total_0 : R := occ / (32 * (PI * PI) * p) * fst (plog om + plog (- om))%C.
Definition total_l : R := occ / (128 * (PI * PI) * (p * p * p) * (om * om + p * p))
  * (fst (plog om * (lfac om * lfac om) + plog (- om) * (lfac (- om) * lfac (- om)))%C - 8 * z * p * (om * om) * s).
Definition total_t : R := - (occ / (256 * (PI * PI) * (p * p * p)))
  * (fst (plog om * tfac om + plog (- om) * tfac (- om))%C - 8 * z * p * s).
End Total.

(** Total derivatives for the tadpoles. *)
Section Tadpoles.
Variables (m beta z : R).
Let e := sqrt (m * m + z * z).
Let n := / (exp (e * beta) - 1).
Definition total_j : R := z / (4 * (PI * PI)) * (n / e).
Definition total_j_l : R := - (z / (4 * (PI * PI))) * (n * e).
Definition total_j_t : R := z * z * z / (12 * (PI * PI)) * (n / e).
Definition total_dj_t : R := - (z / (8 * (PI * PI))) * (n / e).
End Tadpoles.
