(** * Hard thermal loops: weights of the thermal spectrum

    The leading thermal self-energies at external momenta and masses much
    smaller than the loop momentum q are the integrals over q of these weights
    times functions of the external momenta (Kapusta & Gale, section 6). *)
From Coq Require Import Reals.
From Coquelicot Require Import Coquelicot.
Open Scope R_scope.

(** Weights, normalised by the T^2/6 of the Bose integral. *)
Definition boson_weight (T q : R) : R := 6 / (PI * PI * (T * T)) * (q / (exp (q / T) - 1)).
Definition fermion_weight (T mu q : R) : R := 6 / (PI * PI * (T * T)) * (q / (exp ((q - mu) / T) + 1) + q / (exp ((q + mu) / T) + 1)).
(** The zero-temperature Fermi sea, without the normalisation. *)
Definition sea_weight (mu q : R) : R := if Rlt_dec q (Rabs mu) then 6 / (PI * PI) * q else 0.

(** The phase of ln ((i om + k) / (i om - k)) and the two hard-thermal-loop
    functions at real frequency, per unit T^2. *)
Definition htl_phase (om k : R) : R := atan ((om * om - k * k) / (2 * k * om)) - (if Rlt_dec 0 om then PI / 2 else - (PI / 2)).
Definition htl_L (om k : R) : R := (om * om + k * k) / (3 * (k * k)) * (1 + om / (2 * k) * htl_phase om k).
Definition htl_T (om k : R) : R := 1 / 6 - htl_L om k / 2.

(** Total derivatives that the gluon loop carries in addition. *)
Definition boundary_T (T q : R) : R := q * q / (exp (q / T) - 1) / (12 * (PI * PI)).
Definition boundary_L (om k T q : R) : R := (om * om - 3 * (k * k)) / (om * om + k * k) * boundary_T T q.
