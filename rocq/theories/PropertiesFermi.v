(** * C94: the Fermi momentum in binary64 *)
From Coq Require Import ZArith Reals List.
From Flocq Require Import Core IEEE754.Binary IEEE754.Bits.
From Verif Require Import MFloat MGrid MUtils MTc MCommon MFermi SpecGrid SpecFermi PFerm64 PFerm64b PFerm64c PFerm64d PExFermi.
Import List ListNotations.
Open Scope R_scope.

(** Above the threshold the Fermi momentum is a finite number, with three relative rounding errors:
    the square of the mass, the fused multiply-add and the square root. *)
Theorem C94_above_threshold : forall m mu, fin m -> fin mu -> moderate m -> moderate mu -> Rabs (val m) < Rabs (val mu) ->
  fin (fermi_momentum_f64 m mu) /\ 0 <= val (fermi_momentum_f64 m mu) /\
  exists e1 h1 e2 h2 e3, Rabs e1 <= bpow radix2 (-53) /\ Rabs e2 <= bpow radix2 (-53) /\ Rabs e3 <= bpow radix2 (-53) /\
    Rabs h1 <= bpow radix2 (-1075) /\ Rabs h2 <= bpow radix2 (-1075) /\
    0 <= (val mu * val mu - (val m * val m * (1 + e1) + h1)) * (1 + e2) + h2 /\
    val (fermi_momentum_f64 m mu) = sqrt ((val mu * val mu - (val m * val m * (1 + e1) + h1)) * (1 + e2) + h2) * (1 + e3).
Proof. exact fm_above. Qed.
Print Assumptions C94_above_threshold.

(** Below it is NaN or zero. *)
Theorem C94_below_threshold : forall m mu, fin m -> fin mu -> moderate m -> moderate mu -> Rabs (val mu) < Rabs (val m) ->
  f64_isnan (fermi_momentum_f64 m mu) = true \/ fin (fermi_momentum_f64 m mu) /\ val (fermi_momentum_f64 m mu) = 0.
Proof. exact fm_below. Qed.
Print Assumptions C94_below_threshold.

(** At the threshold it is NaN exactly if the square of the mass rounds up; otherwise it is the root of the
    rounding error, zero or a spurious momentum of at most 2^-26 times the mass. *)
Theorem C94_at_threshold : forall m mu, fin m -> fin mu -> moderate m -> Rabs (val mu) = Rabs (val m) -> bpow radix2 (-484) <= Rabs (val m) ->
  (f64_isnan (fermi_momentum_f64 m mu) = true <-> val m * val m < to_f64 (val m * val m)) /\
  (to_f64 (val m * val m) <= val m * val m -> fin (fermi_momentum_f64 m mu) /\
     val (fermi_momentum_f64 m mu) = to_f64 (sqrt (val m * val m - to_f64 (val m * val m))) /\
     0 <= val (fermi_momentum_f64 m mu) <= bpow radix2 (-26) * Rabs (val m)).
Proof. exact fm_at. Qed.
Print Assumptions C94_at_threshold.

(** So it is not always the zero of exact arithmetic. *)
Theorem C94_threshold_refuted : (forall m, fermi_momentum m m = 0) /\
  exists m, fin m /\ moderate m /\ 0 < val m /\ f64_isnan (fermi_momentum_f64 m m) = true.
Proof. exact thr_refuted. Qed.
Print Assumptions C94_threshold_refuted.

(** The zero-temperature functions return zero below the threshold, integrate to the Fermi momentum from the
    threshold on, and hand NaN to the integration routine only at the threshold. *)
Theorem C94_zero_temperature_functions : forall (A : Type) (zero : A) integ mq mu, fin mq -> fin mu -> moderate mq -> moderate mu ->
  (Rabs (val mu) < Rabs (val mq) -> zero_temp_wrapper_f64 zero integ mq mu = zero) /\
  (Rabs (val mq) <= Rabs (val mu) -> zero_temp_wrapper_f64 zero integ mq mu = integ (fermi_momentum_f64 mq mu)) /\
  (Rabs (val mq) < Rabs (val mu) -> fin (fermi_momentum_f64 mq mu)) /\
  (Rabs (val mq) <= Rabs (val mu) -> f64_isnan (fermi_momentum_f64 mq mu) = true -> Rabs (val mu) = Rabs (val mq)).
Proof. exact (fun A => @wrapper_cases A). Qed.
Print Assumptions C94_zero_temperature_functions.

(** The charge density excludes the threshold and is always a number, of the sign of the chemical potential. *)
Theorem C94_charge_density : forall nc m mu, fin m -> fin mu -> (Z.of_nat nc <= 2 ^ 32)%Z -> Rabs (val m) <= bpow radix2 250 -> Rabs (val mu) <= bpow radix2 250 ->
  let n := charge_density_zero_temp_f64 nc m mu in
  fin n /\ (0 <= val mu -> 0 <= val n) /\ (val mu <= 0 -> val n <= 0) /\ (Rabs (val mu) <= Rabs (val m) -> val n = 0).
Proof. exact density_ok. Qed.
Print Assumptions C94_charge_density.

(** Away from underflow it is accurate to 2^-49, relative to the Fermi momentum used. *)
Theorem C94_charge_density_accuracy : forall nc m mu, fin m -> fin mu -> (0 < nc)%nat -> (Z.of_nat nc <= 2 ^ 32)%Z ->
  Rabs (val m) <= bpow radix2 250 -> Rabs (val mu) <= bpow radix2 250 -> Rabs (val m) < Rabs (val mu) -> bpow radix2 (-300) <= val (fermi_momentum_f64 m mu) ->
  exists d, Rabs d <= bpow radix2 (-49) /\
    val (charge_density_zero_temp_f64 nc m mu) = val mu / Rabs (val mu) * INR nc * val (fermi_momentum_f64 m mu) ^ 3 / (3 * PI ^ 2) * (1 + d).
Proof. exact density_acc. Qed.
Print Assumptions C94_charge_density_accuracy.

(** NaN in the integral of one quark reaches the real part of the propagator and the infrared data. *)
Theorem C94_nan_propagates : forall vac integ mg om mu quarks nf mq, In (nf, mq) quarks ->
  (forall p, f64_isnan (fst (zero_temp_wrapper_f64 c64_zero (integ p mq) mq mu)) = true ->
     f64_isnan (fst (propagator_zero_temp_f64 vac integ mg om mu quarks p)) = true) /\
  (forall pbase renpoint, f64_isnan (fst (zero_temp_wrapper_f64 c64_zero (integ (b64_mult BinarySingleNaN.mode_NE pbase mg) mq) mq mu)) = true ->
     f64_isnan (ir_zero_temp_f64 vac integ mg om mu quarks pbase renpoint) = true).
Proof.
  exact (fun vac integ mg om mu quarks nf mq Hin => conj (fun p => prop_nan vac integ mg om mu quarks p nf mq Hin)
    (fun pbase renpoint => ir_nan vac integ mg om mu quarks pbase renpoint nf mq Hin)).
Qed.
Print Assumptions C94_nan_propagates.

(** In the default configuration this happens at mu = 0.45 on two grids, and at mu = 0.225 with the corrected masses. *)
Theorem C94_default_grids :
  (forall mq, In mq (default_masses_f64 ++ default_corrected_masses_f64) -> nan_limits physical_fewchempots mq []) /\
  nan_limits physical_morechempots (f64_lit 350 1000) [] /\ nan_limits physical_morechempots (f64_lit 450 1000) [18%nat] /\
  nan_limits physical_morechempots (f64_lit 15 10) [] /\ nan_limits physical_morechempots (f64_lit 125 1000) [] /\
  nan_limits physical_morechempots (f64_lit 225 1000) [9%nat] /\ nan_limits physical_morechempots (f64_lit 12 10) [] /\
  nan_limits physical_manychempots (f64_lit 350 1000) [] /\ nan_limits physical_manychempots (f64_lit 450 1000) [45%nat] /\
  nan_limits physical_manychempots (f64_lit 15 10) [] /\ nan_limits physical_manychempots (f64_lit 125 1000) [] /\
  nan_limits physical_manychempots (f64_lit 225 1000) [] /\ nan_limits physical_manychempots (f64_lit 12 10) [].
Proof. exact default_nan. Qed.
Print Assumptions C94_default_grids.

(** With a routine that returns NaN for a NaN limit, the critical temperature at mu = 0.45 is zero whatever the
    data, and the phase boundary ends before 0.45. *)
Theorem C94_default_boundary : forall vac integ warm mg om pbase renpoint quarks nf, nan_to_nan integ -> In (nf, f64_lit 450 1000) quarks ->
  let tcs := critical_temperatures_f64 vac integ warm mg om pbase renpoint quarks physical_manytemps physical_manychempots in
  nth_error tcs 45 = Some (Ret f64_zero) /\
  forall ts, tcs = map (@Ret F64) ts -> let pb := reduce_phase_boundary_f64 (combine physical_manychempots ts) in
    (length pb <= 45)%nat /\ Forall (fun x => val (fst x) < val (f64_lit 450 1000)) pb.
Proof.
  exact (fun vac integ warm mg om pbase renpoint quarks nf HN Hin => conj (tc45 vac integ warm mg om pbase renpoint quarks nf HN Hin)
    (fun ts => boundary45 vac integ warm mg om pbase renpoint quarks nf ts HN Hin)).
Qed.
Print Assumptions C94_default_boundary.

Example C94_example : f64_isnan (fermi_momentum_f64 (f64_lit 450 1000) (f64_lit 450 1000)) = true /\
  f64_isnan (fermi_momentum_f64 (f64_lit 350 1000) (f64_lit 350 1000)) = false /\
  (fin (f64_lit 450 1000) /\ moderate (f64_lit 450 1000) /\ bpow radix2 (-484) <= Rabs (val (f64_lit 450 1000))) /\
  (fin (f64_lit 460 1000) /\ moderate (f64_lit 460 1000) /\ Rabs (val (f64_lit 450 1000)) < Rabs (val (f64_lit 460 1000))) /\
  bpow radix2 (-300) <= val (fermi_momentum_f64 (f64_lit 450 1000) (f64_lit 460 1000)).
Proof. exact fermi_ex. Qed.

(** With the upper limit itself in place of the integral, the data have their maximum at the second temperature for every other chemical potential, and the boundary is cut. *)
Example C94_example_boundary : nan_to_nan (fun _ _ _ b => (b, f64_zero)) /\
  exists ts, critical_temperatures_f64 (fun _ => f64_one) (fun _ _ _ b => (b, f64_zero)) (fun mu => if f64_isnan mu then [] else [f64_lit (10 ^ 12) 1])
      (f64_lit 656 1000) (f64_lit 1 100000) (f64_lit 1 100) (f64_lit 4 1) [(2%nat, f64_lit 350 1000); (1%nat, f64_lit 450 1000)]
      physical_manytemps physical_manychempots = map (@Ret F64) ts /\
    length (reduce_phase_boundary_f64 (combine physical_manychempots ts)) = 45%nat /\
    forallb (fun t => f64_eq t (nth 1 physical_manytemps f64_nan)) (skipn 46 ts) = true.
Proof. exact boundary_ex. Qed.
