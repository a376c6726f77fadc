(** * C95: energies and thermal distributions in binary64 *)
From Coq Require Import ZArith Reals List.
From Flocq Require Import Core IEEE754.Binary IEEE754.Bits.
From Verif Require Import MFloat MGrid MFermi MDistr64 SpecGrid SpecFermi SpecDistr64 PDistr64 PDistr64b PDistr64c PExDistr64.
Open Scope R_scope.

(** Fermi distributions are numbers between 0 and 1 for all finite arguments, with overflow of the
    exponential or of its argument. *)
Theorem C95_fermi_range : forall E en beta mu, exp_nonneg E -> fin en -> fin beta -> fin mu -> 0 < val beta ->
  (fin (fermi_distribution_f64 E en beta mu) /\ 0 <= val (fermi_distribution_f64 E en beta mu) <= 1) /\
  (fin (fermi_distribution_zero_chempot_f64 E en beta) /\ 0 <= val (fermi_distribution_zero_chempot_f64 E en beta) <= 1).
Proof. exact (fun E en beta mu HE Fe Fb Fm Pb => conj (fermi_ok E en beta mu HE Fe Fb Fm Pb) (fermi_zc_ok E en beta HE Fe Fb Pb)). Qed.
Print Assumptions C95_fermi_range.

(** The sum for particles and antiparticles is between 0 and 2, is the rounded sum, and is even in mu to the last bit. *)
Theorem C95_fermi_double : forall E en beta mu, exp_nonneg E -> fin en -> fin beta -> fin mu -> 0 < val beta ->
  fin (fermi_distribution_double_f64 E en beta mu) /\ 0 <= val (fermi_distribution_double_f64 E en beta mu) <= 2 /\
  val (fermi_distribution_double_f64 E en beta mu) = to_f64 (val (fermi_distribution_f64 E en beta mu) + val (fermi_distribution_f64 E en beta (b64_opp mu))) /\
  val (fermi_distribution_double_f64 E en beta (b64_opp mu)) = val (fermi_distribution_double_f64 E en beta mu).
Proof. exact double_ok. Qed.
Print Assumptions C95_fermi_double.

(** Relative accuracy of the Fermi distributions. *)
Theorem C95_fermi_accuracy : forall E en beta mu, exp_within (bpow radix2 (-52)) E -> fin en -> fin beta -> fin mu -> moderate en -> moderate beta -> moderate mu ->
  let x := val beta * (val en - val mu) in Rabs x <= 500 ->
  within ((3 + 5 * Rabs x) * bpow radix2 (-52)) (/ (exp x + 1)) (val (fermi_distribution_f64 E en beta mu)).
Proof. exact fermi_acc. Qed.
Print Assumptions C95_fermi_accuracy.
Theorem C95_fermi_accuracy_zero_chempot : forall E en beta, exp_within (bpow radix2 (-52)) E -> fin en -> fin beta -> moderate en -> moderate beta ->
  let x := val beta * val en in Rabs x <= 500 ->
  within ((3 + 5 * Rabs x) * bpow radix2 (-52)) (/ (exp x + 1)) (val (fermi_distribution_zero_chempot_f64 E en beta)).
Proof. exact fermi_zc_acc. Qed.
Print Assumptions C95_fermi_accuracy_zero_chempot.
Theorem C95_fermi_accuracy_double : forall E en beta mu X, exp_nonneg E -> exp_within (bpow radix2 (-52)) E -> fin en -> fin beta -> fin mu ->
  moderate en -> moderate beta -> moderate mu -> 0 < val beta ->
  Rabs (val beta * (val en - val mu)) <= X -> Rabs (val beta * (val en + val mu)) <= X -> X <= 500 ->
  within ((4 + 5 * X) * bpow radix2 (-52)) (/ (exp (val beta * (val en - val mu)) + 1) + / (exp (val beta * (val en + val mu)) + 1)) (val (fermi_distribution_double_f64 E en beta mu)).
Proof. exact double_acc. Qed.
Print Assumptions C95_fermi_accuracy_double.

(** At zero temperature they are exact. *)
Theorem C95_fermi_zero_temperature : forall en mu, fin en -> fin mu ->
  (fin (fermi_distribution_zero_temp_f64 en mu) /\
   (val mu < val en -> val (fermi_distribution_zero_temp_f64 en mu) = 0) /\ (val en <= val mu -> val (fermi_distribution_zero_temp_f64 en mu) = 1)) /\
  (fin (fermi_distribution_double_zero_temp_f64 en mu) /\
   val (fermi_distribution_double_zero_temp_f64 en mu) = val (fermi_distribution_zero_temp_f64 en mu) + val (fermi_distribution_zero_temp_f64 en (b64_opp mu))).
Proof. exact (fun en mu Fe Fm => conj (zt_ok en mu Fe Fm) (zt2_ok en mu Fe Fm)). Qed.
Print Assumptions C95_fermi_zero_temperature.

(** The Bose distribution is never negative or NaN for energies above the chemical potential. *)
Theorem C95_bose_range : forall E en beta mu, exp_least_one E -> fin en -> fin beta -> fin mu -> 0 < val beta ->
  (0 <= val en -> nonneg (bose_distribution_zero_chempot_f64 E en beta)) /\
  (val mu <= val en -> nonneg (bose_distribution_f64 E en beta mu)).
Proof. exact (fun E en beta mu HE Fe Fb Fm Pb => conj (fun P => bose_ok E en beta HE Fe Fb P Pb) (fun P => bose_mu_ok E en beta mu HE Fe Fb Fm P Pb)). Qed.
Print Assumptions C95_bose_range.

(** Its relative error grows like 1/x for small x = beta (en - mu). *)
Theorem C95_bose_accuracy : forall E en beta mu, exp_within (bpow radix2 (-52)) E -> fin en -> fin beta -> fin mu -> moderate en -> moderate beta -> moderate mu ->
  let x := val beta * (val en - val mu) in bpow radix2 (-40) <= x <= 500 -> fin (bose_distribution_f64 E en beta mu) /\
  within ((3 + 5 * x) * (1 + / x) * bpow radix2 (-52)) (/ (exp x - 1)) (val (bose_distribution_f64 E en beta mu)).
Proof. exact bose_acc. Qed.
Print Assumptions C95_bose_accuracy.
Theorem C95_bose_accuracy_zero_chempot : forall E en beta, exp_within (bpow radix2 (-52)) E -> fin en -> fin beta -> moderate en -> moderate beta ->
  let x := val beta * val en in bpow radix2 (-40) <= x <= 500 -> fin (bose_distribution_zero_chempot_f64 E en beta) /\
  within ((3 + 5 * x) * (1 + / x) * bpow radix2 (-52)) (/ (exp x - 1)) (val (bose_distribution_zero_chempot_f64 E en beta)).
Proof. exact bose_zc_acc. Qed.
Print Assumptions C95_bose_accuracy_zero_chempot.

(** With the best possible exponential it is infinite for beta en up to 2^-55, where the exact value is finite. *)
Theorem C95_bose_infinite : forall E en beta, exp_correct E -> fin en -> fin beta -> 0 <= val beta * val en <= bpow radix2 (-55) ->
  bose_distribution_zero_chempot_f64 E en beta = B754_infinity 53 1024 false.
Proof. exact bose_over. Qed.
Print Assumptions C95_bose_infinite.
Theorem C95_bose_finite_refuted : exists en beta, fin en /\ fin beta /\ 0 < val en /\ 0 < val beta /\
  forall E, exp_correct E -> bose_distribution_zero_chempot_f64 E en beta = B754_infinity 53 1024 false.
Proof. exact bose_ref. Qed.
Print Assumptions C95_bose_finite_refuted.

(** Energies are accurate to 2^-51. *)
Theorem C95_energy : forall p m, fin p -> fin m -> moderate p -> moderate m -> normal_or_zero p -> normal_or_zero m ->
  fin (energy_f64 p m) /\ within (bpow radix2 (-51)) (sqrt (val m * val m + val p * val p)) (val (energy_f64 p m)).
Proof. exact energy_acc. Qed.
Print Assumptions C95_energy.

(** There is an exponential with all the properties assumed, and arguments within the ranges. *)
Example C95_example : exists E, exp_nonneg E /\ exp_least_one E /\ exp_within (bpow radix2 (-52)) E /\ exp_correct E.
Proof. exact exp_exists. Qed.
Example C95_example_arguments : let en := f64_lit 1 2 in let beta := f64_lit 4 1 in let mu := f64_lit 1 4 in
  fin en /\ fin beta /\ fin mu /\ moderate en /\ moderate beta /\ moderate mu /\ normal_or_zero en /\ normal_or_zero mu /\ 0 < val beta /\ val mu <= val en /\
  val beta * (val en - val mu) = 1 /\ val beta * val en = 2.
Proof. exact distr_ex. Qed.
