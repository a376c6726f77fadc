(** * C92: the polynomial fit of the phase boundary *)
From Coq Require Import Reals List.
From Verif Require Import Num MConsts MVacuum MUtils MDress MTc MPhase MFit SpecTc SpecRun SpecFit PFit PFit2 PExRun PExFit.
Import ListNotations.
Open Scope R_scope.

(** The model function handed to the optimizer: values and derivatives of the polynomial. *)
Theorem C92_model_derivatives : forall mus p v, p <> [] -> length v = length p ->
  fit_model mus (moving p v) = Ret (Some (map (fun mu => AD1 (poly p mu) (poly v mu)) mus)).
Proof. exact model_moving. Qed.
Print Assumptions C92_model_derivatives.

(** Its column of the Jacobian for parameter [j] consists of the powers [mu ^ j]. *)
Theorem C92_jacobian : forall mus p j, (j < length p)%nat ->
  fit_model mus (moving p (unit_vector (length p) j)) = Ret (Some (map (fun mu => AD1 (poly p mu) (mu ^ j)) mus)).
Proof. exact model_jacobian. Qed.
Print Assumptions C92_jacobian.

Theorem C92_model_panics : forall mus p, fit_model mus p = Panic <-> p = [] /\ mus <> [].
Proof. exact model_panics. Qed.
Print Assumptions C92_model_panics.

(** With an optimizer that returns optima, the result is the polynomial of least squares through
    the points before the first vanishing critical temperature, and the plot shows it. *)
Theorem C92_least_squares : forall optimize pb pts n plot r, cut_at_zero pb pts -> optimizes_on optimize pts fit_model ->
  parametrize_phase_boundary optimize pb n plot = Ret r ->
  best_fit pts n (fst r) /\
  snd r = if plot then Some (mkFitPlot (map fst pts) (map snd pts) (map (fun x => poly (fst r) (fst x)) pts)) else None.
Proof. exact param_ret. Qed.
Print Assumptions C92_least_squares.

Theorem C92_panics : forall optimize pb pts n plot, cut_at_zero pb pts -> optimizes_on optimize pts fit_model ->
  parametrize_phase_boundary optimize pb n plot = Panic <-> optimize pts fit_model (repeat 1 (S n)) 50%nat (/ 1000) 1000 = Panic.
Proof. exact param_panic. Qed.
Print Assumptions C92_panics.

(** Data behind the first vanishing critical temperature has no influence. *)
Theorem C92_ignores_the_tail : forall optimize pb pts n plot rest, cut_at_zero pb pts ->
  parametrize_phase_boundary optimize (pts ++ (fst (last pts (0, 0)), 0) :: rest) n plot = parametrize_phase_boundary optimize pb n plot.
Proof. exact param_prefix. Qed.
Print Assumptions C92_ignores_the_tail.

(** The fit: it exists, is characterised by the normal equations, and is unique exactly if there
    are more different chemical potentials than the degree. *)
Theorem C92_exists : forall pts n, exists p, best_fit pts n p.
Proof. exact best_exists. Qed.
Print Assumptions C92_exists.
Theorem C92_normal_equations : forall pts n p, best_fit pts n p <->
  length p = S n /\ forall j, (j < length p)%nat -> total (fun x => (snd x - poly p (fst x)) * fst x ^ j) pts = 0.
Proof. exact normal_best. Qed.
Print Assumptions C92_normal_equations.
Theorem C92_unique_iff : forall pts n, (forall p q, best_fit pts n p -> best_fit pts n q -> p = q) <-> at_least (S n) pts.
Proof. exact unique_iff. Qed.
Print Assumptions C92_unique_iff.
(** Even if the coefficients are not unique, the fitted values at the data are. *)
Theorem C92_same_values : forall pts n p q x, best_fit pts n p -> best_fit pts n q -> In x pts -> poly p (fst x) = poly q (fst x).
Proof. exact best_diff. Qed.
Print Assumptions C92_same_values.
Theorem C92_interpolates : forall pts n p, NoDup (map fst pts) -> (length pts <= S n)%nat -> best_fit pts n p ->
  forall x, In x pts -> poly p (fst x) = snd x.
Proof. exact interpolates. Qed.
Print Assumptions C92_interpolates.
Theorem C92_recovers_polynomials : forall pts n c p, length c = S n -> (forall x, In x pts -> snd x = poly c (fst x)) ->
  at_least (S n) pts -> best_fit pts n p -> p = c.
Proof. exact recovers. Qed.
Print Assumptions C92_recovers_polynomials.
Theorem C92_mean : forall pts n p, best_fit pts n p -> total (fun x => poly p (fst x)) pts = total snd pts.
Proof. exact mean_zero. Qed.
Print Assumptions C92_mean.
Theorem C92_degree : forall pts n k p q, (n <= k)%nat -> best_fit pts n p -> best_fit pts k q -> chi2 pts q <= chi2 pts p.
Proof. exact degree_mono. Qed.
Print Assumptions C92_degree.
(** Changing the units of the chemical potential by [b] and of the temperature by [a]. *)
Theorem C92_units : forall pts n a b p, a <> 0 -> b <> 0 -> best_fit pts n p ->
  exists q, best_fit (map (fun x => (b * fst x, a * snd x)) pts) n q /\ forall j, nth j q 0 = a / b ^ j * nth j p 0.
Proof. exact (fun pts n a b p Ha Hb H => ex_intro _ (rescale a b p) (conj (best_rescale pts n a b p Ha Hb H) (fun j => rescale_nth a b p j Hb))). Qed.
Print Assumptions C92_units.

(** In a whole run: the parameters written are a best fit of degree 8 to the boundary without the
    corrections, and they are determined exactly if it has at least nine points. *)
Theorem C92_run : forall J g optimize d out pts, physical_tc_main J g (boundary_fit optimize) d = Ret out ->
  cut_at_zero (po_boundary out) pts -> optimizes_on optimize pts fit_model -> best_fit pts 8 (po_fit out).
Proof. exact run_best. Qed.
Print Assumptions C92_run.
Theorem C92_run_determined : forall J g fit d out pts, physical_tc_main J g fit d = Ret out -> step (in_manychempots d) <> 0 ->
  cut_at_zero (po_boundary out) pts ->
  (forall p q, best_fit pts 8 p -> best_fit pts 8 q -> p = q) <-> (9 <= length pts)%nat.
Proof. exact run_determined. Qed.
Print Assumptions C92_run_determined.

Example C92_example : optimizes_on line_routine [(0, 2); (1, 1); (2, 3 / 2)] fit_model /\
  parametrize_phase_boundary line_routine [(0, 2); (1, 1); (2, 3 / 2); (3, 0); (4, 7)] 1 true =
    Ret ([7 / 4; - 1 / 4], Some (mkFitPlot [0; 1; 2] [2; 1; 3 / 2] [7 / 4; 3 / 2; 5 / 4])).
Proof. exact ex_line. Qed.
Example C92_example_undetermined : best_fit [(0, 1); (1, 1); (2, 1); (3, 1)] 8 [1; 0; 0; 0; 0; 0; 0; 0; 0] /\
  best_fit [(0, 1); (1, 1); (2, 1); (3, 1)] 8 [1; - 6; 11; - 6; 1; 0; 0; 0; 0].
Proof. exact ex_undetermined. Qed.
Example C92_example_run : forall J g, exists out, physical_tc_main J g (boundary_fit flat_routine) one_temp = Ret out /\
  cut_at_zero (po_boundary out) [(0, 1); (1, 1); (2, 1); (3, 1)] /\ po_fit out = [1; 0; 0; 0; 0; 0; 0; 0; 0] /\
  optimizes_on flat_routine [(0, 1); (1, 1); (2, 1); (3, 1)] fit_model.
Proof. exact ex_run_fit. Qed.
