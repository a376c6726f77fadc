(** * The polynomial fit of the phase boundary (tc_long_prop/src/lib.rs 49-137)

    peroxide's optimizer is a parameter: it gets the data, the model function, the initial
    parameters and the settings, and returns parameters or panics. Peroxide's automatic
    differentiation type [AD] (truncated Taylor coefficients up to the second derivative) is
    modelled with the arithmetic of derivatives; this is an assumption about peroxide. *)
From Coq Require Import Reals List.
From Verif Require Import Num MUtils MTc MPhase.
Import ListNotations.
Open Scope R_scope.

(** peroxide's [AD]: a value and its first and second derivative, as far as they are tracked *)
Inductive AD := AD0 (x : R) | AD1 (x dx : R) | AD2 (x dx ddx : R).
Definition ad_x (a : AD) : R := match a with AD0 x => x | AD1 x _ => x | AD2 x _ _ => x end.
Definition ad_dx (a : AD) : R := match a with AD0 _ => 0 | AD1 _ d => d | AD2 _ d _ => d end.
Definition ad_ddx (a : AD) : R := match a with AD0 _ => 0 | AD1 _ _ => 0 | AD2 _ _ e => e end.
Definition ad_order (a : AD) : nat := match a with AD0 _ => 0%nat | AD1 _ _ => 1%nat | AD2 _ _ _ => 2%nat end.
Definition ad_make (n : nat) (x dx ddx : R) : AD :=
  match n with O => AD0 x | S O => AD1 x dx | _ => AD2 x dx ddx end.
Definition ad_plus (a b : AD) : AD :=
  ad_make (Nat.max (ad_order a) (ad_order b)) (ad_x a + ad_x b) (ad_dx a + ad_dx b) (ad_ddx a + ad_ddx b).
Definition ad_mult (a b : AD) : AD :=
  ad_make (Nat.max (ad_order a) (ad_order b)) (ad_x a * ad_x b) (ad_x a * ad_dx b + ad_dx a * ad_x b)
    (ad_x a * ad_ddx b + 2 * (ad_dx a * ad_dx b) + ad_ddx a * ad_x b).

(* tc_long_prop/src/lib.rs 50-62 *)
Class ROrAD (T : Type) := { ra_zero : T; ra_plus : T -> T -> T; ra_mult : T -> T -> T }.
#[global] Instance ROrAD_R : ROrAD R := {| ra_zero := 0; ra_plus := Rplus; ra_mult := Rmult |}.
#[global] Instance ROrAD_AD : ROrAD AD := {| ra_zero := AD0 0; ra_plus := ad_plus; ra_mult := ad_mult |}.

(* tc_long_prop/src/lib.rs 65-72, for both types *)
Definition parametric_phase_diagram_gen {T : Type} {N : ROrAD T} (mu : T) (params : list T) : outcome T :=
  match params with
  | [] => Panic
  | p0 :: rest => Ret (ra_plus (fold_left (fun res p => ra_mult (ra_plus res p) mu) (rev rest) ra_zero) p0)
  end.

(* 96-104: the closure given to the optimizer *)
Definition fit_model (mus : list R) (p : list AD) : outcome (option (list AD)) :=
  obind (omap (fun mu => parametric_phase_diagram_gen (AD1 mu 0) p) mus) (fun l => Ret (Some l)).

(** data (two columns), model function, initial parameters, maximal number of iterations,
    initial and maximal damping *)
Definition FitRoutine : Type :=
  list (R * R) -> (list R -> list AD -> outcome (option (list AD))) -> list R -> nat -> R -> R -> outcome (list R).

(** the plot: domain, data and fitted values *)
Record FitPlot := mkFitPlot { fp_domain : list R; fp_data : list R; fp_fit : list R }.

(* tc_long_prop/src/lib.rs 85-132; [plot]: whether a path for the plot is given *)
Definition parametrize_phase_boundary (optimize : FitRoutine) (pb : list (R * R)) (n : nat) (plot : bool)
    : outcome (list R * option FitPlot) :=
  let pb_red := reduce_phase_boundary pb in
  let domain := map fst pb_red in
  let values := map snd pb_red in
  obind (optimize (combine domain values) fit_model (repeat 1 (n + 1)) 50%nat (/ 1000) 1000) (fun params =>
    if plot then
      obind (omap (fun mu => parametric_phase_diagram_gen mu params) domain) (fun image =>
        Ret (params, Some (mkFitPlot domain values image)))
    else Ret (params, None)).

(* bin/physical_tc.rs 714-720: degree 8, with a plot; the fit handed to [physical_tc_main] *)
Definition boundary_fit (optimize : FitRoutine) (pb : list (R * R)) : outcome (list R) :=
  obind (parametrize_phase_boundary optimize pb 8 true) (fun r => Ret (fst r)).
