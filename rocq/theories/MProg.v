(** * The plotting programs of qcd-sme/examples: the data they plot and write

    qcd_quark_charge_density.rs, qcd_quark_chemical_potential.rs,
    qcd_gluon_propagator_compare.rs, qcd_gluon_propagator.rs, qcd_gluon_polarization_quark.rs,
    qcd_gluon_polarization_quark_integrand.rs, qcd_gluon_quark_polarization.rs, qed_htl_limit.rs,
    ym_thermal_gluon_propagator.rs. Decimal literals are their exact values. The grids are
    parameters here (MGrid has them in binary64). Plotting, the text format of the files and
    progress messages are not modelled; a legend is represented by the temperature it names. *)
From Coq Require Import Reals List ZArith.
From Coquelicot Require Import Coquelicot.
From Verif Require Import Num MCommon MConsts MUtils MVacuum MPolar MDress MQuark MPhase MHtl.
Import ListNotations.
Open Scope R_scope.

Record Plot := mkPlot { pl_domain : list R; pl_images : list (list R); pl_legends : list R }.
(** [v[c..n - c]] where [n] is the length of the grid; it panics unless [2c <= n] (see [plot_program]) *)
Definition slice {A : Type} (c n : nat) (v : list A) : list A := firstn (n - c - c) (skipn c v).
Definition add_image (v : list R) (p : Plot) : Plot := mkPlot (pl_domain p) (pl_images p ++ [v]) (pl_legends p).
Definition set_legend (l : list R) (p : Plot) : Plot := mkPlot (pl_domain p) (pl_images p) l.

(* qcd_quark_charge_density.rs 25-27; qcd_quark_chemical_potential.rs 27-29 *)
Definition plot_temperatures : list R := [1 / 10; 2 / 10; 3 / 10; 4 / 10; 5 / 10; 6 / 10; 7 / 10; 8 / 10; 9 / 10; 1].
(* qcd_quark_charge_density.rs 40-54 (and qcd_quark_chemical_potential.rs 42-56): the loop,
   [curve t] computing the values at temperature [t] *)
Fixpoint plot_loop (curve : R -> outcome (list R)) (c n : nat) (ts : list R) (s : Plot * Plot * list R) : outcome (Plot * Plot * list R) :=
  match ts with
  | [] => Ret s
  | t :: rest =>
      let '(plot, detail, legends) := s in
      let legends := legends ++ [t] in
      obind (curve t) (fun vals =>
        let detail := if Rle_dec t (2 / 10) then add_image (slice c n vals) detail else detail in
        plot_loop curve c n rest (add_image vals plot, detail, legends))
  end.
(* 14-60 of both: [zero] computes the values at T = 0 *)
Definition plot_program (zero : list R) (curve : R -> outcome (list R)) (grid : list R) : outcome (Plot * Plot) :=
  let n := length grid in
  let c := 1250%nat in
  let plot := mkPlot grid [] [] in
  if Nat.ltb n (c + c) then Panic else
  let detail := mkPlot (slice c n grid) [] [] in
  let legends := [0] in
  let detail := add_image (slice c n zero) detail in
  let plot := add_image zero plot in
  obind (plot_loop curve c n plot_temperatures (plot, detail, legends)) (fun s =>
    let '(plot, detail, legends) := s in Ret (set_legend legends plot, set_legend legends detail)).
(* qcd_quark_charge_density.rs 5-60 *)
Definition density_program (J : Integrator) (g : globals R) (chempots : list R) : outcome (Plot * Plot) :=
  let mq := 5 / 10 in
  plot_program (map (charge_density_zero_temp (get_number_of_colors g) mq) chempots)
    (fun t => Ret (map (charge_density J g mq (1 / t)) chempots)) chempots.
(* qcd_quark_chemical_potential.rs 6-62; a panic in one of the parallel calls is a panic *)
Definition chempot_program (J : Integrator) (g : globals R) (densities : list R) : outcome (Plot * Plot * globals R) :=
  let mq := 5 / 10 in
  match set_default_tol_integral OpsR (/ 10 ^ 5) g with
  | None => Panic
  | Some g =>
      obind (plot_program (map (chemical_potential_zero_temp (get_number_of_colors g) mq) densities)
        (fun t => omap (chemical_potential J g mq (1 / t)) densities) densities) (fun p => Ret (p, g))
  end.

(* qcd_gluon_propagator_compare.rs 29, 33-39: one value *)
Definition compare_value (g : globals R) (m mq f0 z : R) (nf : nat) (p2 : R) : R :=
  let nf_div_nc' := INR nf / INR (get_number_of_colors g) in
  let f0 := f0 + 2 * nf_div_nc' / 27 in
  let m2 := m * m in
  qcd_gluon_dressing_crossed_inv_landau (nf_div_nc g) (p2 / m2) (mq / m) f0 / z.
(** the state: globals, PLOT_INDEX, the files (index and rows) and the images so far *)
Record CompareState := mkCompare { cs_g : globals R; cs_index : nat; cs_files : list (nat * list (R * R)); cs_images : list (list R) }.
(* qcd_gluon_propagator_compare.rs 11-47; a file with an existing name is overwritten *)
Definition do_dressing (momenta : list R) (m mq f0 z : R) (nf : nat) (s : CompareState) : CompareState :=
  let idx := cs_index s in
  let g := set_number_of_fermions OpsR nf (cs_g s) in
  let values := map (compare_value g m mq f0 z nf) momenta in
  mkCompare g (S idx) (filter (fun f => negb (Nat.eqb (fst f) idx)) (cs_files s) ++ [(idx, combine momenta values)]) (cs_images s ++ [values]).
(* qcd_gluon_propagator_compare.rs 49-82 *)
Definition compare_main (g : globals R) (momenta : list R) : CompareState :=
  let s := mkCompare g 0 [] [] in
  let s := do_dressing momenta (8 / 10) (65 / 100) (- (65 / 100)) (4 / 10) 2 s in
  let s := do_dressing momenta (73 / 100) (65 / 100) (- (65 / 100)) (4 / 10) 2 s in
  let s := do_dressing momenta (73 / 100) (65 / 100) (- (105 / 100)) 1 0 s in
  let s := do_dressing momenta (8 / 10) (5 / 10) (- (6 / 10)) (4 / 10) 2 s in
  let s := do_dressing momenta (73 / 100) (5 / 10) (- (6 / 10)) (4 / 10) 2 s in
  do_dressing momenta (73 / 100) (5 / 10) (- (105 / 100)) 1 0 s.

(* qcd_gluon_propagator.rs 13-98: the two plots (transverse, longitudinal), the images at the
   six temperatures followed by the one at zero temperature *)
Definition propagator_program (J : Integrator) (g : globals R) (momenta : list R) : Plot * Plot :=
  let mu := 12 / 10 in
  let m := 656 / 1000 in
  let f0 := - (876 / 1000) in
  let om := get_matsubara_reg g in
  let mq := get_default_quark_mass g in
  let temperatures := [100 / 1000; 75 / 1000; 50 / 1000; 25 / 1000; 10 / 1000; 5 / 1000] in
  let transverse := map (fun t => map (fun p => Re (qcd_gluon_propagator_t J g om p m mq (1 / t) mu f0)) momenta) temperatures
    ++ [map (fun p => Re (qcd_gluon_propagator_t_zero_temp J g om p m mq mu f0)) momenta] in
  let longitudinal := map (fun t => map (fun p => Re (qcd_gluon_propagator_l J g om p m mq (1 / t) mu f0)) momenta) temperatures
    ++ [map (fun p => Re (qcd_gluon_propagator_l_zero_temp J g om p m mq mu f0)) momenta] in
  (mkPlot momenta transverse (temperatures ++ [0]), mkPlot momenta longitudinal (temperatures ++ [0])).

Definition low_temperatures : list R := [100 / 1000; 75 / 1000; 50 / 1000; 25 / 1000; 10 / 1000; 5 / 1000].
(* qcd_gluon_polarization_quark.rs 13-105: transverse and longitudinal plot *)
Definition polarization_program (J : Integrator) (g : globals R) (momenta : list R) : Plot * Plot :=
  let mu := 12 / 10 in
  let mq := get_default_quark_mass g in
  let om := get_matsubara_reg g in
  (mkPlot momenta (map (fun t => map (fun p => Re (polarization_quark_t_thermal_part_landau J g om p mq (1 / t) mu)) momenta) low_temperatures
     ++ [map (fun p => Re (polarization_quark_t_thermal_part_zero_temp_landau J g om p mq mu)) momenta]) (low_temperatures ++ [0]),
   mkPlot momenta (map (fun t => map (fun p => Re (polarization_quark_l_thermal_part_landau J g om p mq (1 / t) mu)) momenta) low_temperatures
     ++ [map (fun p => Re (polarization_quark_l_thermal_part_zero_temp_landau J g om p mq mu)) momenta]) (low_temperatures ++ [0])).

(* qcd_gluon_polarization_quark_integrand.rs 15-107: the plots for the external momenta 0.4 and 1.2,
   transverse and then longitudinal; [nc] is the number of colours, read by the integrands *)
Definition integrand_program (g : globals R) (qs : list R) : list Plot * list Plot :=
  let mu := 12 / 10 in
  let mq := get_default_quark_mass g in
  let om := get_matsubara_reg g in
  let nc := get_number_of_colors g in
  let momenta2 := [4 / 10; 12 / 10] in
  (map (fun p => mkPlot qs (map (fun t => map (fun q => Re (polarization_quark_t_thermal_part_landau_i nc q om p mq (1 / t) mu)) qs) low_temperatures
     ++ [map (fun q => Re (polarization_quark_t_thermal_part_zero_temp_landau_i nc q om p mq mu)) qs]) (low_temperatures ++ [0])) momenta2,
   map (fun p => mkPlot qs (map (fun t => map (fun q => Re (polarization_quark_l_thermal_part_landau_i nc q om p mq (1 / t) mu)) qs) low_temperatures
     ++ [map (fun q => Re (polarization_quark_l_thermal_part_zero_temp_landau_i nc q om p mq mu)) qs]) (low_temperatures ++ [0])) momenta2).

(* qcd_gluon_quark_polarization.rs 9-76: the legends are momenta here *)
Definition small_momentum_program (g : globals R) (qs : list R) : Plot :=
  let t := 260 / 1000 in
  let beta := 1 / t in
  let mq := 300 / 1000 in
  let om := 1 / 10 in
  let nc := get_number_of_colors g in
  let ps := [1 / 10; 5 / 100; 1 / 100] in
  mkPlot qs
    (flat_map (fun p => [map (fun q => Re (polarization_quark_l_thermal_part_landau_i nc q om p mq beta (12 / 10))) qs;
                         map (fun q => Re (polarization_quark_t_thermal_part_landau_i nc q om p mq beta (12 / 10))) qs]) ps
     ++ [map (fun q => zp_polarization_quark_l_thermal_part_landau_i nc q (1 / 10) mq beta (12 / 10)) qs])
    (flat_map (fun p => [p; p]) ps ++ [0]).

(* qed_htl_limit.rs 26-36; ME = 0.001 *)
Definition f_ours (J : Integrator) (g : globals R) (om p t : R) : C :=
  Cmult (RtoC (-6)) (polarization_quark_l_thermal_part_landau J g om p (1 / 1000) (1 / t) 0).
Definition g_ours (J : Integrator) (g : globals R) (om p t : R) : C :=
  Cmult (RtoC (-6)) (polarization_quark_t_thermal_part_landau J g om p (1 / 1000) (1 / t) 0).
(* qed_htl_limit.rs 38-119: per temperature the real and the imaginary plot; the four images are
   longitudinal (reference, computed) and transverse (reference, computed) *)
Definition htl_program (J : Integrator) (g : globals R) (momenta : list R) : list (R * list (list R) * list (list R)) :=
  let om := 1 / 100 in
  map (fun t =>
    let vals := [map (fun p => f_htl om p t) momenta; map (fun p => f_ours J g om p t) momenta;
                 map (fun p => g_htl om p t) momenta; map (fun p => g_ours J g om p t) momenta] in
    (t, map (map Re) vals, map (map Im) vals)) [1; 2; 5; 10].

(* ym_thermal_gluon_propagator.rs: a table file, named by polarization and label in MeV *)
Inductive ym_file := Vacuum | Long (t : nat) | Trans (t : nat).
Definition ym_temperatures : list nat := [121; 194; 260; 290; 366; 458]%nat.   (* 27, in MeV; the label is exact by C88 *)
Definition ym_ms_l : list R := [525 / 1000; 175 / 1000; 25 / 1000; 100 / 1000; 350 / 1000; 650 / 1000].
Definition ym_f0s_l : list R := [- (5 / 100); - (13 / 10); - (44 / 10); - (1); 12 / 10; 18 / 10].
Definition ym_ms_t : list R := [675 / 1000; 725 / 1000; 775 / 1000; 725 / 1000; 800 / 1000; 900 / 1000].
Definition ym_f0s_t : list R := [5 / 100; 10 / 100; 30 / 100; 40 / 100; 50 / 100; 60 / 100].
Definition ym_renpoint : R := 4.
(* 37-46 *)
Definition ym_vacuum_vals (momenta : list R) : list R :=
  let mg := 656 / 1000 in
  let f0 := - (876 / 1000) in
  let norm := ym_gluon_propagator_landau (ym_renpoint * ym_renpoint / (mg * mg)) f0 * (ym_renpoint * ym_renpoint) in
  map (fun p => ym_gluon_propagator_landau (p * p / (mg * mg)) f0 / norm) momenta.
(* 76-90, 106-120, 147-161, 190-204, 230-244: [prop p] is the propagator at the parameters of the block *)
Definition ym_vals (prop : R -> C) (momenta : list R) : list R :=
  let norm := Re (prop ym_renpoint) * (ym_renpoint * ym_renpoint) in
  map (fun p => Re (prop p) / norm) momenta.
(* the propagator of the block for temperature number [i] (0-5); the Matsubara regulator is
   0.002 for the longitudinal propagator at 260 MeV (105), 0.001 otherwise (19) *)
Definition ym_prop_l (J : Integrator) (g : globals R) (i : nat) (p : R) : C :=
  let t := INR (nth i ym_temperatures 0%nat) / 1000 in
  let om := if Nat.eqb i 2 then 2 / 1000 else 1 / 1000 in
  ym_gluon_propagator_l J g om p (nth i ym_ms_l 0) (1 / t) (nth i ym_f0s_l 0 + - (876 / 1000)).
Definition ym_prop_t (J : Integrator) (g : globals R) (i : nat) (p : R) : C :=
  let t := INR (nth i ym_temperatures 0%nat) / 1000 in
  ym_gluon_propagator_t J g (1 / 1000) p (nth i ym_ms_t 0) (1 / t) (nth i ym_f0s_t 0 + - (876 / 1000)).
Definition ym_label (i : nat) : nat := nth i ym_temperatures 0%nat.
(* 48-260: the files in the order of creation *)
Definition ym_files (J : Integrator) (g : globals R) (momenta : list R) : list (ym_file * list (R * R)) :=
  (Vacuum, combine momenta (ym_vacuum_vals momenta)) ::
  map (fun i => (Long (ym_label i), combine momenta (ym_vals (ym_prop_l J g i) momenta))) (seq 0 6) ++
  map (fun i => (Trans (ym_label i), combine momenta (ym_vals (ym_prop_t J g i) momenta))) (seq 0 6).
(* the four plots: below and above the transition, longitudinal and transverse; legends in MeV *)
Definition ym_plots (J : Integrator) (g : globals R) (momenta : list R) : list (list (list R) * list nat) :=
  [ (ym_vacuum_vals momenta :: map (fun i => ym_vals (ym_prop_l J g i) momenta) [0; 1; 2]%nat, 0%nat :: map ym_label [0; 1; 2]%nat);
    (map (fun i => ym_vals (ym_prop_l J g i) momenta) [3; 4; 5]%nat, map ym_label [3; 4; 5]%nat);
    (ym_vacuum_vals momenta :: map (fun i => ym_vals (ym_prop_t J g i) momenta) [0; 1; 2]%nat, 0%nat :: map ym_label [0; 1; 2]%nat);
    (map (fun i => ym_vals (ym_prop_t J g i) momenta) [3; 4; 5]%nat, map ym_label [3; 4; 5]%nat) ].
