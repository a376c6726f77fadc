(** * Properties of the plotting programs (C89) *)
From Coq Require Import Reals List Lra Lia.
From Coquelicot Require Import Coquelicot.
From Verif Require Import Num MCommon MConsts MUtils MVacuum MDress MQuark MPhase MHtl MProg SpecLim SpecInt SpecHtl SpecProg PProg PProg2 PProg3 PCfg PExTherm PExProg.
Import List ListNotations.
Open Scope R_scope.

(** C89. qcd_quark_charge_density.rs: both plots carry the legends T = 0, 0.1, ..., 1; the k-th image is the
    density at the k-th temperature at the points of the domain; the detail plot shows the middle part of the
    first three curves. It panics for grids of less than 2500 points. *)
Theorem C89_density_program : forall J g grid,
  ((length grid < 2500)%nat -> density_program J g grid = Panic) /\
  ((2500 <= length grid)%nat -> exists plot detail, density_program J g grid = Ret (plot, detail) /\
    pl_domain plot = grid /\ pl_legends plot = 0 :: plot_temperatures /\ pl_legends detail = 0 :: plot_temperatures /\
    pl_images plot = map (fun t => map (density_at J g t) grid) (0 :: plot_temperatures) /\
    middle grid (pl_domain detail) /\ Forall2 middle (firstn 3 (pl_images plot)) (pl_images detail)).
Proof. exact (fun J g grid => conj (fun H => plot_program_short _ _ grid H) (density_plots J g grid)). Qed.
Print Assumptions C89_density_program.

(** The shape of its curves on an increasing grid. *)
Theorem C89_density_curves : forall J g grid, exact_integrator J -> (0 < g_nc g)%nat -> increasing_list grid ->
  nondecreasing_list (map (density_at J g 0) grid) /\
  (forall t, In t plot_temperatures -> increasing_list (map (density_at J g t) grid)) /\
  (forall t mu, In t (0 :: plot_temperatures) -> density_at J g t (- mu) = - density_at J g t mu) /\
  (forall mu, density_at J g 0 mu = 0 <-> - (1 / 2) <= mu <= 1 / 2).
Proof. exact density_curves. Qed.
Print Assumptions C89_density_curves.

(** qcd_quark_chemical_potential.rs: if it returns, every plotted value solves its equation. *)
Theorem C89_chempot_program : forall J g grid plot detail g', (0 < g_nc g)%nat -> chempot_program J g grid = Ret (plot, detail, g') ->
  g_tol_integral g' = / 10 ^ 5 /\ g_nc g' = g_nc g /\
  pl_domain plot = grid /\ pl_legends plot = 0 :: plot_temperatures /\ pl_legends detail = 0 :: plot_temperatures /\
  Forall2 (fun t vals => Forall2 (solves J g' t) grid vals) (0 :: plot_temperatures) (pl_images plot) /\
  middle grid (pl_domain detail) /\ Forall2 middle (firstn 3 (pl_images plot)) (pl_images detail).
Proof. exact chempot_plots. Qed.
Print Assumptions C89_chempot_program.

(** It fails exactly if the grid is too short or one of the searches fails. *)
Theorem C89_chempot_panics : forall J g grid, chempot_program J g grid = Panic <-> (length grid < 2500)%nat \/
  exists g' t n, set_default_tol_integral OpsR (/ 10 ^ 5) g = Some g' /\ In t plot_temperatures /\ In n grid /\ chemical_potential J g' (1 / 2) (/ t) n = Panic.
Proof. exact chempot_panics. Qed.
Print Assumptions C89_chempot_panics.

(** qcd_gluon_propagator_compare.rs: six images and six files with distinct names, each holding the curve of its
    own run; the number of flavours is left at zero. *)
Theorem C89_compare_program : forall g momenta,
  let s := compare_main g momenta in
  cs_index s = 6%nat /\ map fst (cs_files s) = [0; 1; 2; 3; 4; 5]%nat /\
  cs_images s = map (fun r => run_curve (g_nc g) r momenta) compare_runs /\
  map snd (cs_files s) = map (fun r => combine momenta (run_curve (g_nc g) r momenta)) compare_runs /\
  g_nf (cs_g s) = 0%nat /\ g_nf_div_nc (cs_g s) = 0 /\ g_nc (cs_g s) = g_nc g.
Proof. exact compare_main_eq. Qed.
Print Assumptions C89_compare_program.

(** The third and the sixth curve coincide: without flavours the quark mass does not matter. *)
Theorem C89_compare_redundant : forall g momenta,
  nth_error (cs_images (compare_main g momenta)) 2 = nth_error (cs_images (compare_main g momenta)) 5.
Proof. exact compare_same. Qed.
Print Assumptions C89_compare_redundant.

(** What the shift of the additive constant by 2/27 per flavour and colour achieves: at large momenta the quark
    loops are a pure logarithm of p^2/mq^2; at small momenta they leave just the shift. *)
Theorem C89_compare_shift : forall nc nf m mq f0 z, mq <> 0 -> z <> 0 ->
  tends INF (fun p2 => z * dressing_model nc nf m mq f0 z p2 - (ym_gluon_dressing_inv_landau (p2 / m ^ 2) f0 - INR nf / INR nc * (2 / 9 * ln (p2 / mq ^ 2)))) 0 /\
  tends (at_right 0) (fun p2 => z * dressing_model nc nf m mq f0 z p2 - ym_gluon_dressing_inv_landau (p2 / m ^ 2) (f0 + 2 / 27 * (INR nf / INR nc))) 0.
Proof. exact (fun nc nf m mq f0 z Hq Hz => conj (dressing_uv nc nf m mq f0 z Hq Hz) (dressing_ir nc nf m mq f0 z Hq Hz)). Qed.
Print Assumptions C89_compare_shift.

(** qcd_gluon_propagator.rs: seven images, six at the listed temperatures ... *)
Theorem C89_propagator_program : forall J g momenta,
  let '(pt, pl) := propagator_program J g momenta in
  pl_domain pt = momenta /\ pl_domain pl = momenta /\ pl_legends pt = gp_temperatures ++ [0] /\ pl_legends pl = gp_temperatures ++ [0] /\
  firstn 6 (pl_images pt) = map (gp_curve J g momenta false) gp_temperatures /\ firstn 6 (pl_images pl) = map (gp_curve J g momenta true) gp_temperatures /\
  length (pl_images pt) = 7%nat /\ length (pl_images pl) = 7%nat.
Proof. exact propagator_program_eq. Qed.
Print Assumptions C89_propagator_program.

(** ... and the last is the pointwise limit of such curves as the temperature goes to zero. *)
Theorem C89_propagator_limit : forall J g momenta, exact_integrator J -> (0 < g_nc g)%nat -> g_matsubara_reg g <> 0 ->
  Forall (fun p => 0 < p /\ qcd_gluon_dressing_l_inv_zero_temp J g (g_matsubara_reg g) p 0.656 (g_m_quark g) 1.2 (- 0.876) <> RtoC 0 /\
    qcd_gluon_dressing_t_inv_zero_temp J g (g_matsubara_reg g) p 0.656 (g_m_quark g) 1.2 (- 0.876) <> RtoC 0) momenta ->
  let '(pt, pl) := propagator_program J g momenta in
  forall i, (i < length momenta)%nat ->
  tends (at_right 0) (fun t => nth i (gp_curve J g momenta false t) 0) (nth i (nth 6 (pl_images pt) []) 0) /\
  tends (at_right 0) (fun t => nth i (gp_curve J g momenta true t) 0) (nth i (nth 6 (pl_images pl) []) 0).
Proof. exact propagator_limit. Qed.
Print Assumptions C89_propagator_limit.

(** ym_thermal_gluon_propagator.rs: thirteen files with distinct names; each table is the propagator of its own
    parameters, normalised to p^2 D(p) = 1 at 4 GeV; the plots show the same data under the right legends. *)
Theorem C89_ym_tables : forall J g momenta,
  ym_files J g momenta = (Vacuum, combine momenta (norm4 ym_vacuum_prop momenta)) ::
    map (fun y => (if y_long y then Long (y_T y) else Trans (y_T y), combine momenta (norm4 (ym_run_prop J g y) momenta))) ym_runs /\
  length (ym_files J g momenta) = 13%nat /\ NoDup (map fst (ym_files J g momenta)).
Proof. exact (fun J g momenta => conj (ym_files_eq J g momenta) (ym_names_distinct J g momenta)). Qed.
Print Assumptions C89_ym_tables.

Theorem C89_ym_normalised : forall (D : R -> R) momenta i j p q, D 4 <> 0 ->
  (nth_error momenta i = Some 4 -> nth_error (norm4 D momenta) i = Some (/ 4 ^ 2)) /\
  (nth_error momenta i = Some p -> nth_error momenta j = Some q -> D q <> 0 ->
     exists x y, nth_error (norm4 D momenta) i = Some x /\ nth_error (norm4 D momenta) j = Some y /\ x / y = D p / D q).
Proof. exact (fun D momenta i j p q H => conj (normalised_at D momenta i H) (normalised_ratio D momenta i j p q H)). Qed.
Print Assumptions C89_ym_normalised.

Theorem C89_ym_plots : forall J g momenta,
  let v i := norm4 (ym_run_prop J g (nth i ym_runs (mkYm true 0 0 0 0))) momenta in
  let T i := y_T (nth i ym_runs (mkYm true 0 0 0 0)) in
  let vac := norm4 ym_vacuum_prop momenta in
  ym_plots J g momenta = [ ([vac; v 0%nat; v 1%nat; v 2%nat], [0%nat; T 0%nat; T 1%nat; T 2%nat]); ([v 3%nat; v 4%nat; v 5%nat], [T 3%nat; T 4%nat; T 5%nat]);
    ([vac; v 6%nat; v 7%nat; v 8%nat], [0%nat; T 6%nat; T 7%nat; T 8%nat]); ([v 9%nat; v 10%nat; v 11%nat], [T 9%nat; T 10%nat; T 11%nat]) ].
Proof. exact ym_plots_eq. Qed.
Print Assumptions C89_ym_plots.

(** With an exact integrator and three colours the density plot exists on an increasing grid of 4000 points, and
    its T = 0 curve has the value 1.728/pi^2 at mu = 1.3. *)
Theorem C89_polarization_program : forall J g momenta,
  let '(pt, pl) := polarization_program J g momenta in
  pl_domain pt = momenta /\ pl_domain pl = momenta /\ pl_legends pt = gp_temperatures ++ [0] /\ pl_legends pl = gp_temperatures ++ [0] /\
  firstn 6 (pl_images pt) = map (pol_curve J g momenta false) gp_temperatures /\ firstn 6 (pl_images pl) = map (pol_curve J g momenta true) gp_temperatures /\
  length (pl_images pt) = 7%nat /\ length (pl_images pl) = 7%nat.
Proof. exact polarization_program_eq. Qed.
Print Assumptions C89_polarization_program.

(** The seventh curve, labelled by temperature 0, is the limit of the others. *)
Theorem C89_polarization_limit : forall J g momenta, exact_integrator J -> (0 < g_nc g)%nat -> g_matsubara_reg g <> 0 -> Forall (fun p => 0 < p) momenta ->
  let '(pt, pl) := polarization_program J g momenta in
  curves_tend (at_right 0) (pol_curve J g momenta false) (nth 6 (pl_images pt) []) (length momenta) /\
  curves_tend (at_right 0) (pol_curve J g momenta true) (nth 6 (pl_images pl) []) (length momenta).
Proof. exact polarization_limit. Qed.
Print Assumptions C89_polarization_limit.

Theorem C89_integrand_program : forall g qs,
  let c := integrand_curve (g_nc g) (g_matsubara_reg g) (g_m_quark g) 1.2 qs in
  let '(pt, pl) := integrand_program g qs in
  Forall2 (fun p P => pl_domain P = qs /\ pl_legends P = gp_temperatures ++ [0] /\ length (pl_images P) = 7%nat /\ firstn 6 (pl_images P) = map (c false p) gp_temperatures) [0.4; 1.2] pt /\
  Forall2 (fun p P => pl_domain P = qs /\ pl_legends P = gp_temperatures ++ [0] /\ length (pl_images P) = 7%nat /\ firstn 6 (pl_images P) = map (c true p) gp_temperatures) [0.4; 1.2] pl.
Proof. exact integrand_program_eq. Qed.
Print Assumptions C89_integrand_program.

(** The integrand converges off the Fermi surface. *)
Theorem C89_integrand_limit : forall g qs, Forall (fun q => sqrt (g_m_quark g * g_m_quark g + q * q) <> 1.2) qs ->
  let c := integrand_curve (g_nc g) (g_matsubara_reg g) (g_m_quark g) 1.2 qs in
  let '(pt, pl) := integrand_program g qs in
  Forall2 (fun p P => curves_tend (at_right 0) (c false p) (nth 6 (pl_images P) []) (length qs)) [0.4; 1.2] pt /\
  Forall2 (fun p P => curves_tend (at_right 0) (c true p) (nth 6 (pl_images P) []) (length qs)) [0.4; 1.2] pl.
Proof. exact integrand_limit. Qed.
Print Assumptions C89_integrand_limit.

Theorem C89_small_momentum_program : forall g qs, let c := fun long p => integrand_curve (g_nc g) 0.1 0.3 1.2 qs long p 0.26 in
  let P := small_momentum_program g qs in
  pl_domain P = qs /\ pl_legends P = [0.1; 0.1; 0.05; 0.05; 0.01; 0.01; 0] /\ length (pl_images P) = 7%nat /\
  firstn 6 (pl_images P) = [c true 0.1; c false 0.1; c true 0.05; c false 0.05; c true 0.01; c false 0.01].
Proof. exact small_momentum_eq. Qed.
Print Assumptions C89_small_momentum_program.

(** Longitudinal and transverse curves tend to the same seventh curve as the external momentum vanishes. *)
Theorem C89_small_momentum_limit : forall g qs, (0 < g_nc g)%nat -> Forall (fun q => 0 < q) qs ->
  let P := small_momentum_program g qs in
  forall long, curves_tend (at_right 0) (fun p => integrand_curve (g_nc g) 0.1 0.3 1.2 qs long p 0.26) (nth 6 (pl_images P) []) (length qs).
Proof. exact small_momentum_limit. Qed.
Print Assumptions C89_small_momentum_limit.

(** The photon program: reference and computed curve agree at high temperature, for three colours
    (the factor 6 in the program); the imaginary plots are zero. *)
Theorem C89_htl_ratio : forall J g om p, exact_integrator J -> (0 < g_nc g)%nat -> om <> 0 -> 0 < p ->
  tendsC (Rbar_locally p_infty) (fun t => (f_ours J g om p t / f_htl om p t)%C) (RtoC (3 / INR (g_nc g))) /\
  tendsC (Rbar_locally p_infty) (fun t => (g_ours J g om p t / g_htl om p t)%C) (RtoC (3 / INR (g_nc g))).
Proof. exact htl_ratio. Qed.
Print Assumptions C89_htl_ratio.

Theorem C89_htl_program : forall J g momenta, exact_integrator J -> (0 < g_nc g)%nat -> Forall (fun p => 0 < p) momenta ->
  htl_program J g momenta =
  map (fun t => (t, [map (fun p => t * t * htl_L 0.01 p) momenta; map (fun p => Re (f_ours J g 0.01 p t)) momenta;
                     map (fun p => t * t * htl_T 0.01 p) momenta; map (fun p => Re (g_ours J g 0.01 p t)) momenta],
                 repeat (map (fun _ => 0) momenta) 4)) [1; 2; 5; 10].
Proof. exact htl_program_eq. Qed.
Print Assumptions C89_htl_program.

Example C89_example : exists J g grid plot detail, exact_integrator J /\ length grid = 4000%nat /\ increasing_list grid /\ In 1.3 grid /\
  density_program J g grid = Ret (plot, detail) /\ (forall i, nth_error grid i = Some 1.3 -> nth_error (nth 0 (pl_images plot) []) i = Some (1.728 / PI ^ 2)).
Proof. exact ex_density_plot. Qed.
(** A table holding the point 4 GeV. *)
Example C89_example_ym : forall J g, Re (ym_gluon_propagator_l J g 0.002 4 0.025 (1 / 0.26) (- 5.276)) <> 0 ->
  exists v, In (Long 260, [(3, v); (4, 1 / 16)]) (ym_files J g [3; 4]).
Proof. exact ex_ym_table. Qed.

(** Three colours, frequency and momentum 1: the ratio of computed and reference curve tends to 1. *)
Example C89_example_htl : tendsC (Rbar_locally p_infty) (fun t => (f_ours RInt_J g0 1 1 t / f_htl 1%R 1 t)%C) (RtoC 1) /\
  tendsC (Rbar_locally p_infty) (fun t => (g_ours RInt_J g0 1 1 t / g_htl 1%R 1 t)%C) (RtoC 1).
Proof. exact ex_htl_ratio. Qed.
