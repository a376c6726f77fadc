# Design: a Rocq model of qcd-sme-rs

## What is modelled

Source: `/repo/qcd-sme/src` (library) and `/repo/tc_long_prop/src` (the phase
diagram program built on it). The model is a hand translation into pure, total
Gallina, one definition per Rust function, each with a comment citing file and
lines.

| Rust | model file |
|---|---|
| `types.rs` trait `Num`, num-complex functions | `Num.v` |
| `consts.rs` | `MConsts.v` |
| `utils.rs` | `MUtils.v` |
| `common/*.rs`, `low_level/common/mod.rs` | `MCommon.v` |
| `low_level/oneloop/{ghost,gluon}.rs`, `ym/{ghost,gluon}.rs`, `qcd/{types,gluon}.rs` | `MVacuum.v` |
| `low_level/oneloop/thermal/mod.rs` | `MThermal.v` |
| `.../thermal/zero_matsubara.rs` | `MThermalZM.v` |
| `.../thermal/zero_momentum.rs` | `MThermalZP.v` |
| `.../thermal/{ghost,gluon}.rs` integrands | `MPolar.v` |
| the integrating wrappers, `ym/thermal.rs`, `qcd/thermal.rs` | `MDress.v` |
| `qcd/thermal.rs` module `quark` | `MQuark.v` |
| `tc_long_prop/src/lib.rs`, `bin/physical_tc.rs` (Config, critical temperature, phase boundary) | `MTc.v` |
| `tc_long_prop/src/lib.rs` 49-137 (fit of the phase boundary) | `MFit.v` |
| `bin/physical_tc.rs` (tables of propagators, grids), `bin/one_mass_overall.rs`, `bin/two_masses_overall.rs` | `MPhase.v` |
| loads of the `static mut` settings interleaved with setters | `MConc.v` |
| IEEE binary64 instance of the operations of `consts.rs`, `utils.rs`, `find_critical_temperature` (Flocq) | `MFloat.v` |
| `examples/qed_htl_limit.rs` (`f_htl`, `g_htl`), `examples/qcd_gluon_propagator_asymptotics.rs` (`asymptotics_known`) | `MHtl.v` |
| `examples/qcd_gluon_propagator_asymptotics.rs` (`asymptotics_test`, the data of `main`) | `MAsym.v` |
| sampling grids of `examples/*.rs` and `tc_long_prop/src/bin/*.rs`, labels in MeV, in IEEE binary64 (Flocq) | `MGrid.v` |
| `fermi_momentum`, the guard of the zero-temperature functions, zero-temperature density, dressing functions and propagators around the integrals, infrared data and cut of the phase boundary, in IEEE binary64 (Flocq) | `MFermi.v` |
| energies and thermal distributions for real arguments in IEEE binary64 (Flocq); the exponential of the libm is a parameter | `MDistr64.v` |
| the phase classification `is_deconfined_phase` in IEEE binary64 (Flocq) | `MTc64.v` |
| the fitted phase boundary `parametric_phase_diagram` in IEEE binary64 (Flocq) | `MFit64.v` |
| numerical residues `compute_residue` in IEEE binary64 (Flocq) | `MRes64.v` |
| numerical spectral functions `spectral_function` in IEEE binary64 (Flocq) | `MSpectral64.v` |
| plots and tables of the other `examples/*.rs` as data (grids from `MGrid.v` are a parameter) | `MProg.v` |
| `examples/ym_thermal_gluon_poles.rs` (without printing, plotting, files) | `MPoles.v` |
| `tests/numerics.py` lines 10-486 (reference formulas, used as a specification) | `SpecNumerics.v` |

## Idealisations (read these first)

1. `f64` is idealised as the real numbers `R` of Coq's standard library and
   `num::Complex<f64>` as Coquelicot's `C = R*R`. Rounding, overflow and signed
   zeros are not modelled in the analytic part. Consequence: identities proved
   here are identities of the *formulas*; floating-point cancellation is out of
   scope.
2. Where NaN or exact floating-point comparison matters for the claim (setter
   assertions, `find_root`, `find_critical_temperature`,
   `reduce_phase_boundary`), the model is polymorphic in the number type and
   its operations, with no laws assumed, so the theorems also hold for IEEE
   binary64; Flocq's `binary64` is used as an instance.
3. Coq's `/`, `ln`, `sqrt` are total. Theorems carry the hypotheses that keep
   the arguments inside the true domain; no theorem relies on `x/0 = 0`,
   `ln` of a non-positive number, or `sqrt` of a negative one. The symmetries of
   C77 need no such hypothesis: where a denominator vanishes, the two sides are
   the same expression.
4. Panics are an explicit `Panic` result.
5. `static mut` globals are a record passed to functions; `&mut`/setters return
   the new record.
6. `peroxide::integrate` (external crate) is a function argument `integ`
   (method -> integrand -> bounds -> value), universally quantified: a theorem
   that mentions it holds for every integration routine.
7. `mul_add(a,b,c)` is `a*b+c`; `powi` is iterated multiplication; `powf` on
   positive base is `Rpower`.
8. Integer types: `NCTYPE`/`NFTYPE` (`u32`) are `nat`. `max_iter` is `nat`.

9. `par_iter` is a sequential map: the closures only log and write distinct
   files. Rows of output files are real numbers, not their printed decimals.
10. Memory is sequentially consistent in `MConc.v`; in Rust a data race on
    `static mut` is undefined behaviour.
11. `tests/numerics.py` shifts `om` by 1E-16 in two functions; the transcription
    leaves the shift out and the comparison is made at `om <> 0`.

Not modelled: FFI shells (`extern "C"`) which only forward, the generated C and
Python bindings, `build.rs`, plotting, file and directory creation, logging,
YAML/CLI parsing, peroxide's Levenberg-Marquardt optimizer (a parameter of `MFit.v`;
its automatic differentiation type is modelled by the arithmetic of derivatives,
an assumption about peroxide), the quadrature rules inside peroxide, axis labels, titles and
colours of the plots of `qcd-sme/examples`, the
print-out part of `tests/numerics.py` (lines 489-1096), and the rounding of
`f64` in every function that is not part of `MFloat.v`, `MGrid.v`, `MFermi.v`, `MDistr64.v`, `MTc64.v`, `MFit64.v`, `MRes64.v` or `MSpectral64.v`.

## Specification style

`Spec*.v` contain the vocabulary in which properties are stated, independent of
the model's helper functions:

| file | vocabulary |
|---|---|
| `SpecConsts.v` | histories of setter calls, last value written, positivity |
| `SpecDistr.v` | Bose and Fermi distributions, step function, densities |
| `SpecVac.v` | cut plane, lists of the public vacuum functions, sums over quark flavours |
| `SpecLim.v` | limits of real and complex functions along filters |
| `SpecInteg.v` | the lists of thermal integrands compared by C29-C41, C57, C59, C70-C73 |
| `SpecDeriv.v`, `SpecHom.v`, `SpecZMom.v`, `SpecReg.v` | mass derivatives, homogeneity degrees, zero-momentum and regulator statements |
| `SpecInt.v`, `SpecWrappers.v`, `SpecDress.v` | integrals over [0,+oo), tables of wrappers, one-loop dressing functions |
| `SpecConc.v` | quiescent schedules, values of a decision-tree quadrature |
| `SpecTc.v`, `SpecPhase.v` | first maximum, piecewise linear interpolation, grids, normalised rows |
| `SpecNumerics.v` | the Python reference formulas |
| `SpecHtl.v` | thermal weights and hard-thermal-loop functions |
| `SpecRun.v` | inputs of whole runs of the phase-diagram program |
| `SpecFit.v` | squared deviation, polynomial of least squares, optimizers that return optima |
| `SpecErr.v` | routines with an error of at most eps, sums of weights, runs without poles, results that agree up to d, almost-maxima and clear maxima |
| `SpecFermi.v` | rounding to binary64, moderate numbers, chemical potentials of a grid with a NaN limit, routines that return NaN for a NaN limit |
| `SpecDistr64.v` | what is assumed of the exponential of a libm, relative errors |
| `SpecTc64.v` | binary64 tables and the reals they represent, spacing, distance from a polygon |
| `SpecFit64.v` | exact value and term magnitudes of a polynomial with binary64 coefficients |
| `SpecCrit64.v` | first largest entry of a binary64 list with infinities and NaNs |
| `SpecRes64.v` | far points, lost steps, a pole of residue one in binary64 |
| `SpecSpectral64.v` | mirror images of binary64 complex numbers, functions real on the real axis |
| `SpecRoot64.v` | functions that keep infinities and NaNs |
| `SpecSmear.v` | the thermal weight 1/(4 cosh^2(y/2)) |
| `SpecPoles.v` | symmetries in the complex frequency plane, what the rows of the gluon-pole program must satisfy |

`Properties*.v` contain only the final theorems, proved by
`exact`/`apply` of lemmas in `P*.v`, with `Print Assumptions`, and beside each
theorem an `Example` exhibiting a non-trivial instance of its hypotheses.
A property that the code violates is stated and closed as `..._refuted`.

## Properties: model part and proof method

* C01-C05: inductive invariants over lists of setter calls of `MConsts`; C05 is
  refuted (the zero-Matsubara wrapper always uses 1E-8).
* C06-C08: induction on `max_iter` for the secant loop, over abstract
  arithmetic; C08 `field` over R and C.
* C09, C10: `field` over C, plus an epsilon-delta limit for C09.
* C11-C13: elementary real analysis on exp; limits by explicit bounds.
* C14-C17: `RInt` of the step integrand (Coquelicot), algebra of cube roots
  (`Rpower`), soundness of find_root for C16.
* C18, C19: structural compatibility of `Cln`/`Csqrt` with R and conjugation.
* C20: field algebra with nonzero guards.
* C21-C24, C26, C27: Coquelicot limits after factoring logs and square roots.
* C25, C28: list induction over configurations.
* C29, C30: sign analysis of imaginary parts and the modulus of the log argument.
* C31, C32, C37: algebra, with scaling lemmas for sqrt/exp/log.
* C33: continuity of the integrands in om at 0 (limit of complex expressions).
* C34: third-order expansion of log((1+x)/(1-x)) with explicit remainder.
* C35, C36: derivatives computed with Coquelicot `is_derive`.
* C38, C39, C57: distribution limits composed with the linear structure.
* C40: substitution rule for `RInt`.
* C41: corollary of C33 and the wrapper model.
* C42-C45, C58: equational reasoning with an arbitrary integrator.
* C46, C47: small-step interleaving model of loads/stores, and schedules
  assigning a global state to each integrand evaluation.
* C48-C56: list induction, order reasoning.
* C59: generic functions at real arguments, by unfolding and `ring`.
* C60-C67: list reasoning about the output tables; order and integer-part
  reasoning about the grids.
* C68: uniqueness of the logarithm in the strip of width 2 pi, sign analysis of
  square roots; C69-C73: `field` after bringing both sides to common logarithms.
* C74-C76: pointwise limits of the real forms under scaling; the weights are integrated
  with zeta(2) = pi^2/6 (proved in `PBasel.v`) and reflection in the Fermi function.
  Exchange of limit and integral is not part of C74-C76.
* C77: parity and conjugation of the canonical forms at complex frequency; C78:
  soundness of find_root, simple-pole limits.
* C79, C80: every real-form integrand is bounded after compactification
  (`PBound.v`), domination by exp(-beta q/2) or by the Fermi edge, Riemann
  integrability of bounded functions continuous inside (0,1) (`PCompact.v`).
* C81: antiderivatives built from int x/(e^x+1); comparison of integrands; IVT.
* C82: Laurent splitting of the zero-Matsubara ghost form at (p^2+m^2)/(2p).
* C83: the quark weights divided by q converge at infinity by homogeneity; the
  massive integrals are squeezed between massless ones, which have an antiderivative.
* C84: the leg functions of the gluon loop divided by q^2 converge at infinity by
  homogeneity (PHotB3); an epsilon-bound of the
  integrand by Bose weights turns this into the limit of the integral divided by T^2
  (PHotB, PHotB2), after the terms
  growing like T^4 / m^2 have been cancelled algebraically (PHotB4, PHotB5).
* C85: from C83, C84 and the limit calculus; positivity of the hard-thermal-loop
  functions from y/(1+y^2) < atan y < y.
* C86: bounds uniform in temperature and chemical potential by joint rescaling.
* C87: an invariant of the secant iteration (two flat points, flat/steep, steep/flat)
  for the failures (`PChem.v`, `PChem2.v`); a contraction of the secant step for the
  success (`PChem3.v`).
* C88: the error bounds of Flocq for each operation for the statements about all
  parameters (`PGrid.v`, `PGrid2.v`); a verified rational comparison run by `vm_compute`
  on every point for the grids of the programs (`PGrid3.v`).
* C89: unfolding of the programs to lists of curves (`PProg*.v`); the statements about
  curves come from C37-C41, C80, C81, C83 and C87.
* C90: partial integration of the density and the substitution from momentum to energy
  (`PSmear.v`); convexity of the zero-temperature density for the dependence on
  temperature (`PSmear2.v`); a second-order Taylor bound under the integral and the
  moments of the weight for the low-temperature expansion (`PSmear3.v`).
* C91: two configurations with the same grids and scales give the same output wherever
  they select the same data (`PRun.v`).
* C92: the normal equations are solved by induction on the columns (orthogonal projection);
  uniqueness is division by linear factors; the program around the optimizer reduces to
  least squares because the model function handed to it returns the polynomial and, for
  the dual numbers, its derivatives.
* C93: the inverse dressing functions are affine in the integrals (C44 families), so deviations add with
  the weights; reciprocals, ratios of real parts and curves follow from explicit quotient bounds; finitely
  many grid points give one eps for a whole run; a routine that adds eps to every integral attains the bound.
* C94: relative errors of Flocq's `relative_error_N_FLT_ex` with a separate underflow term; the fused
  operation rounds once, so its sign is the sign of the exact difference; the grids of the default
  configuration are checked by computation (a finite, complete list of floats).
* C95: relative errors are composed through sums, reciprocals and square roots; overflow is followed case by
  case through the operations; the correctly rounded exponential is built with Flocq's `binary_normalize`.
* C96: comparisons are exact, so the scan follows that of the real model and only the interpolated value differs; its error
  is bounded operation by operation; the default grids are checked by computation.
* C97: the running error bound of Horner's scheme, one induction over the coefficient list from the highest power down; the bound is stated against the polynomial of the absolute values.
* C98: binary64 comparison of numbers that are not NaN is comparison of reals once the infinities are placed at ±2^1024; induction over the loop.
* C99: multiplicative enclosures c/p ≤ x ≤ c·p pass through inverses without loss and through each rounding with a factor 1+2^-51; the step is lost by the midpoint lemmas of Flocq.
* C100: the shifted points are exact on the real axis; two divisions and the rounded 2π give the error; off the axis the lemmas of C99 show the step to be lost.
* C101: an iterate that is not finite makes all later ones not finite, and none of them is below the tolerance.

## Properties the code violates

Each is closed as a `_refuted` theorem with a concrete counterexample, and the
theorems beside it say what does hold (C82 and C87 are negative statements for all
parameters).

* C05: the zero-Matsubara wrappers use tolerance 1E-8 whatever tolerance was set.
* C28: the quark data derived by `FieldConfig::new` is not recomputed when the
  public field `quarks` is written.
* C45: the thermal `*_w_field_config` functions read the global number of colors,
  not the one of the configuration.
* C47: concurrent `set_number_of_colors` and `set_number_of_fermions` can leave a
  stale ratio nf/nc (all possible outcomes are listed).
* C51: a point on a flat segment of the boundary counts as deconfined; on a
  strictly falling boundary it counts as confined.
* C53: a corrected quark list shorter than the original is accepted with a wrong
  constant (a longer one panics, an equally long one is correct).
* C55: writing the public fields of the phase-diagram `Config` directly leaves f0
  or the corrected f0 stale.
* C82: the ghost self-energy at zero Matsubara frequency is an integral over a
  simple pole; it does not exist, so the value depends on the quadrature.
* C87: `chemical_potential` panics for cold massive quarks at densities n with
  tol < |n| < |m|: the secant search does not converge in 1000 steps.
* C88: the grid of `qcd_gluon_polarization_quark_integrand.rs` has one point less and a
  wider spacing than requested, because a quotient rounds to just below 1900.
* C91: on a plateau of the boundary the mass correction can lower the critical
  temperature (consequence of C51); the fit written to
  `tc_*_corrected_fit_parameters.out` is a fit to the uncorrected boundary.
* C94: at |mu| = |m| the upper limit of the zero-temperature integrals can be NaN instead of 0; the
  guard `mu.abs() < mq.abs()` does not exclude it, and the default configuration hits it at mu = 0.45.
* C95: the Bose distribution is infinite instead of about 1/x for x = beta en up to 2^-55, because
  exp(x) - 1 cancels (`exp_m1` is not used); its relative error is of order 2^-52/x.
* C96: 0.1*3 and 0.1*6 are one rounding above 0.01*30 and 0.01*60, so if the phase boundary ends at mu = 0.3 or 0.6
  the corrected propagators there treat every temperature as deconfined, unlike the corrected phase diagram.
* C99: `compute_residue` is off by a factor of nearly two at 10000 and not finite from 32768 on, because its absolute step of 1e-12 is lost in rounding.
* C64: with grid steps below the four printed decimals two output files get the
  same name; above that they are distinct.

## Trusted base

* The Coq 8.16.1 kernel (`vm_compute` is used in binary64 examples and in `PGrid3.v`).
* The hand translation of the Rust text into the `M*.v` files and of the Python
  text into `SpecNumerics.v`.
* The standard library axioms below. No axiom is declared in this development
  and no library outside the standard library contributes one.

## What `Print Assumptions` lists

Short names: `sig_forall_dec`, `sig_not_dec` are
`ClassicalDedekindReals.sig_forall_dec` and `ClassicalDedekindReals.sig_not_dec`,
`classic` is `Classical_Prop.classic`, `funext` is
`FunctionalExtensionality.functional_extensionality_dep`.

Closed under the global context (16):
`C01_ratio_never_stale`, `C02_example`, `C02_getters_return_last_set`, `C03_panic_iff_not_positive`,
`C03_positive_settings`, `C04_default_method`, `C06_find_root_sound`, `C07_evaluation_budget`,
`C07_failure_means_all_large`, `C07_panic_iff`, `C07_success_iff_first_small_iterate`,
`C07_zero_budget`, `C47_all_outcomes`, `C47_serial_setters_consistent`, `C98_leading_nan`,
`C98_panics_iff_empty`

Uses `sig_forall_dec` (2):
`C52_panics_iff_empty`, `C92_model_panics`

Uses `sig_forall_dec`, `funext` (64):
`C01_example`, `C03_example_reals`, `C04_example`, `C06_example`, `C07_example`, `C08_affine_real`,
`C08_example`, `C10_example`, `C28_example`, `C34_off_resonance_real`, `C46_zm_method`,
`C47_concurrent_setters_refuted`, `C47_example`, `C48_example`, `C48_first_global_maximiser`,
`C48_panics_iff_empty`, `C49_example`, `C49_idempotent`, `C49_longest_prefix_without_zero`,
`C50_above_range_deconfined`, `C50_agrees_with_interpolation`, `C50_example`, `C50_panics_iff`,
`C50_zero_temperature`, `C51_example`, `C51_flat_boundary_refuted`, `C51_strict_boundary_confined`,
`C52_example`, `C52_polynomial_value`, `C53_example`, `C56_example`, `C56_grid`,
`C62_diagram_panics`, `C62_tables_panic`, `C63_concave`, `C63_entries`, `C63_exact_on_parabolas`,
`C63_example`, `C63_rows`, `C65_example`, `C67_defect_costs_a_point`, `C67_example`,
`C67_same_on_multiples`, `C67_truncated_grid`, `C77_example_integrators`, `C89_ym_normalised`,
`C92_degree`, `C92_example`, `C92_example_undetermined`, `C92_exists`, `C92_ignores_the_tail`,
`C92_interpolates`, `C92_jacobian`, `C92_least_squares`, `C92_mean`, `C92_model_derivatives`,
`C92_normal_equations`, `C92_panics`, `C92_recovers_polynomials`, `C92_same_values`,
`C92_unique_iff`, `C92_units`, `C93_critical_temperature`, `C93_example`

Uses `sig_forall_dec`, `sig_not_dec`, `funext` (4):
`C08_affine_complex`, `C09_example`, `C17_example`, `C78_example_residue`

Uses `sig_forall_dec`, `sig_not_dec`, `classic`, `funext` (436):
`C03_example_binary64`, `C03_example_nan`, `C04_wrappers_use_default_method`,
`C05_customised_tolerance_refuted`, `C05_zero_matsubara_always_1em8`, `C09_residue_exact_complex`,
`C09_residue_exact_real`, `C09_residue_limit`, `C100_example`, `C100_far_points`,
`C100_real_points`, `C101_equal_values_fail`, `C101_example`, `C101_non_finite_guess_fails`,
`C101_root_is_finite`, `C10_spectral_linear`, `C10_spectral_lorentzian`,
`C10_spectral_no_discontinuity`, `C10_spectral_real`, `C11_bose`, `C11_complex_extends_real`,
`C11_example`, `C11_fermi`, `C11_fermi_double`, `C11_particle_hole_complex`, `C11_values`,
`C11_zero_chempot_complex`, `C11_zero_chempot_real`, `C12_example`,
`C12_fermi_double_zero_temp_limit`, `C12_fermi_zero_temp_limit`, `C12_on_the_fermi_surface`,
`C13_energy_at_fermi_momentum`, `C13_example`, `C13_occupation_edge`, `C14_continuous`,
`C14_density_is_integral`, `C14_example`, `C14_monotone`, `C14_symmetries`, `C14_zero_iff_gap`,
`C15_chempot_of_density`, `C15_density_of_chempot`, `C15_example`, `C15_gap`, `C16_example`,
`C16_panics_iff`, `C16_within_tolerance`, `C17_increasing_and_sign`, `C17_odd`,
`C17_zero_temp_limit`, `C18_example`, `C18_real_complex`, `C19_example`, `C19_reflection`,
`C20_dressing_propagator_complex`, `C20_dressing_propagator_real`, `C20_example`,
`C20_gauge_complex`, `C20_gauge_real`, `C20_sep`, `C21_example`, `C21_quark_functions_vanish`,
`C22_crossed_derivative`, `C22_example`, `C23_example`, `C23_ghost`, `C23_gluon_infrared`,
`C23_gluon_propagator`, `C24_example`, `C24_low_level`, `C24_quark_constant`, `C24_ultraviolet`,
`C25_example`, `C25_merge`, `C25_no_quarks`, `C25_order`, `C25_single_is_global`, `C25_sum_complex`,
`C25_sum_real`, `C25_zero_flavours`, `C26_decoupling_config`, `C26_decoupling_global`,
`C26_example`, `C27_divergence_without_shift`, `C27_example`, `C27_massless_limit`,
`C28_config_fields_refuted`, `C28_public_writes_ignored`, `C29_argument_off_the_cut`, `C29_example`,
`C29_integrands_continuous`, `C30_even`, `C30_example`, `C30_real`, `C31_example`,
`C31_general_complex`, `C31_general_real`, `C31_tadpoles`, `C31_zero_matsubara`,
`C31_zero_momentum`, `C32_example`, `C32_symmetric_complex`, `C32_symmetric_mixed`,
`C32_symmetric_real`, `C33_bubbles`, `C33_example`, `C33_polarizations`, `C34_bubbles_complex`,
`C34_bubbles_real`, `C34_example`, `C34_glue_complex`, `C34_glue_real`, `C34_projections_merge`,
`C34_quark_complex`, `C34_quark_projections_merge`, `C34_quark_real`, `C35_boundary`, `C35_example`,
`C35_first`, `C35_second`, `C36_boundary`, `C36_example`, `C36_one_mass`, `C36_same_mass`,
`C36_two_masses`, `C37_bubbles_complex`, `C37_bubbles_mixed`, `C37_bubbles_real`,
`C37_bubbles_zero_matsubara_complex`, `C37_bubbles_zero_matsubara_real`,
`C37_bubbles_zero_momentum_complex`, `C37_bubbles_zero_momentum_real`, `C37_example`,
`C37_polarizations_complex`, `C37_polarizations_real`, `C37_tadpoles`, `C38_even_in_mu`,
`C38_example`, `C38_inverse_in_colors`, `C38_zero_temperature_limit`,
`C39_documented_matsubara_integrands`, `C39_example`, `C39_fermi_sea_complex`,
`C39_fermi_sea_matsubara`, `C39_fermi_sea_real`, `C40_compactified_complex`,
`C40_compactified_real`, `C40_example`, `C40_half_line`, `C40_wrappers`, `C41_example`, `C41_glue`,
`C41_quark`, `C41_quark_zero_temp`, `C42_dressing_propagator_general`,
`C42_dressing_propagator_limits`, `C42_example`, `C42_thermal_correction_general`,
`C42_thermal_correction_limits`, `C42_vacuum_limit`, `C43_empty_configuration`, `C43_example`,
`C43_no_flavours`, `C44_equal_masses_merge`, `C44_example`, `C44_order_irrelevant`,
`C44_single_species`, `C45_always_depends_on_global_colors`, `C45_configuration_colors_refuted`,
`C45_example`, `C45_other_settings_irrelevant`, `C46_every_routine_iff`, `C46_example`,
`C46_fixed_rule_iff`, `C46_undisturbed`, `C46_vacuum_unaffected`, `C48_leading_nan`,
`C53_corrected_f0`, `C53_f0_formula`, `C53_longer_list_panics`, `C53_shorter_list_refuted`,
`C54_data_selection`, `C54_example`, `C55_corrected_field_refuted`, `C55_fieldconfig_refuted`,
`C55_lone_write_panics`, `C57_complex`, `C57_complex_zero_matsubara`, `C57_complex_zero_momentum`,
`C57_example`, `C57_glue`, `C57_real`, `C57_real_zero_matsubara`, `C57_real_zero_momentum`,
`C58_example`, `C58_longitudinal_transverse`, `C59_example`, `C59_one_mass`, `C59_polarizations`,
`C59_two_masses`, `C60_example`, `C60_high_temperature_limit`, `C60_renormalisation_point`,
`C60_tables`, `C60_zero_temperature_limit`, `C61_boundary`, `C61_example`, `C61_infrared_values`,
`C62_example`, `C62_program_panics`, `C64_example`, `C64_file_names_distinct`,
`C64_fine_grid_refuted`, `C65_loop`, `C65_one_mass`, `C65_two_masses`, `C66_curves`,
`C66_equal_masses`, `C66_example`, `C66_yang_mills`, `C68_dressing_complex`, `C68_dressing_real`,
`C68_example`, `C68_vacuum_complex`, `C68_vacuum_real`, `C69_example`, `C69_tadpoles_complex`,
`C69_tadpoles_real`, `C70_bubbles_complex`, `C70_bubbles_real`, `C70_example`, `C71_example`,
`C71_zero_momentum_complex`, `C71_zero_momentum_real`, `C72_example`, `C72_general_complex`,
`C72_general_real`, `C72_zero_momentum`, `C73_example`, `C73_general`, `C73_zero_momentum`,
`C74_example_limit`, `C74_example_values`, `C74_qed_example`, `C74_quark_limit`,
`C74_quark_zero_temperature_limit`, `C74_reference_real_frequency`, `C75_boundary_terms_vanish`,
`C75_example`, `C75_ghost_limit`, `C75_glue_integral`, `C75_glue_limit`, `C76_example_mass`,
`C76_gluon_mass`, `C76_known_mass`, `C76_weights`, `C77_dressing_even`, `C77_dressing_reflection`,
`C77_even`, `C77_example`, `C77_reflection`, `C77_reflection_zero_momentum`,
`C78_dressing_four_fold`, `C78_example_thermal`, `C78_example_vacuum`, `C78_first_quadrant`,
`C78_plots`, `C78_rows`, `C78_symmetry_check_never_fails`, `C78_thermal_residue`,
`C78_thermal_residue_any`, `C78_vacuum_residue`, `C79_convergence`, `C79_example`, `C79_fermi_sea`,
`C79_values`, `C80_example_density`, `C80_example_gluon`, `C80_propagators`, `C80_thermal_parts`,
`C81_chemical_potential_error`, `C81_example`, `C81_mass`, `C81_massless`, `C81_shape`,
`C82_example`, `C82_not_integrable`, `C82_pole`, `C82_value_undetermined`, `C83_charge_density_hot`,
`C83_example_dense`, `C83_example_hot`, `C83_quark_dense`, `C83_quark_hot`, `C84_example`,
`C84_glue_hot`, `C84_htl_positive`, `C85_example_dense`, `C85_example_hot`, `C85_screening_dense`,
`C85_screening_dense_field_config`, `C85_screening_hot`, `C86_asymptotics`, `C86_constant`,
`C86_example`, `C86_glue_uniform`, `C86_large_T_and_large_mu`, `C86_main`, `C86_quarks_uniform`,
`C86_screening`, `C87_cold_default_panics`, `C87_cold_search_panics`,
`C87_exact_solution_cold_limit`, `C87_example_cold`, `C87_example_hot`, `C87_example_zero_temp`,
`C87_hot_search_succeeds`, `C88_endpoints`, `C88_example_sane`, `C88_fraction_points`,
`C88_grid_ends`, `C88_integrand_spacing_refuted`, `C88_labels`, `C88_literals`, `C88_program_grids`,
`C88_step_points`, `C89_chempot_panics`, `C89_chempot_program`, `C89_compare_program`,
`C89_compare_redundant`, `C89_compare_shift`, `C89_density_curves`, `C89_density_program`,
`C89_example`, `C89_example_htl`, `C89_example_ym`, `C89_htl_program`, `C89_htl_ratio`,
`C89_integrand_limit`, `C89_integrand_program`, `C89_polarization_limit`,
`C89_polarization_program`, `C89_propagator_limit`, `C89_propagator_program`,
`C89_small_momentum_limit`, `C89_small_momentum_program`, `C89_ym_plots`, `C89_ym_tables`,
`C90_above_zero_temperature`, `C90_chemical_potential`, `C90_example`, `C90_example_heating`,
`C90_gap`, `C90_increasing_in_temperature`, `C90_program_curves`, `C90_smearing`, `C90_sommerfeld`,
`C91_beyond_the_boundary`, `C91_corrected_tables`, `C91_correction_does_not_lower`,
`C91_equal_masses`, `C91_example`, `C91_example_run`, `C91_fit_ignores_correction`,
`C91_fitted_data`, `C91_plateau_refuted`, `C91_program_does_not_lower`, `C92_example_run`,
`C92_run`, `C92_run_determined`, `C93_almost_maxima`, `C93_bound_attained`, `C93_curves`,
`C93_dressings_propagators`, `C93_example_phase_diagram`, `C93_example_run`, `C93_field_config`,
`C93_infrared_data`, `C93_integrals`, `C93_inverse_dressings`, `C93_phase_diagram`,
`C94_above_threshold`, `C94_at_threshold`, `C94_below_threshold`, `C94_charge_density`,
`C94_charge_density_accuracy`, `C94_default_boundary`, `C94_default_grids`, `C94_example`,
`C94_example_boundary`, `C94_nan_propagates`, `C94_threshold_refuted`,
`C94_zero_temperature_functions`, `C95_bose_accuracy`, `C95_bose_accuracy_zero_chempot`,
`C95_bose_finite_refuted`, `C95_bose_infinite`, `C95_bose_range`, `C95_energy`, `C95_example`,
`C95_example_arguments`, `C95_fermi_accuracy`, `C95_fermi_accuracy_double`,
`C95_fermi_accuracy_zero_chempot`, `C95_fermi_double`, `C95_fermi_range`,
`C95_fermi_zero_temperature`, `C96_above_range_deconfined`, `C96_agrees_with_exact`,
`C96_classification`, `C96_default_chempots`, `C96_default_run`, `C96_end_of_boundary`,
`C96_example`, `C96_interpolation_error`, `C96_panics_iff`, `C96_same_point_refuted`,
`C96_tabulated_exact`, `C96_zero_temperature`, `C97_at_zero`, `C97_evaluation_error`, `C97_example`,
`C97_panics_iff_empty`, `C97_positive_coefficients`, `C98_exact_on_finite`, `C98_example`,
`C98_exists`, `C98_first_largest`, `C99_complex_unit_pole`, `C99_default_step`, `C99_example`,
`C99_far_complex_points_nan`, `C99_far_points_not_finite`, `C99_unit_pole`, `C99_unit_pole_refuted`
