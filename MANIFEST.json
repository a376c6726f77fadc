{
 "claims": [
  {
   "property": "C01",
   "status": "proved",
   "theorems": [
    "C01_ratio_never_stale"
   ],
   "note": ""
  },
  {
   "property": "C02",
   "status": "proved",
   "theorems": [
    "C02_getters_return_last_set"
   ],
   "note": ""
  },
  {
   "property": "C03",
   "status": "proved",
   "theorems": [
    "C03_positive_settings",
    "C03_panic_iff_not_positive"
   ],
   "note": ""
  },
  {
   "property": "C04",
   "status": "proved",
   "theorems": [
    "C04_default_method",
    "C04_wrappers_use_default_method"
   ],
   "note": ""
  },
  {
   "property": "C05",
   "status": "proved",
   "theorems": [
    "C05_customised_tolerance_refuted",
    "C05_zero_matsubara_always_1em8"
   ],
   "note": "The property as stated is false of the code: C05_customised_tolerance_refuted gives the counterexample, C05_zero_matsubara_always_1em8 says what happens in every state."
  },
  {
   "property": "C06",
   "status": "proved",
   "theorems": [
    "C06_find_root_sound"
   ],
   "note": ""
  },
  {
   "property": "C07",
   "status": "proved",
   "theorems": [
    "C07_panic_iff",
    "C07_success_iff_first_small_iterate",
    "C07_failure_means_all_large",
    "C07_evaluation_budget",
    "C07_zero_budget"
   ],
   "note": ""
  },
  {
   "property": "C08",
   "status": "proved",
   "theorems": [
    "C08_affine_real",
    "C08_affine_complex"
   ],
   "note": ""
  },
  {
   "property": "C09",
   "status": "proved",
   "theorems": [
    "C09_residue_exact_real",
    "C09_residue_exact_complex",
    "C09_residue_limit"
   ],
   "note": ""
  },
  {
   "property": "C10",
   "status": "proved",
   "theorems": [
    "C10_spectral_linear",
    "C10_spectral_real",
    "C10_spectral_lorentzian",
    "C10_spectral_no_discontinuity"
   ],
   "note": ""
  },
  {
   "property": "C11",
   "status": "proved",
   "theorems": [
    "C11_fermi",
    "C11_fermi_double",
    "C11_bose",
    "C11_zero_chempot_real",
    "C11_zero_chempot_complex",
    "C11_values",
    "C11_complex_extends_real",
    "C11_particle_hole_complex"
   ],
   "note": ""
  },
  {
   "property": "C12",
   "status": "proved",
   "theorems": [
    "C12_fermi_zero_temp_limit",
    "C12_fermi_double_zero_temp_limit",
    "C12_on_the_fermi_surface"
   ],
   "note": ""
  },
  {
   "property": "C13",
   "status": "proved",
   "theorems": [
    "C13_energy_at_fermi_momentum",
    "C13_occupation_edge"
   ],
   "note": ""
  },
  {
   "property": "C14",
   "status": "proved",
   "theorems": [
    "C14_density_is_integral",
    "C14_symmetries",
    "C14_monotone",
    "C14_zero_iff_gap",
    "C14_continuous"
   ],
   "note": ""
  },
  {
   "property": "C15",
   "status": "proved",
   "theorems": [
    "C15_density_of_chempot",
    "C15_chempot_of_density",
    "C15_gap"
   ],
   "note": ""
  },
  {
   "property": "C16",
   "status": "proved",
   "theorems": [
    "C16_within_tolerance",
    "C16_panics_iff"
   ],
   "note": ""
  },
  {
   "property": "C17",
   "status": "proved",
   "theorems": [
    "C17_odd",
    "C17_increasing_and_sign",
    "C17_zero_temp_limit"
   ],
   "note": ""
  },
  {
   "property": "C18",
   "status": "proved",
   "theorems": [
    "C18_real_complex"
   ],
   "note": ""
  },
  {
   "property": "C19",
   "status": "proved",
   "theorems": [
    "C19_reflection"
   ],
   "note": ""
  },
  {
   "property": "C20",
   "status": "proved",
   "theorems": [
    "C20_dressing_propagator_real",
    "C20_dressing_propagator_complex",
    "C20_gauge_real",
    "C20_gauge_complex",
    "C20_sep"
   ],
   "note": ""
  },
  {
   "property": "C21",
   "status": "proved",
   "theorems": [
    "C21_quark_functions_vanish"
   ],
   "note": ""
  },
  {
   "property": "C22",
   "status": "proved",
   "theorems": [
    "C22_crossed_derivative"
   ],
   "note": ""
  },
  {
   "property": "C23",
   "status": "proved",
   "theorems": [
    "C23_gluon_infrared",
    "C23_gluon_propagator",
    "C23_ghost"
   ],
   "note": ""
  },
  {
   "property": "C24",
   "status": "proved",
   "theorems": [
    "C24_low_level",
    "C24_ultraviolet",
    "C24_quark_constant"
   ],
   "note": ""
  },
  {
   "property": "C25",
   "status": "proved",
   "theorems": [
    "C25_sum_real",
    "C25_sum_complex",
    "C25_order",
    "C25_merge",
    "C25_zero_flavours",
    "C25_no_quarks",
    "C25_single_is_global"
   ],
   "note": ""
  },
  {
   "property": "C26",
   "status": "proved",
   "theorems": [
    "C26_decoupling_global",
    "C26_decoupling_config"
   ],
   "note": ""
  },
  {
   "property": "C27",
   "status": "proved",
   "theorems": [
    "C27_massless_limit",
    "C27_divergence_without_shift"
   ],
   "note": ""
  },
  {
   "property": "C28",
   "status": "proved",
   "theorems": [
    "C28_config_fields_refuted",
    "C28_public_writes_ignored"
   ],
   "note": "False of the code: derived quark data is not recomputed on writes to public fields; C28_config_fields_refuted. The other theorems say which writes are ignored."
  },
  {
   "property": "C29",
   "status": "proved",
   "theorems": [
    "C29_argument_off_the_cut",
    "C29_integrands_continuous"
   ],
   "note": ""
  },
  {
   "property": "C30",
   "status": "proved",
   "theorems": [
    "C30_real",
    "C30_even"
   ],
   "note": ""
  },
  {
   "property": "C31",
   "status": "proved",
   "theorems": [
    "C31_general_real",
    "C31_general_complex",
    "C31_zero_matsubara",
    "C31_zero_momentum",
    "C31_tadpoles"
   ],
   "note": ""
  },
  {
   "property": "C32",
   "status": "proved",
   "theorems": [
    "C32_symmetric_real",
    "C32_symmetric_complex",
    "C32_symmetric_mixed"
   ],
   "note": ""
  },
  {
   "property": "C33",
   "status": "proved",
   "theorems": [
    "C33_bubbles",
    "C33_polarizations"
   ],
   "note": ""
  },
  {
   "property": "C34",
   "status": "proved",
   "theorems": [
    "C34_bubbles_real",
    "C34_bubbles_complex",
    "C34_glue_real",
    "C34_glue_complex",
    "C34_quark_real",
    "C34_quark_complex",
    "C34_off_resonance_real",
    "C34_projections_merge",
    "C34_quark_projections_merge"
   ],
   "note": ""
  },
  {
   "property": "C35",
   "status": "proved",
   "theorems": [
    "C35_first",
    "C35_second",
    "C35_boundary"
   ],
   "note": ""
  },
  {
   "property": "C36",
   "status": "proved",
   "theorems": [
    "C36_two_masses",
    "C36_one_mass",
    "C36_same_mass",
    "C36_boundary"
   ],
   "note": ""
  },
  {
   "property": "C37",
   "status": "proved",
   "theorems": [
    "C37_bubbles_real",
    "C37_bubbles_complex",
    "C37_bubbles_zero_momentum_real",
    "C37_bubbles_zero_momentum_complex",
    "C37_bubbles_zero_matsubara_real",
    "C37_bubbles_zero_matsubara_complex",
    "C37_bubbles_mixed",
    "C37_tadpoles",
    "C37_polarizations_real",
    "C37_polarizations_complex"
   ],
   "note": ""
  },
  {
   "property": "C38",
   "status": "proved",
   "theorems": [
    "C38_even_in_mu",
    "C38_inverse_in_colors",
    "C38_zero_temperature_limit"
   ],
   "note": ""
  },
  {
   "property": "C39",
   "status": "proved",
   "theorems": [
    "C39_fermi_sea_real",
    "C39_fermi_sea_complex",
    "C39_fermi_sea_matsubara",
    "C39_documented_matsubara_integrands"
   ],
   "note": ""
  },
  {
   "property": "C40",
   "status": "proved",
   "theorems": [
    "C40_compactified_real",
    "C40_compactified_complex",
    "C40_half_line",
    "C40_wrappers"
   ],
   "note": ""
  },
  {
   "property": "C41",
   "status": "proved",
   "theorems": [
    "C41_glue",
    "C41_quark",
    "C41_quark_zero_temp"
   ],
   "note": ""
  },
  {
   "property": "C42",
   "status": "proved",
   "theorems": [
    "C42_dressing_propagator_general",
    "C42_dressing_propagator_limits",
    "C42_thermal_correction_general",
    "C42_thermal_correction_limits",
    "C42_vacuum_limit"
   ],
   "note": ""
  },
  {
   "property": "C43",
   "status": "proved",
   "theorems": [
    "C43_no_flavours",
    "C43_empty_configuration"
   ],
   "note": ""
  },
  {
   "property": "C44",
   "status": "proved",
   "theorems": [
    "C44_single_species",
    "C44_order_irrelevant",
    "C44_equal_masses_merge"
   ],
   "note": ""
  },
  {
   "property": "C45",
   "status": "proved",
   "theorems": [
    "C45_configuration_colors_refuted",
    "C45_always_depends_on_global_colors",
    "C45_other_settings_irrelevant"
   ],
   "note": "False of the code: C45_configuration_colors_refuted; C45_always_depends_on_global_colors shows it fails for every such configuration."
  },
  {
   "property": "C46",
   "status": "proved",
   "theorems": [
    "C46_undisturbed",
    "C46_fixed_rule_iff",
    "C46_every_routine_iff",
    "C46_zm_method",
    "C46_vacuum_unaffected"
   ],
   "note": ""
  },
  {
   "property": "C47",
   "status": "proved",
   "theorems": [
    "C47_concurrent_setters_refuted",
    "C47_all_outcomes",
    "C47_serial_setters_consistent"
   ],
   "note": "False of the code for some interleavings (C47_concurrent_setters_refuted); C47_all_outcomes lists the outcomes of every interleaving."
  },
  {
   "property": "C48",
   "status": "proved",
   "theorems": [
    "C48_first_global_maximiser",
    "C48_panics_iff_empty",
    "C48_leading_nan"
   ],
   "note": ""
  },
  {
   "property": "C49",
   "status": "proved",
   "theorems": [
    "C49_longest_prefix_without_zero",
    "C49_idempotent"
   ],
   "note": ""
  },
  {
   "property": "C50",
   "status": "proved",
   "theorems": [
    "C50_agrees_with_interpolation",
    "C50_zero_temperature",
    "C50_above_range_deconfined",
    "C50_panics_iff"
   ],
   "note": ""
  },
  {
   "property": "C51",
   "status": "proved",
   "theorems": [
    "C51_flat_boundary_refuted",
    "C51_strict_boundary_confined"
   ],
   "note": "False on flat segments (C51_flat_boundary_refuted); proved for strictly falling boundaries."
  },
  {
   "property": "C52",
   "status": "proved",
   "theorems": [
    "C52_polynomial_value",
    "C52_panics_iff_empty"
   ],
   "note": ""
  },
  {
   "property": "C53",
   "status": "proved",
   "theorems": [
    "C53_corrected_f0",
    "C53_f0_formula",
    "C53_longer_list_panics",
    "C53_shorter_list_refuted"
   ],
   "note": "Proved for lists of equal length; longer lists panic; shorter lists violate it (C53_shorter_list_refuted)."
  },
  {
   "property": "C54",
   "status": "proved",
   "theorems": [
    "C54_data_selection"
   ],
   "note": ""
  },
  {
   "property": "C55",
   "status": "proved",
   "theorems": [
    "C55_corrected_field_refuted",
    "C55_fieldconfig_refuted",
    "C55_lone_write_panics"
   ],
   "note": "False of the code: C55_corrected_field_refuted, C55_fieldconfig_refuted."
  },
  {
   "property": "C56",
   "status": "proved",
   "theorems": [
    "C56_grid"
   ],
   "note": ""
  },
  {
   "property": "C57",
   "status": "proved",
   "theorems": [
    "C57_complex",
    "C57_complex_zero_matsubara",
    "C57_complex_zero_momentum",
    "C57_glue",
    "C57_real",
    "C57_real_zero_matsubara",
    "C57_real_zero_momentum"
   ],
   "note": ""
  },
  {
   "property": "C58",
   "status": "proved",
   "theorems": [
    "C58_longitudinal_transverse"
   ],
   "note": ""
  },
  {
   "property": "C59",
   "status": "proved",
   "theorems": [
    "C59_two_masses",
    "C59_one_mass",
    "C59_polarizations"
   ],
   "note": ""
  },
  {
   "property": "C60",
   "status": "proved",
   "theorems": [
    "C60_tables",
    "C60_renormalisation_point",
    "C60_zero_temperature_limit",
    "C60_high_temperature_limit"
   ],
   "note": ""
  },
  {
   "property": "C61",
   "status": "proved",
   "theorems": [
    "C61_boundary",
    "C61_infrared_values"
   ],
   "note": ""
  },
  {
   "property": "C62",
   "status": "proved",
   "theorems": [
    "C62_diagram_panics",
    "C62_tables_panic",
    "C62_program_panics"
   ],
   "note": ""
  },
  {
   "property": "C63",
   "status": "proved",
   "theorems": [
    "C63_entries",
    "C63_exact_on_parabolas",
    "C63_concave",
    "C63_rows"
   ],
   "note": ""
  },
  {
   "property": "C64",
   "status": "proved",
   "theorems": [
    "C64_file_names_distinct",
    "C64_fine_grid_refuted"
   ],
   "note": "Proved for grid steps above 1E-4 (as the property says); C64_fine_grid_refuted shows that the bound is needed."
  },
  {
   "property": "C65",
   "status": "proved",
   "theorems": [
    "C65_one_mass",
    "C65_two_masses",
    "C65_loop"
   ],
   "note": ""
  },
  {
   "property": "C66",
   "status": "proved",
   "theorems": [
    "C66_equal_masses",
    "C66_yang_mills",
    "C66_curves"
   ],
   "note": ""
  },
  {
   "property": "C67",
   "status": "proved",
   "theorems": [
    "C67_truncated_grid",
    "C67_same_on_multiples",
    "C67_defect_costs_a_point"
   ],
   "note": ""
  },
  {
   "property": "C68",
   "status": "proved",
   "theorems": [
    "C68_vacuum_complex",
    "C68_vacuum_real",
    "C68_dressing_complex",
    "C68_dressing_real"
   ],
   "note": ""
  },
  {
   "property": "C69",
   "status": "proved",
   "theorems": [
    "C69_tadpoles_complex",
    "C69_tadpoles_real"
   ],
   "note": ""
  },
  {
   "property": "C70",
   "status": "proved",
   "theorems": [
    "C70_bubbles_complex",
    "C70_bubbles_real"
   ],
   "note": ""
  },
  {
   "property": "C71",
   "status": "proved",
   "theorems": [
    "C71_zero_momentum_complex",
    "C71_zero_momentum_real"
   ],
   "note": ""
  },
  {
   "property": "C72",
   "status": "proved",
   "theorems": [
    "C72_general_complex",
    "C72_general_real",
    "C72_zero_momentum"
   ],
   "note": ""
  },
  {
   "property": "C73",
   "status": "proved",
   "theorems": [
    "C73_general",
    "C73_zero_momentum"
   ],
   "note": ""
  },
  {
   "property": "C74",
   "status": "proved",
   "theorems": [
    "C74_reference_real_frequency",
    "C74_quark_limit",
    "C74_quark_zero_temperature_limit",
    "C74_qed_example"
   ],
   "note": ""
  },
  {
   "property": "C75",
   "status": "proved",
   "theorems": [
    "C75_glue_limit",
    "C75_boundary_terms_vanish",
    "C75_glue_integral",
    "C75_ghost_limit"
   ],
   "note": ""
  },
  {
   "property": "C76",
   "status": "proved",
   "theorems": [
    "C76_weights",
    "C76_gluon_mass",
    "C76_known_mass"
   ],
   "note": ""
  },
  {
   "property": "C77",
   "status": "proved",
   "theorems": [
    "C77_even",
    "C77_reflection_zero_momentum",
    "C77_reflection",
    "C77_dressing_even",
    "C77_dressing_reflection"
   ],
   "note": "Dressing-level reflection is stated for zero momentum; at general momentum the integrand has isolated loop momenta on the cut of the logarithm, where nothing is claimed."
  },
  {
   "property": "C78",
   "status": "proved",
   "theorems": [
    "C78_symmetry_check_never_fails",
    "C78_dressing_four_fold",
    "C78_rows",
    "C78_plots",
    "C78_first_quadrant",
    "C78_vacuum_residue",
    "C78_thermal_residue",
    "C78_thermal_residue_any"
   ],
   "note": "Printing, plotting and file handling are not modelled. The secant iteration may fail to converge, which is the NoRoot outcome."
  },
  {
   "property": "C79",
   "status": "proved",
   "theorems": [
    "C79_convergence",
    "C79_values",
    "C79_fermi_sea"
   ],
   "note": "Riemann integrability of every compactified integrand and of the Fermi-sea integrands; values with an exact integrator. The zero-Matsubara ghost integrand is excluded: see C82."
  },
  {
   "property": "C80",
   "status": "proved",
   "theorems": [
    "C80_thermal_parts",
    "C80_propagators"
   ],
   "note": "Limits of all integrated thermal parts, of the charge density and of all dressing functions and propagators built from them (zero-Matsubara ghost excluded, see C82)."
  },
  {
   "property": "C81",
   "status": "proved",
   "theorems": [
    "C81_massless",
    "C81_shape",
    "C81_mass",
    "C81_chemical_potential_error"
   ],
   "note": "Closed form for massless quarks, shape, existence and uniqueness of the chemical potential for every mass, mass bounds, error bound of the root search (massless)."
  },
  {
   "property": "C82",
   "status": "proved",
   "theorems": [
    "C82_pole",
    "C82_not_integrable",
    "C82_value_undetermined"
   ],
   "note": "A defect of the code: the residue is computed and positive, the integral does not exist, and the returned value depends on the quadrature."
  },
  {
   "property": "C83",
   "status": "proved",
   "theorems": [
    "C83_quark_hot",
    "C83_quark_dense",
    "C83_charge_density_hot"
   ],
   "note": "Limits of the integrals themselves (exchange of limit and integral included), with mu(T)/T -> nu arbitrary. Complements the limits of the integrands in C74."
  },
  {
   "property": "C84",
   "status": "proved",
   "theorems": [
    "C84_glue_hot",
    "C84_htl_positive"
   ],
   "note": "Limits of the integrals themselves. The zero-Matsubara ghost self-energy is excluded (its integrand has a pole, C82)."
  },
  {
   "property": "C85",
   "status": "proved",
   "theorems": [
    "C85_screening_hot",
    "C85_screening_dense",
    "C85_screening_dense_field_config"
   ],
   "note": "All 18 thermal and 12 zero-temperature gluon dressing/propagator families (longitudinal/transverse; general, zero momentum, zero frequency). For the field-config variants the number of colors entering the thermal part is the global one, as in the code."
  },
  {
   "property": "C86",
   "status": "proved",
   "theorems": [
    "C86_quarks_uniform",
    "C86_glue_uniform",
    "C86_screening",
    "C86_asymptotics",
    "C86_large_T_and_large_mu",
    "C86_constant",
    "C86_main"
   ],
   "note": ""
  },
  {
   "property": "C87",
   "status": "proved",
   "theorems": [
    "C87_cold_search_panics",
    "C87_cold_default_panics",
    "C87_exact_solution_cold_limit",
    "C87_hot_search_succeeds"
   ],
   "note": "A limitation of the code: below a temperature the call panics for small densities of massive quarks. Success is proved for massless hot quarks only."
  },
  {
   "property": "C88",
   "status": "proved",
   "theorems": [
    "C88_step_points",
    "C88_fraction_points",
    "C88_grid_ends",
    "C88_program_grids",
    "C88_integrand_spacing_refuted",
    "C88_endpoints",
    "C88_literals",
    "C88_labels"
   ],
   "note": "The requested spacing is violated by one program (C88_integrand_spacing_refuted); the other theorems say what holds."
  },
  {
   "property": "C89",
   "status": "proved",
   "theorems": [
    "C89_density_program",
    "C89_density_curves",
    "C89_chempot_program",
    "C89_chempot_panics",
    "C89_compare_program",
    "C89_compare_redundant",
    "C89_compare_shift",
    "C89_propagator_program",
    "C89_propagator_limit",
    "C89_ym_tables",
    "C89_ym_normalised",
    "C89_ym_plots",
    "C89_polarization_program",
    "C89_polarization_limit",
    "C89_integrand_program",
    "C89_integrand_limit",
    "C89_small_momentum_program",
    "C89_small_momentum_limit",
    "C89_htl_ratio",
    "C89_htl_program"
   ],
   "note": "Strings of legends and file names are represented by their data; printing, plotting and file creation are not modelled. The integrand converges off the Fermi surface only. The factor 6 of qed_htl_limit.rs is right for three colours (ratio 3/Nc)."
  },
  {
   "property": "C90",
   "status": "proved",
   "theorems": [
    "C90_smearing",
    "C90_increasing_in_temperature",
    "C90_above_zero_temperature",
    "C90_chemical_potential",
    "C90_sommerfeld",
    "C90_gap",
    "C90_program_curves",
    "C90_example"
   ],
   "note": "The constant of the T^3 remainder is not given explicitly."
  },
  {
   "property": "C91",
   "status": "proved",
   "theorems": [
    "C91_corrected_tables",
    "C91_equal_masses",
    "C91_beyond_the_boundary",
    "C91_correction_does_not_lower",
    "C91_program_does_not_lower",
    "C91_plateau_refuted",
    "C91_fitted_data",
    "C91_fit_ignores_correction",
    "C91_example",
    "C91_example_run"
   ],
   "note": "Two parts of the statement are violated by the program: plateaus of the boundary (C91_plateau_refuted, a consequence of C51, shown for a toy propagator) and the fit (C91_fitted_data, C91_fit_ignores_correction). The fit itself is a parameter of the model."
  },
  {
   "property": "C92",
   "status": "proved",
   "theorems": [
    "C92_model_derivatives",
    "C92_jacobian",
    "C92_model_panics",
    "C92_least_squares",
    "C92_panics",
    "C92_ignores_the_tail",
    "C92_exists",
    "C92_normal_equations",
    "C92_unique_iff",
    "C92_same_values",
    "C92_interpolates",
    "C92_recovers_polynomials",
    "C92_mean",
    "C92_degree",
    "C92_units",
    "C92_run",
    "C92_run_determined"
   ],
   "note": "The optimizer (peroxide's Levenberg-Marquardt) is a parameter; optimizes_on says that on the given data it returns an optimum if it returns. With fewer than nine points before the first vanishing critical temperature the nine parameters written by physical_tc are not determined by the boundary (C92_run_determined, C92_example_undetermined)."
  },
  {
   "property": "C93",
   "status": "proved",
   "theorems": [
    "C93_integrals",
    "C93_inverse_dressings",
    "C93_dressings_propagators",
    "C93_field_config",
    "C93_bound_attained",
    "C93_critical_temperature",
    "C93_curves",
    "C93_infrared_data",
    "C93_almost_maxima",
    "C93_phase_diagram"
   ],
   "note": "Accuracy is assumed where the integral exists. The statements from the routine to field configurations and runs are for nonzero Matsubara frequency, because the Landau-gauge ghost integrand at zero frequency is not integrable; the statement from integral values to inverse dressing functions covers all families. Runs: away from poles and zeros of the real part at the renormalisation point."
  },
  {
   "property": "C94",
   "status": "proved",
   "theorems": [
    "C94_above_threshold",
    "C94_below_threshold",
    "C94_at_threshold",
    "C94_threshold_refuted",
    "C94_zero_temperature_functions",
    "C94_charge_density",
    "C94_charge_density_accuracy",
    "C94_nan_propagates",
    "C94_default_grids",
    "C94_default_boundary"
   ],
   "note": "Violated by the program at |mu| = |m|: C94_threshold_refuted, C94_default_grids, C94_default_boundary. The statement about the phase boundary assumes a routine that returns NaN for a NaN limit; the quadrature inside peroxide is not modelled. The size of the grids: physical_manychempots and physical_morechempots of MGrid.v."
  },
  {
   "property": "C95",
   "status": "proved",
   "theorems": [
    "C95_fermi_range",
    "C95_fermi_double",
    "C95_fermi_accuracy",
    "C95_fermi_accuracy_zero_chempot",
    "C95_fermi_accuracy_double",
    "C95_fermi_zero_temperature",
    "C95_bose_range",
    "C95_bose_accuracy",
    "C95_bose_accuracy_zero_chempot",
    "C95_bose_infinite",
    "C95_bose_finite_refuted",
    "C95_energy"
   ],
   "note": "Real arguments; the exponential of the libm is a parameter with stated properties (C95_example: a correctly rounded one has all of them). Finiteness of the Bose distribution is violated for tiny arguments: C95_bose_infinite, C95_bose_finite_refuted."
  },
  {
   "property": "C96",
   "status": "proved",
   "theorems": [
    "C96_interpolation_error",
    "C96_agrees_with_exact",
    "C96_panics_iff",
    "C96_classification",
    "C96_tabulated_exact",
    "C96_zero_temperature",
    "C96_above_range_deconfined",
    "C96_default_chempots",
    "C96_default_run",
    "C96_end_of_boundary",
    "C96_same_point_refuted"
   ],
   "note": "Tables with magnitudes up to 2^100 and chemical potentials at least 2^-100 apart. Agreement of the two default grids is violated where the boundary ends: C96_end_of_boundary, C96_same_point_refuted."
  },
  {
   "property": "C97",
   "status": "proved",
   "theorems": [
    "C97_evaluation_error",
    "C97_positive_coefficients",
    "C97_at_zero",
    "C97_panics_iff_empty"
   ],
   "note": "The evaluation at type R. The automatic differentiation numbers used by the fit itself and the coefficients it finds are not modelled in binary64."
  },
  {
   "property": "C98",
   "status": "proved",
   "theorems": [
    "C98_first_largest",
    "C98_exists",
    "C98_leading_nan",
    "C98_exact_on_finite",
    "C98_panics_iff_empty"
   ],
   "note": "The model definition is find_critical_temperature_gen at the binary64 comparison."
  },
  {
   "property": "C99",
   "status": "proved",
   "theorems": [
    "C99_unit_pole",
    "C99_complex_unit_pole",
    "C99_unit_pole_refuted",
    "C99_far_points_not_finite",
    "C99_far_complex_points_nan",
    "C99_default_step"
   ],
   "note": "Accuracy is violated at large points: C99_unit_pole_refuted, C99_far_points_not_finite, C99_far_complex_points_nan."
  },
  {
   "property": "C100",
   "status": "proved",
   "theorems": [
    "C100_real_points",
    "C100_far_points"
   ],
   "note": "Points on the imaginary axis are left out of C100_far_points because the sign of a zero real part differs between the two shifted points."
  },
  {
   "property": "C101",
   "status": "proved",
   "theorems": [
    "C101_root_is_finite",
    "C101_equal_values_fail",
    "C101_non_finite_guess_fails"
   ],
   "note": "The real instance, RootOpsF64 of MFloat.v."
  }
 ]
}