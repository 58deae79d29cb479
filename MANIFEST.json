{
 "claims": [
  {
   "property": "C01",
   "status": "proved",
   "theorems": [
    "C01_despeckle_kept_iff_in_long_run",
    "C01_despeckle_masked_iff_bad_or_short_run"
   ],
   "note": ""
  },
  {
   "property": "C02",
   "status": "proved",
   "theorems": [
    "C02_run_of_ngates_is_masked",
    "C02_run_of_ngates_plus_one_is_kept"
   ],
   "note": ""
  },
  {
   "property": "C03",
   "status": "proved",
   "theorems": [
    "C03_despeckle_2d_is_ray_by_ray",
    "C03_despeckle_other_dimensions_return_none"
   ],
   "note": ""
  },
  {
   "property": "C04",
   "status": "proved",
   "theorems": [
    "C04_despeckle_idempotent_1d",
    "C04_despeckle_masks_bad_and_monotone",
    "C04_despeckle_idempotent_2d"
   ],
   "note": ""
  },
  {
   "property": "C05",
   "status": "proved",
   "theorems": [
    "C05_insect_filter_exact",
    "C05_insect_filter_too_few_ranges_raises",
    "C05_insect_filter_ignores_height",
    "C05_insect_default_tables",
    "C05_insect_default_monotone_in_zdr"
   ],
   "note": ""
  },
  {
   "property": "C06",
   "status": "proved",
   "theorems": [
    "C06_second_trip_exact",
    "C06_differential_phase_scalar_threshold",
    "C06_differential_phase_array_threshold",
    "C06_nan_never_flagged"
   ],
   "note": ""
  },
  {
   "property": "C07",
   "status": "proved",
   "theorems": [
    "C07_nexrad_gate_by_gate",
    "C07_nexrad_real_value",
    "C07_nexrad_positive_capped_monotone",
    "C07_nexrad_scalar_raises"
   ],
   "note": ""
  },
  {
   "property": "C08",
   "status": "proved",
   "theorems": [
    "C08_blended_S_decision_tree",
    "C08_blended_S_method_cases",
    "C08_blended_S_fit_a_without_fit_b_raises"
   ],
   "note": ""
  },
  {
   "property": "C09",
   "status": "proved",
   "theorems": [
    "C09_blended_other_bands",
    "C09_blended_other_bands_ignore_zdr"
   ],
   "note": ""
  },
  {
   "property": "C10",
   "status": "proved",
   "theorems": [
    "C10_blended_rain_finite_nonnegative",
    "C10_blended_rain_methods_4_5_capped",
    "C10_other_bands_capped",
    "C10_hidro_other_bands_finite_nonnegative",
    "C10_hidro_rain_finite_nonnegative"
   ],
   "note": ""
  },
  {
   "property": "C11",
   "status": "proved",
   "theorems": [
    "C11_blended_scalar_is_element_0",
    "C11_zero_dim_arrays_are_scalars",
    "C11_blended_scalar_returns_scalars",
    "C11_hidro_scalar_is_element_0",
    "C11_tropical_scalar_returns_arrays",
    "C11_liquid_ice_scalar_is_element_0",
    "C11_dsd_scalar_is_element_0"
   ],
   "note": ""
  },
  {
   "property": "C12",
   "status": "proved",
   "theorems": [
    "C12_integer_dz_truncates_rates",
    "C12_integer_is_float_truncated",
    "C12_integer_scalar_truncated",
    "C12_integer_20_dbz_gives_zero"
   ],
   "note": ""
  },
  {
   "property": "C13",
   "status": "proved",
   "theorems": [
    "C13_hidro_S_decision_tree"
   ],
   "note": ""
  },
  {
   "property": "C14",
   "status": "proved",
   "theorems": [
    "C14_hidro_other_bands",
    "C14_zdr_has_no_influence"
   ],
   "note": ""
  },
  {
   "property": "C15",
   "status": "proved",
   "theorems": [
    "C15_hidro_ignores_thresh_nexrad",
    "C15_thresh_nexrad_documented_cap_refuted"
   ],
   "note": "the docstring claim about thresh_nexrad is refuted by the _refuted theorem"
  },
  {
   "property": "C16",
   "status": "proved",
   "theorems": [
    "C16_tropical_without_fhc"
   ],
   "note": ""
  },
  {
   "property": "C17",
   "status": "proved",
   "theorems": [
    "C17_tropical_ice_gates",
    "C17_tropical_other_classes_unchanged"
   ],
   "note": ""
  },
  {
   "property": "C18",
   "status": "proved",
   "theorems": [
    "C18_predef_ignores_user_coefficients",
    "C18_predef_selects_thompson_coefficients",
    "C18_other_predef_ignores_band",
    "C18_default_coefficients_are_predef_S"
   ],
   "note": ""
  },
  {
   "property": "C19",
   "status": "proved",
   "theorems": [
    "C19_rain_missing_inputs_return_none",
    "C19_hidro_missing_fhc_returns_none",
    "C19_dsd_missing_field_raises_NameError",
    "C19_dsd_unsupported_band_returns_none"
   ],
   "note": ""
  },
  {
   "property": "C20",
   "status": "proved",
   "theorems": [
    "C20_masses_gate_by_gate",
    "C20_masses_nonnegative_and_zeroed",
    "C20_scalar_masses",
    "C20_no_freezing_level_returns_none"
   ],
   "note": ""
  },
  {
   "property": "C21",
   "status": "proved",
   "theorems": [
    "C21_partition_conserves_reflectivity"
   ],
   "note": ""
  },
  {
   "property": "C22",
   "status": "proved",
   "theorems": [
    "C22_method_argument_ignored",
    "C22_documented_method_refuted"
   ],
   "note": "the documented role of method is refuted"
  },
  {
   "property": "C23",
   "status": "proved",
   "theorems": [
    "C23_exact_zero_points_highest",
    "C23_monotone_sounding_interpolates",
    "C23_no_crossing_least_squares",
    "C23_crossing_never_fails"
   ],
   "note": ""
  },
  {
   "property": "C24",
   "status": "proved",
   "theorems": [
    "C24_inversion_answer_far_from_crossings",
    "C24_exact_zero_hides_higher_crossing",
    "C24_deciding_levels"
   ],
   "note": ""
  },
  {
   "property": "C25",
   "status": "proved",
   "theorems": [
    "C25_delta_threshold_profile"
   ],
   "note": ""
  },
  {
   "property": "C26",
   "status": "proved",
   "theorems": [
    "C26_dsd_2004_gate_by_gate",
    "C26_method_regions",
    "C26_nan_gate_is_zero"
   ],
   "note": ""
  },
  {
   "property": "C27",
   "status": "proved",
   "theorems": [
    "C27_default_S_band_is_2013",
    "C27_C_band_is_2009",
    "C27_kdp_ignored"
   ],
   "note": ""
  },
  {
   "property": "C28",
   "status": "proved",
   "theorems": [
    "C28_method3_is_one_tenth_of_A18",
    "C28_d0_jump_at_0_2"
   ],
   "note": ""
  },
  {
   "property": "C29",
   "status": "proved",
   "theorems": [
    "C29_Nw_2013",
    "C29_Nw_2009",
    "C29_Nw_2004"
   ],
   "note": ""
  },
  {
   "property": "C30",
   "status": "proved",
   "theorems": [
    "C30_values",
    "C30_one",
    "C30_range",
    "C30_decreasing",
    "C30_symmetric",
    "C30_centre",
    "C30_half",
    "C30_zero_width",
    "C30_numpy_agrees",
    "C30_numpy_zero_width",
    "C30_short_array"
   ],
   "note": ""
  },
  {
   "property": "C31",
   "status": "proved",
   "theorems": [
    "C31_summer_tables",
    "C31_melt_tables",
    "C31_winter_tables"
   ],
   "note": ""
  },
  {
   "property": "C32",
   "status": "proved",
   "theorems": [
    "C32_exact",
    "C32_range"
   ],
   "note": ""
  },
  {
   "property": "C33",
   "status": "proved",
   "theorems": [
    "C33_n_types",
    "C33_codes",
    "C33_first_maximum",
    "C33_score_shape"
   ],
   "note": ""
  },
  {
   "property": "C34",
   "status": "proved",
   "theorems": [
    "C34_trap_irrelevant"
   ],
   "note": ""
  },
  {
   "property": "C35",
   "status": "proved",
   "theorems": [
    "C35_exact",
    "C35_default_weights",
    "C35_above_one",
    "C35_below_zero"
   ],
   "note": ""
  },
  {
   "property": "C36",
   "status": "proved",
   "theorems": [
    "C36_no_dz",
    "C36_unknown_method",
    "C36_linear_without_pol",
    "C36_linear_T_unused"
   ],
   "note": ""
  },
  {
   "property": "C37",
   "status": "proved",
   "theorems": [
    "C37_gate_local",
    "C37_gate_local_class"
   ],
   "note": ""
  },
  {
   "property": "C38",
   "status": "proved",
   "theorems": [
    "C38_scores",
    "C38_class"
   ],
   "note": ""
  },
  {
   "property": "C39",
   "status": "proved",
   "theorems": [
    "C39_all_nan",
    "C39_argmax"
   ],
   "note": ""
  },
  {
   "property": "C40",
   "status": "proved",
   "theorems": [
    "C40_total",
    "C40_exact",
    "C40_range"
   ],
   "note": ""
  },
  {
   "property": "C41",
   "status": "proved",
   "theorems": [
    "C41_divides",
    "C41_identity",
    "C41_narrows_refuted",
    "C41_T_sets"
   ],
   "note": "the stated reading is refuted by the _refuted theorem; the true law is proved beside it"
  },
  {
   "property": "C42",
   "status": "proved",
   "theorems": [
    "C42_codes",
    "C42_range",
    "C42_total",
    "C42_no_heights",
    "C42_first_maximum"
   ],
   "note": ""
  },
  {
   "property": "C43",
   "status": "proved",
   "theorems": [
    "C43_ignored",
    "C43_scores"
   ],
   "note": ""
  },
  {
   "property": "C44",
   "status": "proved",
   "theorems": [
    "C44_expected",
    "C44_within",
    "C44_order_irrelevant",
    "C44_no_expected_few",
    "C44_no_expected_nonfinite",
    "C44_no_expected"
   ],
   "note": ""
  },
  {
   "property": "C45",
   "status": "proved",
   "theorems": [
    "C45_levels",
    "C45_one_sector_per_gate",
    "C45_never_one",
    "C45_empty_sector",
    "C45_no_azimuths"
   ],
   "note": ""
  },
  {
   "property": "C46",
   "status": "proved",
   "theorems": [
    "C46_out_of_range",
    "C46_values",
    "C46_range",
    "C46_continuous",
    "C46_continuous_between",
    "C46_jumps",
    "C46_plateaus"
   ],
   "note": ""
  },
  {
   "property": "C47",
   "status": "proved",
   "theorems": [
    "C47_std_is_population_std",
    "C47_std_nonnegative",
    "C47_std_zero",
    "C47_std_default",
    "C47_calc_kdp_bringi_std"
   ],
   "note": ""
  },
  {
   "property": "C48",
   "status": "proved",
   "theorems": [
    "C48_lse_best_line",
    "C48_lse_raises_iff",
    "C48_lse_exact_line",
    "C48_lse_fortran"
   ],
   "note": ""
  },
  {
   "property": "C49",
   "status": "proved",
   "theorems": [
    "C49_lengths",
    "C49_no_filter",
    "C49_edges_and_noisy_gates",
    "C49_missing_reflectivity",
    "C49_kdp_value",
    "C49_calc_kdp_bringi",
    "C49_calc_kdp_bringi_value"
   ],
   "note": ""
  },
  {
   "property": "C50",
   "status": "proved",
   "theorems": [
    "C50_first_coefficient_unused",
    "C50_fortran_in_bounds",
    "C50_cython_one_past",
    "C50_filter_value",
    "C50_depends_on_memory"
   ],
   "note": ""
  },
  {
   "property": "C51",
   "status": "proved",
   "theorems": [
    "C51_linear_phase",
    "C51_fortran_exact",
    "C51_cython_biased",
    "C51_calc_kdp_bringi"
   ],
   "note": ""
  },
  {
   "property": "C52",
   "status": "proved",
   "theorems": [
    "C52_work_arrays_suffice",
    "C52_fortran_returns",
    "C52_work_arrays_overflow",
    "C52_total_on_finite_rays",
    "C52_calc_kdp_bringi_no_fault"
   ],
   "note": ""
  },
  {
   "property": "C53",
   "status": "proved",
   "theorems": [
    "C53_local",
    "C53_nan_gate",
    "C53_leak_witness",
    "C53_uninitialised_witness"
   ],
   "note": ""
  },
  {
   "property": "C54",
   "status": "proved",
   "theorems": [
    "C54_missing_input",
    "C54_dimension_mismatch",
    "C54_other_dimensions",
    "C54_odd_order",
    "C54_even_std_gate",
    "C54_one_ray",
    "C54_rays_independent",
    "C54_every_ray"
   ],
   "note": ""
  },
  {
   "property": "C55",
   "status": "proved",
   "theorems": [
    "C55_dbz_z_inverse",
    "C55_dbz2z_laws",
    "C55_z2dbz_outside_domain",
    "C55_wind_conversions_inverse",
    "C55_wind_factors",
    "C55_wave_pulse_inverse"
   ],
   "note": ""
  },
  {
   "property": "C56",
   "status": "proved",
   "theorems": [
    "C56_knot_conversions_swapped"
   ],
   "note": ""
  },
  {
   "property": "C57",
   "status": "proved",
   "theorems": [
    "C57_velocity_range_product",
    "C57_doppler_dilemma",
    "C57_doppler_dilemma_involution",
    "C57_dual_prf",
    "C57_dual_prf_equal"
   ],
   "note": ""
  },
  {
   "property": "C58",
   "status": "proved",
   "theorems": [
    "C58_zdp",
    "C58_zdp_scalar",
    "C58_zdp_zero_dimensional",
    "C58_zdp_lengths",
    "C58_zdp_number_with_array",
    "C58_hdr",
    "C58_hdr_number",
    "C58_hdr_zero_dimensional",
    "C58_hdr_real",
    "C58_hdr_monotone_below",
    "C58_hdr_integer_zdr",
    "C58_zdp_integer_truncates"
   ],
   "note": ""
  },
  {
   "property": "C59",
   "status": "proved",
   "theorems": [
    "C59_fraction_in_unit_interval",
    "C59_special_values",
    "C59_strictly_increasing",
    "C59_symmetric",
    "C59_scale_invariant",
    "C59_outside_beam_nan",
    "C59_zero_radius"
   ],
   "note": ""
  },
  {
   "property": "C60",
   "status": "proved",
   "theorems": [
    "C60_at_radar",
    "C60_antenna_height_added",
    "C60_increasing_in_range",
    "C60_increasing_in_elevation",
    "C60_bounds",
    "C60_vertical"
   ],
   "note": ""
  },
  {
   "property": "C61",
   "status": "proved",
   "theorems": [
    "C61_reflectivity_always_fails",
    "C61_range_correct_always_fails",
    "C61_vel_shift_scalar",
    "C61_vel_shift_arrays"
   ],
   "note": ""
  },
  {
   "property": "C62",
   "status": "proved",
   "theorems": [
    "C62_self_class",
    "C62_score_is_one",
    "C62_dz_only"
   ],
   "note": ""
  },
  {
   "property": "C63",
   "status": "proved",
   "theorems": [
    "C63_warm_hybrid_nan"
   ],
   "note": ""
  },
  {
   "property": "C64",
   "status": "proved",
   "theorems": [
    "C64_total",
    "C64_exact",
    "C64_n_types"
   ],
   "note": ""
  },
  {
   "property": "C65",
   "status": "proved",
   "theorems": [
    "C65_needs_zdr_or_kdp"
   ],
   "note": ""
  },
  {
   "property": "C66",
   "status": "proved",
   "theorems": [
    "C66_float64_thresholds_refused",
    "C66_vector_thresholds_refused_for_sweeps",
    "C66_float32_thresholds"
   ],
   "note": ""
  },
  {
   "property": "C67",
   "status": "proved",
   "theorems": [
    "C67_no_kdp_in_heavy_rain",
    "C67_calc_kdp_bringi"
   ],
   "note": ""
  },
  {
   "property": "C68",
   "status": "proved",
   "theorems": [
    "C68_negative_std_gate"
   ],
   "note": ""
  },
  {
   "property": "C69",
   "status": "proved",
   "theorems": [
    "C69_radar_equation",
    "C69_range_and_gain_laws"
   ],
   "note": ""
  },
  {
   "property": "C70",
   "status": "proved",
   "theorems": [
    "C70_gauss_over_ideal",
    "C70_gauss_smaller",
    "C70_ideal_from_half_power_radius"
   ],
   "note": ""
  },
  {
   "property": "C71",
   "status": "proved",
   "theorems": [
    "C71_normalised_cross_section",
    "C71_sixth_power"
   ],
   "note": ""
  },
  {
   "property": "C72",
   "status": "proved",
   "theorems": [
    "C72_noise_watts",
    "C72_noise_dbm",
    "C72_noise_unknown_units",
    "C72_noise_units_agree"
   ],
   "note": ""
  },
  {
   "property": "C73",
   "status": "proved",
   "theorems": [
    "C73_no_refraction",
    "C73_default",
    "C73_monotone",
    "C73_critical"
   ],
   "note": ""
  },
  {
   "property": "C74",
   "status": "proved",
   "theorems": [
    "C74_radial_velocity_of_fmax"
   ],
   "note": ""
  },
  {
   "property": "C75",
   "status": "proved",
   "theorems": [
    "C75_elementwise",
    "C75_length_mismatch"
   ],
   "note": ""
  },
  {
   "property": "C76",
   "status": "proved",
   "theorems": [
    "C76_extinction_is_sum",
    "C76_absorption_sign",
    "C76_lossless_no_absorption",
    "C76_size_laws",
    "C76_resonance"
   ],
   "note": ""
  },
  {
   "property": "C77",
   "status": "proved",
   "theorems": [
    "C77_ratio_functions_coincide",
    "C77_zdr_is_dbz_difference",
    "C77_zdr_of_dbz",
    "C77_ratio_antisymmetric"
   ],
   "note": ""
  },
  {
   "property": "C78",
   "status": "proved",
   "theorems": [
    "C78_radar_const_laws",
    "C78_loss_increases_constant"
   ],
   "note": ""
  },
  {
   "property": "C79",
   "status": "proved",
   "theorems": [
    "C79_python_shape",
    "C79_python_missing",
    "C79_python_kdp_needs_phase",
    "C79_python_one_pass",
    "C79_python_std"
   ],
   "note": ""
  },
  {
   "property": "C80",
   "status": "proved",
   "theorems": [
    "C80_python_line_with_gaps",
    "C80_python_one_pass_gates"
   ],
   "note": ""
  },
  {
   "property": "C81",
   "status": "proved",
   "theorems": [
    "C81_kdp_ratio",
    "C81_std_window"
   ],
   "note": ""
  },
  {
   "property": "C82",
   "status": "proved",
   "theorems": [
    "C82_python_phase_local",
    "C82_python_kdp_local",
    "C82_compiled_not_local"
   ],
   "note": ""
  },
  {
   "property": "C83",
   "status": "proved",
   "theorems": [
    "C83_blended_S_defaults",
    "C83_blended_other_defaults",
    "C83_hidro_S_defaults",
    "C83_hidro_other_defaults",
    "C83_tropical_defaults",
    "C83_tropical_ice_defaults"
   ],
   "note": ""
  },
  {
   "property": "C84",
   "status": "proved",
   "theorems": [
    "C84_blended_S_missing_kdp",
    "C84_blended_S_missing_zdr",
    "C84_blended_S_missing_z",
    "C84_blended_other_missing",
    "C84_hidro_S_missing",
    "C84_tropical_missing"
   ],
   "note": ""
  },
  {
   "property": "C85",
   "status": "proved",
   "theorems": [
    "C85_four_corners",
    "C85_positive_corners_shift_ramp",
    "C85_two_corners",
    "C85_symmetric_corners_divide_by_zero"
   ],
   "note": ""
  },
  {
   "property": "C86",
   "status": "proved",
   "theorems": [
    "C86_summer_default_weights",
    "C86_summer_hybrid_defaults",
    "C86_summer_linear_defaults",
    "C86_winter_defaults",
    "C86_melt_defaults"
   ],
   "note": ""
  },
  {
   "property": "C87",
   "status": "proved",
   "theorems": [
    "C87_get_fir",
    "C87_one_design",
    "C87_request_in_domain",
    "C87_only_ratio",
    "C87_default_design",
    "C87_order_zero"
   ],
   "note": ""
  },
  {
   "property": "C88",
   "status": "proved",
   "theorems": [
    "C88_system_formulas",
    "C88_default_arguments",
    "C88_doppler_formulas",
    "C88_geometry_formulas",
    "C88_ratio_formulas",
    "C88_attenuation_formulas"
   ],
   "note": ""
  },
  {
   "property": "C89",
   "status": "proved",
   "theorems": [
    "C89_nexrad_never_negative",
    "C89_blended_S_never_negative",
    "C89_blended_other_bands_never_negative",
    "C89_hidro_S_never_negative",
    "C89_hidro_other_bands_never_negative",
    "C89_tropical_never_negative",
    "C89_masses_never_negative",
    "C89_scalar_masses_never_negative"
   ],
   "note": ""
  },
  {
   "property": "C90",
   "status": "proved",
   "theorems": [
    "C90_membership_in_unit_interval",
    "C90_numpy_membership_in_unit_interval",
    "C90_membership_zero_division",
    "C90_summer_scores_in_unit_interval_numpy1",
    "C90_summer_scores_bound_numpy2",
    "C90_winter_scores_in_unit_interval",
    "C90_melt_scores_in_unit_interval",
    "C90_summer_returns",
    "C90_winter_returns",
    "C90_melt_returns",
    "C90_summer_scores_never_negative",
    "C90_winter_scores_never_negative",
    "C90_melt_scores_never_negative",
    "C90_numpy2_scores_at_most_one_refuted"
   ],
   "note": "_refuted: the source comment 'Maximum of test should never be > 1' is false with NumPy 2"
  },
  {
   "property": "C91",
   "status": "proved",
   "theorems": [
    "C91_std_never_negative",
    "C91_line_fit_accuracy_refuted",
    "C91_distinct_ranges_can_raise",
    "C91_exact_line_fit"
   ],
   "note": "_refuted: accuracy of the single-precision line fit, against C91_exact_line_fit"
  },
  {
   "property": "C92",
   "status": "proved",
   "theorems": [
    "C92_one_file_per_species",
    "C92_too_many_species",
    "C92_no_temperature",
    "C92_summer",
    "C92_winter",
    "C92_melting_layer",
    "C92_curves_are_the_memberships"
   ],
   "note": ""
  },
  {
   "property": "C93",
   "status": "proved",
   "theorems": [
    "C93_same_names_overwritten",
    "C93_names_distinct",
    "C93_bands_kept_apart"
   ],
   "note": ""
  },
  {
   "property": "C94",
   "status": "proved",
   "theorems": [
    "C94_wind_round_trips",
    "C94_radar_round_trips",
    "C94_wind_factors",
    "C94_special_values",
    "C94_exact_round_trip_refuted"
   ],
   "note": ""
  },
  {
   "property": "C95",
   "status": "proved",
   "theorems": [
    "C95_nexrad",
    "C95_blended_S",
    "C95_blended_other",
    "C95_hidro_S",
    "C95_hidro_other",
    "C95_tropical"
   ],
   "note": ""
  },
  {
   "property": "C96",
   "status": "proved",
   "theorems": [
    "C96_same_result",
    "C96_harmless",
    "C96_empty",
    "C96_index_error"
   ],
   "note": ""
  },
  {
   "property": "C97",
   "status": "proved",
   "theorems": [
    "C97_numpy_number",
    "C97_numpy_number_hidro",
    "C97_numpy_number_tropical",
    "C97_python_number",
    "C97_python_number_hidro",
    "C97_other_bands",
    "C97_other_bands_hidro",
    "C97_no_zdr_methods",
    "C97_python_number_tropical",
    "C97_tropical_predef_S"
   ],
   "note": ""
  },
  {
   "property": "C98",
   "status": "proved",
   "theorems": [
    "C98_double_gt",
    "C98_double_ge",
    "C98_single_gt"
   ],
   "note": ""
  },
  {
   "property": "C99",
   "status": "proved",
   "theorems": [
    "C99_summer_scores",
    "C99_winter_scores",
    "C99_melt_scores",
    "C99_summer_class",
    "C99_summer_scores_defaults",
    "C99_summer_class_defaults",
    "C99_winter_scores_defaults",
    "C99_melt_scores_defaults"
   ],
   "note": ""
  },
  {
   "property": "C100",
   "status": "proved",
   "theorems": [
    "C100_summer_weights_read",
    "C100_winter_weights_read",
    "C100_melt_weights_read",
    "C100_summer_missing_weight",
    "C100_summer_dictionary",
    "C100_winter_dictionary",
    "C100_melt_dictionary",
    "C100_winter_missing_weight",
    "C100_winter_number_weight",
    "C100_winter_short_weights",
    "C100_melt_missing_weight",
    "C100_melt_short_weights",
    "C100_summer_weights_relative",
    "C100_winter_weights_relative",
    "C100_melt_weights_relative",
    "C100_summer_absent_weights",
    "C100_winter_absent_weights",
    "C100_melt_absent_weights",
    "C100_nonfinite_absent_weight",
    "C100_trapezoids_not_relative"
   ],
   "note": ""
  },
  {
   "property": "C101",
   "status": "proved",
   "theorems": [
    "C101_summer_closer_scores_higher",
    "C101_class_kept",
    "C101_summer_score_bounds",
    "C101_winter_closer_scores_higher",
    "C101_melt_closer_scores_higher"
   ],
   "note": ""
  },
  {
   "property": "C102",
   "status": "proved",
   "theorems": [
    "C102_calc_kdp_bringi",
    "C102_offset_matters"
   ],
   "note": ""
  },
  {
   "property": "C103",
   "status": "proved",
   "theorems": [
    "C103_despeckle_reversed",
    "C103_despeckle_pattern",
    "C103_despeckle_split",
    "C103_freezing_altitude_units",
    "C103_melting_level_origin",
    "C103_run_winter_origin",
    "C103_ppi_origin_matters"
   ],
   "note": ""
  },
  {
   "property": "C104",
   "status": "proved",
   "theorems": [
    "C104_nexrad",
    "C104_blended_S",
    "C104_blended_other",
    "C104_hidro_S",
    "C104_hidro_other",
    "C104_tropical"
   ],
   "note": ""
  },
  {
   "property": "C105",
   "status": "proved",
   "theorems": [
    "C105_ice_test_monotone",
    "C105_methods_of_the_ice_test",
    "C105_no_method_4",
    "C105_negative_zdr",
    "C105_bands_disagree"
   ],
   "note": ""
  },
  {
   "property": "C106",
   "status": "proved",
   "theorems": [
    "C106_2013_moves",
    "C106_2009_moves",
    "C106_2009_step"
   ],
   "note": ""
  },
  {
   "property": "C107",
   "status": "proved",
   "theorems": [
    "C107_blended_refuses",
    "C107_hidro_refuses",
    "C107_hidro_class_refused",
    "C107_hidro_other_zdr_unused",
    "C107_tropical_refuses",
    "C107_tropical_maps_refused",
    "C107_dsd_kdp_unused",
    "C107_dsd_zdr_refused",
    "C107_dsd_2004_refuses",
    "C107_masses_ignore_shapes",
    "C107_masses_refused",
    "C107_short_sounding_refused",
    "C107_filters_refuse",
    "C107_long_sounding_overlooks_zero"
   ],
   "note": ""
  },
  {
   "property": "C108",
   "status": "proved",
   "theorems": [
    "C108_fill_value_classes",
    "C108_far_fill_value_is_class_1",
    "C108_fill_value_alone_is_graupel",
    "C108_fill_value_classes_defaults"
   ],
   "note": ""
  },
  {
   "property": "C109",
   "status": "proved",
   "theorems": [
    "C109_all_fill_numpy1_class_1",
    "C109_all_fill_numpy2_graupel"
   ],
   "note": ""
  },
  {
   "property": "C110",
   "status": "proved",
   "theorems": [
    "C110_defaults_are_usual",
    "C110_nexrad_missing_is_zero",
    "C110_blended_S_all_missing_is_nan",
    "C110_blended_S_dz_missing_is_zero",
    "C110_blended_other_missing_is_zero",
    "C110_hidro_S_missing_is_zero",
    "C110_hidro_other_missing_is_zero",
    "C110_masses_all_missing_are_zero",
    "C110_masses_dz_missing",
    "C110_exact_arithmetic_says_method_4"
   ],
   "note": ""
  },
  {
   "property": "C111",
   "status": "proved",
   "theorems": [
    "C111_despeckle_masked_is_echo",
    "C111_despeckle_ignores_masked_values",
    "C111_despeckle_ray",
    "C111_despeckle_all_masked",
    "C111_second_trip",
    "C111_differential_phase",
    "C111_nexrad_ignores_mask",
    "C111_insect",
    "C111_insect_index_error"
   ],
   "note": ""
  },
  {
   "property": "C112",
   "status": "proved",
   "theorems": [
    "C112_radar_constant",
    "C112_targets",
    "C112_doppler",
    "C112_geometry",
    "C112_thermal_noise",
    "C112_decibels",
    "C112_dbz2z",
    "C112_noise_dbm",
    "C112_ray_height",
    "C112_ray_height_default"
   ],
   "note": ""
  },
  {
   "property": "C113",
   "status": "proved",
   "theorems": [
    "C113_masses",
    "C113_blended_S"
   ],
   "note": ""
  },
  {
   "property": "C114",
   "status": "proved",
   "theorems": [
    "C114_2013",
    "C114_2009",
    "C114_2004",
    "C114_2004_m1"
   ],
   "note": ""
  },
  {
   "property": "C115",
   "status": "proved",
   "theorems": [
    "C115_traps",
    "C115_range"
   ],
   "note": ""
  }
 ]
}