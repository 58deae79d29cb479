# Design

Target: /repo (CSU_RadarTools, python + one Cython file + its Fortran twin), read as text.

## Number model

Every modelled function is written once, over an arbitrary type `F` of floats given by the
class `FloatOps` (arithmetic, comparisons, pow, log10, ..., rounding to single precision,
truncation to an integer dtype, decimal literals).  Theorems about control and data flow
(which mask selects which gate, which argument can influence which output, indices, shapes,
exceptions) are proved for *every* `F` with no law assumed, so they hold in particular for
IEEE binary32/binary64 with any libm, NaN included.  Theorems that need arithmetic are
proved in the instance `xr`: the real numbers extended with +inf, -inf, NaN and the IEEE
rules for those special values, without rounding, overflow, underflow or signed zero.

Three more instances are used:

* `q_ops` (`Base/QOps.v`): rationals with NaN, for examples the kernel can compute.
* `ieee_ops` (`Base/Ieee.v`): IEEE 754 binary formats of any precision, from Flocq's `binary_float`;
  `double_ops` (`Spec/IeeeSpec.v`) is binary64 with conversions to binary32 where NumPy stores
  float32.  libm (`pow`, `log10`, ...) is an arbitrary function; theorems name what they need of
  it (`pow_signs`, `pow_accurate`, `pow_good`, ...), and `lm_exact` shows the requirements can be met.
* `Base/RelErr.v` is a relative-error calculus for binary64 on top of it.
* `mixed_ops` (`Base/Mixed.v`): Python floats (doubles) mixed with float32 array elements, by
  NumPy's rule that a Python float beside an array element is first rounded to single.

## Control model

Exceptions are values (`res`): `Ok`, `PyNone` (the function returned None), `Raise exn`,
`Fault` (C undefined behaviour: out-of-bounds access), `Unmodelled` (inputs outside the
model, e.g. arrays whose shapes differ but can be broadcast; shapes that cannot be are `Raise`).  Theorems never count
`Unmodelled` as success.  Arrays carry a dtype tag (integer/float), a shape and row-major
data.  `x[mask] = v[mask]` is `mset mask v x`.  Code that saves files (`Model/Plot.v`) returns
the list of files saved, in order, with the outcome.  Reads past a coefficient array return an
arbitrary `mem` oracle.

## Trusted base

1. Coq 8.16.1's kernel and its checker for `vm_compute` (used in examples and in the finite
   enumerations of C31, C62, C90, C91, C94); no kernel check is switched off, no plugin is used.
2. The axioms of the standard library listed below, and no other.  Coquelicot, mathcomp,
   std++ and Iris are not used; Flocq is (definitions and lemmas, which bring no axiom beyond
   the standard library's).
3. The transcription: each definition in `Model/` cites the lines it models.  `Tables.v` is
   generated by `tools/gen_tables.py` from the CSV files.
4. The semantics given to Python, NumPy, SciPy, Cython and Fortran constructs in the model
   (masked assignment, dtype casts, argmax with NaN, broadcasting of a number over an array,
   integer division, buffer dtype checks, exceptions).

What `Print Assumptions` lists for each theorem of `MANIFEST.json` (written by
`tools/assumptions.py`):

<!-- assumptions:begin -->
* **none** (closed under the global context) (184 theorems): C01_despeckle_kept_iff_in_long_run, C01_despeckle_masked_iff_bad_or_short_run, C02_run_of_ngates_is_masked, C02_run_of_ngates_plus_one_is_kept, C03_despeckle_2d_is_ray_by_ray, C03_despeckle_other_dimensions_return_none, C04_despeckle_idempotent_1d, C04_despeckle_masks_bad_and_monotone, C04_despeckle_idempotent_2d, C05_insect_filter_exact, C05_insect_filter_too_few_ranges_raises, C05_insect_filter_ignores_height, C06_second_trip_exact, C06_differential_phase_scalar_threshold, C06_differential_phase_array_threshold, C07_nexrad_gate_by_gate, C07_nexrad_scalar_raises, C08_blended_S_decision_tree, C08_blended_S_method_cases, C08_blended_S_fit_a_without_fit_b_raises, C09_blended_other_bands, C09_blended_other_bands_ignore_zdr, C11_blended_scalar_is_element_0, C11_zero_dim_arrays_are_scalars, C11_blended_scalar_returns_scalars, C11_hidro_scalar_is_element_0, C11_tropical_scalar_returns_arrays, C11_liquid_ice_scalar_is_element_0, C11_dsd_scalar_is_element_0, C12_integer_is_float_truncated, C12_integer_scalar_truncated, C13_hidro_S_decision_tree, C14_hidro_other_bands, C14_zdr_has_no_influence, C15_hidro_ignores_thresh_nexrad, C16_tropical_without_fhc, C17_tropical_ice_gates, C17_tropical_other_classes_unchanged, C18_predef_ignores_user_coefficients, C18_predef_selects_thompson_coefficients, C18_other_predef_ignores_band, C18_default_coefficients_are_predef_S, C19_rain_missing_inputs_return_none, C19_hidro_missing_fhc_returns_none, C19_dsd_missing_field_raises_NameError, C19_dsd_unsupported_band_returns_none, C20_no_freezing_level_returns_none, C22_method_argument_ignored, C27_kdp_ignored, C30_zero_width, C30_short_array, C31_summer_tables, C31_melt_tables, C31_winter_tables, C33_codes, C33_score_shape, C34_trap_irrelevant, C36_no_dz, C36_unknown_method, C36_linear_without_pol, C37_gate_local, C37_gate_local_class, C41_T_sets, C42_codes, C42_range, C43_ignored, C43_scores, C45_no_azimuths, C46_out_of_range, C49_lengths, C49_no_filter, C49_edges_and_noisy_gates, C49_missing_reflectivity, C50_first_coefficient_unused, C50_fortran_in_bounds, C50_cython_one_past, C52_work_arrays_suffice, C52_fortran_returns, C52_work_arrays_overflow, C53_local, C53_nan_gate, C53_leak_witness, C53_uninitialised_witness, C54_missing_input, C54_dimension_mismatch, C54_other_dimensions, C54_odd_order, C54_even_std_gate, C54_one_ray, C54_rays_independent, C54_every_ray, C58_zdp, C58_zdp_scalar, C58_zdp_zero_dimensional, C58_zdp_lengths, C58_zdp_number_with_array, C58_hdr, C58_hdr_number, C58_hdr_zero_dimensional, C61_reflectivity_always_fails, C61_range_correct_always_fails, C61_vel_shift_scalar, C61_vel_shift_arrays, C66_float64_thresholds_refused, C66_vector_thresholds_refused_for_sweeps, C66_float32_thresholds, C67_no_kdp_in_heavy_rain, C68_negative_std_gate, C72_noise_watts, C72_noise_dbm, C72_noise_unknown_units, C75_elementwise, C75_length_mismatch, C76_extinction_is_sum, C77_ratio_functions_coincide, C79_python_shape, C79_python_missing, C79_python_kdp_needs_phase, C79_python_one_pass, C82_python_phase_local, C82_python_kdp_local, C82_compiled_not_local, C92_one_file_per_species, C92_too_many_species, C92_no_temperature, C92_summer, C92_winter, C92_melting_layer, C93_same_names_overwritten, C93_names_distinct, C93_bands_kept_apart, C96_same_result, C96_harmless, C96_empty, C97_numpy_number, C97_numpy_number_hidro, C97_numpy_number_tropical, C97_python_number, C97_python_number_hidro, C97_other_bands, C97_other_bands_hidro, C97_no_zdr_methods, C97_python_number_tropical, C97_tropical_predef_S, C100_summer_weights_read, C100_winter_weights_read, C100_melt_weights_read, C100_summer_missing_weight, C100_summer_dictionary, C100_winter_dictionary, C100_melt_dictionary, C100_winter_missing_weight, C100_winter_number_weight, C100_winter_short_weights, C100_melt_missing_weight, C100_melt_short_weights, C102_offset_matters, C103_despeckle_reversed, C103_despeckle_pattern, C103_despeckle_split, C103_ppi_origin_matters, C107_blended_refuses, C107_hidro_refuses, C107_hidro_class_refused, C107_hidro_other_zdr_unused, C107_tropical_refuses, C107_tropical_maps_refused, C107_dsd_kdp_unused, C107_dsd_zdr_refused, C107_dsd_2004_refuses, C107_masses_ignore_shapes, C107_masses_refused, C107_short_sounding_refused, C107_filters_refuse, C107_long_sounding_overlooks_zero, C111_despeckle_masked_is_echo, C111_despeckle_ignores_masked_values, C111_despeckle_ray, C111_despeckle_all_masked, C111_second_trip, C111_differential_phase, C111_nexrad_ignores_mask, C111_insect, C111_insect_index_error
* `ClassicalDedekindReals.sig_forall_dec`, `FunctionalExtensionality.functional_extensionality_dep` (1 theorems): C87_request_in_domain
* `ClassicalDedekindReals.sig_forall_dec`, `ClassicalDedekindReals.sig_not_dec`, `Classical_Prop.classic`, `FunctionalExtensionality.functional_extensionality_dep` (315 theorems): C05_insect_default_tables, C05_insect_default_monotone_in_zdr, C06_nan_never_flagged, C07_nexrad_real_value, C07_nexrad_positive_capped_monotone, C10_blended_rain_finite_nonnegative, C10_blended_rain_methods_4_5_capped, C10_other_bands_capped, C10_hidro_other_bands_finite_nonnegative, C10_hidro_rain_finite_nonnegative, C12_integer_dz_truncates_rates, C12_integer_20_dbz_gives_zero, C15_thresh_nexrad_documented_cap_refuted, C20_masses_gate_by_gate, C20_masses_nonnegative_and_zeroed, C20_scalar_masses, C21_partition_conserves_reflectivity, C22_documented_method_refuted, C23_exact_zero_points_highest, C23_monotone_sounding_interpolates, C23_no_crossing_least_squares, C23_crossing_never_fails, C24_inversion_answer_far_from_crossings, C24_exact_zero_hides_higher_crossing, C24_deciding_levels, C25_delta_threshold_profile, C26_dsd_2004_gate_by_gate, C26_method_regions, C26_nan_gate_is_zero, C27_default_S_band_is_2013, C27_C_band_is_2009, C28_method3_is_one_tenth_of_A18, C28_d0_jump_at_0_2, C29_Nw_2013, C29_Nw_2009, C29_Nw_2004, C30_values, C30_one, C30_range, C30_decreasing, C30_symmetric, C30_centre, C30_half, C30_numpy_agrees, C30_numpy_zero_width, C32_exact, C32_range, C33_n_types, C33_first_maximum, C35_exact, C35_default_weights, C35_above_one, C35_below_zero, C36_linear_T_unused, C38_scores, C38_class, C39_all_nan, C39_argmax, C40_total, C40_exact, C40_range, C41_divides, C41_identity, C41_narrows_refuted, C42_total, C42_no_heights, C42_first_maximum, C44_expected, C44_within, C44_order_irrelevant, C44_no_expected_few, C44_no_expected_nonfinite, C44_no_expected, C45_levels, C45_one_sector_per_gate, C45_never_one, C45_empty_sector, C46_values, C46_range, C46_continuous, C46_continuous_between, C46_jumps, C46_plateaus, C47_std_is_population_std, C47_std_nonnegative, C47_std_zero, C47_std_default, C47_calc_kdp_bringi_std, C48_lse_best_line, C48_lse_raises_iff, C48_lse_exact_line, C48_lse_fortran, C49_kdp_value, C49_calc_kdp_bringi, C49_calc_kdp_bringi_value, C50_filter_value, C50_depends_on_memory, C51_linear_phase, C51_fortran_exact, C51_cython_biased, C51_calc_kdp_bringi, C52_total_on_finite_rays, C52_calc_kdp_bringi_no_fault, C55_dbz_z_inverse, C55_dbz2z_laws, C55_z2dbz_outside_domain, C55_wind_conversions_inverse, C55_wind_factors, C55_wave_pulse_inverse, C56_knot_conversions_swapped, C57_velocity_range_product, C57_doppler_dilemma, C57_doppler_dilemma_involution, C57_dual_prf, C57_dual_prf_equal, C58_hdr_real, C58_hdr_monotone_below, C58_hdr_integer_zdr, C58_zdp_integer_truncates, C59_fraction_in_unit_interval, C59_special_values, C59_strictly_increasing, C59_symmetric, C59_scale_invariant, C59_outside_beam_nan, C59_zero_radius, C60_at_radar, C60_antenna_height_added, C60_increasing_in_range, C60_increasing_in_elevation, C60_bounds, C60_vertical, C62_self_class, C62_score_is_one, C62_dz_only, C63_warm_hybrid_nan, C64_total, C64_exact, C64_n_types, C65_needs_zdr_or_kdp, C67_calc_kdp_bringi, C69_radar_equation, C69_range_and_gain_laws, C70_gauss_over_ideal, C70_gauss_smaller, C70_ideal_from_half_power_radius, C71_normalised_cross_section, C71_sixth_power, C72_noise_units_agree, C73_no_refraction, C73_default, C73_monotone, C73_critical, C74_radial_velocity_of_fmax, C76_absorption_sign, C76_lossless_no_absorption, C76_size_laws, C76_resonance, C77_zdr_is_dbz_difference, C77_zdr_of_dbz, C77_ratio_antisymmetric, C78_radar_const_laws, C78_loss_increases_constant, C79_python_std, C80_python_line_with_gaps, C80_python_one_pass_gates, C81_kdp_ratio, C81_std_window, C83_blended_S_defaults, C83_blended_other_defaults, C83_hidro_S_defaults, C83_hidro_other_defaults, C83_tropical_defaults, C83_tropical_ice_defaults, C84_blended_S_missing_kdp, C84_blended_S_missing_zdr, C84_blended_S_missing_z, C84_blended_other_missing, C84_hidro_S_missing, C84_tropical_missing, C85_four_corners, C85_positive_corners_shift_ramp, C85_two_corners, C85_symmetric_corners_divide_by_zero, C86_summer_default_weights, C86_summer_hybrid_defaults, C86_summer_linear_defaults, C86_winter_defaults, C86_melt_defaults, C87_get_fir, C87_one_design, C87_only_ratio, C87_default_design, C87_order_zero, C88_system_formulas, C88_default_arguments, C88_doppler_formulas, C88_geometry_formulas, C88_ratio_formulas, C88_attenuation_formulas, C89_nexrad_never_negative, C89_blended_S_never_negative, C89_blended_other_bands_never_negative, C89_hidro_S_never_negative, C89_hidro_other_bands_never_negative, C89_tropical_never_negative, C89_masses_never_negative, C89_scalar_masses_never_negative, C90_membership_in_unit_interval, C90_numpy_membership_in_unit_interval, C90_membership_zero_division, C90_summer_scores_in_unit_interval_numpy1, C90_summer_scores_bound_numpy2, C90_winter_scores_in_unit_interval, C90_melt_scores_in_unit_interval, C90_summer_returns, C90_winter_returns, C90_melt_returns, C90_summer_scores_never_negative, C90_winter_scores_never_negative, C90_melt_scores_never_negative, C90_numpy2_scores_at_most_one_refuted, C91_std_never_negative, C91_line_fit_accuracy_refuted, C91_distinct_ranges_can_raise, C91_exact_line_fit, C92_curves_are_the_memberships, C94_wind_round_trips, C94_radar_round_trips, C94_wind_factors, C94_special_values, C94_exact_round_trip_refuted, C95_nexrad, C95_blended_S, C95_blended_other, C95_hidro_S, C95_hidro_other, C95_tropical, C96_index_error, C98_double_gt, C98_double_ge, C98_single_gt, C99_summer_scores, C99_winter_scores, C99_melt_scores, C99_summer_class, C99_summer_scores_defaults, C99_summer_class_defaults, C99_winter_scores_defaults, C99_melt_scores_defaults, C100_summer_weights_relative, C100_winter_weights_relative, C100_melt_weights_relative, C100_summer_absent_weights, C100_winter_absent_weights, C100_melt_absent_weights, C100_nonfinite_absent_weight, C100_trapezoids_not_relative, C101_summer_closer_scores_higher, C101_class_kept, C101_summer_score_bounds, C101_winter_closer_scores_higher, C101_melt_closer_scores_higher, C102_calc_kdp_bringi, C103_freezing_altitude_units, C103_melting_level_origin, C103_run_winter_origin, C104_nexrad, C104_blended_S, C104_blended_other, C104_hidro_S, C104_hidro_other, C104_tropical, C105_ice_test_monotone, C105_methods_of_the_ice_test, C105_no_method_4, C105_negative_zdr, C105_bands_disagree, C106_2013_moves, C106_2009_moves, C106_2009_step, C108_fill_value_classes, C108_far_fill_value_is_class_1, C108_fill_value_alone_is_graupel, C108_fill_value_classes_defaults, C109_all_fill_numpy1_class_1, C109_all_fill_numpy2_graupel, C110_defaults_are_usual, C110_nexrad_missing_is_zero, C110_blended_S_all_missing_is_nan, C110_blended_S_dz_missing_is_zero, C110_blended_other_missing_is_zero, C110_hidro_S_missing_is_zero, C110_hidro_other_missing_is_zero, C110_masses_all_missing_are_zero, C110_masses_dz_missing, C110_exact_arithmetic_says_method_4, C112_radar_constant, C112_targets, C112_doppler, C112_geometry, C112_thermal_noise, C112_decibels, C112_dbz2z, C112_noise_dbm, C112_ray_height, C112_ray_height_default, C113_masses, C113_blended_S, C114_2013, C114_2009, C114_2004, C114_2004_m1, C115_traps, C115_range
<!-- assumptions:end -->

## What is modelled

| file | modelled | not modelled |
|---|---|---|
| common.py | all functions | |
| csu_blended_rain.py | calc_blended_rain, csu_hidro_rain | |
| csu_blended_rain_tropical.py | calc_blended_rain_tropical | |
| csu_dsd.py | all functions | |
| csu_liquid_ice_mass.py | all functions | |
| csu_misc.py | all functions, also on numpy masked arrays (Model/Masked.v) | masked or array thresholds with masked data, hard masks |
| csu_t_traps.py | all functions | |
| beta_functions.py | get_beta_set, the four get_mbf_sets functions, plotting (which files, which curves, titles' data) | rendering, fdir other than the shipped tables |
| csu_fhc.py, csu_fhc_winter.py, csu_fhc_ml1.py | classifiers, private helpers, run_winter, plot_flag, effect of verbose on the outcome | printed text |
| csu_fhc_melt.py | melting_layer, get_ml_rhi, get_ml_ppi | values of the unused statistics; masked heights |
| csu_kdp.py | calc_kdp_bringi, get_fir, _calc_kdp_ray and helpers | |
| calc_kdp_ray_fir.pyx, .f | LSE, calc_kdp_ray_fir, hid_beta_f, both builds | |
| fundamentals.py | all functions, for numbers and for arrays where array behaviour differs | |

Oracles (arbitrary functions unless a theorem says otherwise): scipy.signal.firwin,
numpy.polyfit's coefficients where used, numpy.linalg.lstsq, C conversion of out-of-range floats to int, libm.

Not modelled anywhere: the results of broadcasting arrays of different shapes (`Unmodelled`), masked arrays other than in csu_misc, calc_rain_nexrad and
rho's mask, the notebooks, setup.py, the import-time choice between builds (theorems name the
build).

## Plan per property

* **C01** despeckle masks exactly the bad gates and the short runs. Model `despeckle`/`_despeckle_ray` with scipy.ndimage.label (1-D connectivity) as a labelling recursion; prove label i = label j iff same run, then the mask law against a run predicate written with indices only.
* **C02** despeckle masks a run of exactly ngates gates (docstring off by one). Corollary of C01 for a ray `pre ++ [bad] ++ good^ngates ++ [bad] ++ post`.
* **C03** despeckle of a sweep is ray by ray. 2-D case of the model; nth row lemma.
* **C04** despeckle is idempotent and monotone. From C01: runs of the re-masked ray are the surviving runs.
* **C05** insect_filter flags exactly the gates above the Zdr threshold of their Z interval. Generic model with tables as lists; law as an existential over table rows. R instance for disjointness.
* **C06** the simple QC filters are exact pointwise predicates. Pointwise.
* **C07** calc_rain_nexrad caps and is monotone. R instance; Rpower monotonicity.
* **C08** calc_blended_rain at S band follows the documented decision tree at every gate. Array-level model (masks + masked assignments) refined to a per-gate decision function, for every number type.
* **C09** calc_blended_rain at other bands uses only Z and Kdp. Same model; two runs with different zdr.
* **C10** blended rain rates are non-negative finite numbers. R instance, per-gate value from C08/C09.
* **C11** scalar calls agree with array calls. Relational: scalar wrapper vs array call.
* **C12** integer reflectivity truncates the rain rates. dtype tag on arrays; cast at masked assignment; R-instance witness.
* **C13** csu_hidro_rain at S band follows its decision tree. As C08.
* **C14** csu_hidro_rain at other bands. As C09.
* **C15** csu_hidro_rain ignores thresh_nexrad. Two-run equality.
* **C16** calc_blended_rain_tropical: exact gate-by-gate result. As C08.
* **C17** tropical ice gates are labelled R(Kdp) with zero rain. As C08.
* **C18** tropical coefficient selection. Two-run equality over coefficient records.
* **C19** missing inputs are reported, not computed with. Case analysis on None arguments.
* **C20** liquid/ice masses are non-negative and correctly zeroed. R instance, per-gate.
* **C21** the Zdp partition conserves reflectivity. R instance.
* **C22** calc_liquid_ice_mass ignores its method argument. Two-run equality.
* **C23** get_freezing_altitude on a monotone sounding. Sorting by height (permutation + sorted), R instance.
* **C24** get_freezing_altitude is wrong on soundings with an inversion. Witness in the R instance, and the general rule (C24_deciding_levels): with n warm levels the n-th and (n+1)-th lowest levels decide.
* **C25** delta threshold profile. R instance.
* **C26** calc_dsd (S band, 2004) assigns one method per gate and zeros elsewhere. As C08.
* **C27** calc_dsd dispatch and the piecewise d0 of the 2009/2013 retrievals. As C08.
* **C28** 2004 method 3 does not blend methods 2 and 4. R instance identity.
* **C29** Nw is consistent with d0. R instance.
* **C30** the membership beta function is a proper membership function. R instance; Rpower.
* **C31** all shipped membership tables are well formed. Tables transcribed from the CSV files; exhaustive forallb lifted.
* **C32** summer HID scores stay in [0, 1]. R instance; weighted mean bound.
* **C33** summer HID is the first class of maximal score. numpy argmax model (first maximum, first NaN wins).
* **C34** use_trap has no effect in hybrid mode. Two-run equality.
* **C35** trapezoid temperature scores are not weighted. R-instance witness + formula.
* **C36** unusable option combinations raise. Case analysis.
* **C37** HID is gate-local. Two-run agreement at a gate.
* **C38** a NaN measurement turns the gate into class 1. Extended reals with NaN.
* **C39** supplying rho or LDR to the winter HID destroys it. Extended reals with NaN.
* **C40** winter scores without rho and LDR stay in [0, 1]. R instance.
* **C41** temp_factor shifts and narrows the temperature functions. Algebra.
* **C42** run_winter output codes and precedence. Array-level model of the ten masked assignments refined to a per-gate decision.
* **C43** run_winter ignores band, method and use_temp. Two-run equality.
* **C44** RHI/grid melting level is the median of in-range wet snow. np.median as middle of the sorted list; R instance.
* **C45** PPI melting level by azimuth sector. Fold over sectors; R instance.
* **C46** trapezoid temperature memberships: range, plateaus and breaks. R instance, class by class.
* **C47** reported phase standard deviation is the population standard deviation of the window. Loop invariant of the one-pass recurrence; R instance.
* **C48** the line fit is the least-squares line. Normal equations, R instance.
* **C49** edges, missing gates and untouched outputs of the KDP filter. Invariant over the pass/gate loops, any number type.
* **C50** Cython FIR filter reads past the coefficient array. Out-of-range reads return an arbitrary `mem` oracle; dependence on `mem` shown.
* **C51** Fortran build: linear phase is preserved and its KDP recovered. Separate model of the Fortran routine; R instance.
* **C52** work arrays of the KDP routine. Writes beyond 500 are a `Fault`; bound on the counter.
* **C53** NaN reflectivity makes KDP depend on the previous gate. State carried between gates is explicit in the model.
* **C54** calc_kdp_bringi dispatch. Case analysis + per-ray lemma.
* **C55** unit conversions are mutually inverse. R instance.
* **C56** si2kts converts in the wrong direction. R instance.
* **C57** the Doppler dilemma relation. R instance.
* **C58** hdr and zdp piecewise definitions. R instance.
* **C59** beam blockage fraction. R instance; substitution y = a sin t, monotone because |sin d| < d.
* **C60** beam height geometry. R instance.
* **C61** reflectivity and range_correct always fail. Exceptions as values.
* **C62** class centres are classified as themselves. R instance on the shipped tables: at the centre of its membership functions a class scores 1.
* **C63** winter hybrid cannot score the warm classes. Two-run/NaN analysis of the hybrid product with the missing factor.
* **C64** melting-layer scores are weighted means. R instance; weighted mean bound as in C32.
* **C65** run_winter needs ZDR or KDP. Case analysis on None arguments.
* **C66** vector thresholds need dtype float32. Buffer dtype check as an exception; case analysis over the builds.
* **C67** no KDP in heavy rain for filter orders 2, 6, 10. Counting argument on the adaptive window (the window holds fewer gates than 80% of nadp asks for).
* **C68** negative odd std_gate. Integer arithmetic of the half window; case analysis.
* **C69** the radar equation is consistent. R instance algebra.
* **C70** Gaussian and ideal sample volumes. R instance; 1/2 < ln 2.
* **C71** Rayleigh backscatter laws. R instance algebra.
* **C72** thermal noise units. Case analysis on the upper-cased string; R instance for the unit agreement.
* **C73** effective earth radius. R instance, two number kinds.
* **C74** Nyquist frequency and velocity agree. R instance.
* **C75** array arguments of the two-argument functions. Array-level model of the two-argument functions, any number type.
* **C76** attenuation coefficients. Complex numbers as pairs with CPython's division algorithm; R instance.
* **C77** dB ratios. R instance.
* **C78** the radar constant grows with losses. R instance.
* **C79** Python KDP estimator: gates, gaps and edges. Model of `_calc_kdp_ray` with the in-place fill; a pass is shown to be a function of the phases before it; `lstsq` is an arbitrary routine.
* **C80** Python KDP estimator is exact on linear phase with gaps. Invariant "missing or on the line" over the passes; `lstsq` assumed to return the least-squares line; R instance.
* **C81** Python and compiled KDP estimators disagree. Combination of C80 with C51, C79 with C47.
* **C82** the Python KDP estimator is local, the compiled one is not. Two-run induction over the passes; computed witness for both builds.
* **C83** default rain rates in plain numbers. Independent real-number specification `Spec/RainDefaultSpec.v`; the decision-tree theorems C08-C18 instantiated at the defaults in the R instance.
* **C84** rain rates at gates with missing measurements. Same route with NaN inputs in the extended reals.
* **C85** the trapezoid helpers with arbitrary corners. Case analysis in the R instance; refutes the trapezoid reading for positive corners.
* **C86** classifier scores with the default weights. C32/C40/C64 instantiated at the default weight tables, in explicit numbers.
* **C87** the filter calc_kdp_bringi requests. get_fir in exact arithmetic with firwin as a parameter; two designers agreeing on the one request give equal results.
* **C88** fundamentals.py formulas. Each function of the exact-arithmetic model equals the textbook real expression on its domain.
* **C89** sign of rain rates and masses in IEEE arithmetic. The number class is instantiated with Flocq's binary_float (`Base/Ieee.v`); a sign-bit discipline (clear sign bit or NaN) is preserved by each operation of the per-gate formulas of C08-C18, C20; pow is any function meeting `pow_signs`.
* **C90** memberships and scores in IEEE arithmetic. Rounded weighted means bounded by monotonicity of rounding; the finite set of weight/variable subsets is enumerated by kernel computation (`Proofs/IeeeEnum.v`).
* **C91** compiled KDP in single precision. Sign of a rounded square root; witness rays evaluated by the kernel with everything not determined by the standard left arbitrary.
* **C92** plot_flag. `Model/Plot.v`: code that saves files returns the files in order with the outcome; the loop over species by induction, the curves in the R instance.
* **C93** plots overwrite each other. A directory is a function from paths to figures; histories are lists of saves.
* **C94** unit conversions in IEEE arithmetic. A relative-error calculus for Flocq's binary64 (`Base/RelErr.v`: a computed double is the exact value times e^d with |d| bounded, while magnitudes stay away from overflow and underflow); the refuted exact round trips by kernel computation.
* **C95** accuracy of the default rain rates. Relative-error calculus of C94 extended to pow (`pow_accurate`: one ulp); each estimator bounded by 600 units of 2^-53, thresholds by monotonicity of rounding; the law-free decision-tree theorems C07-C09, C13, C14, C16 supply the code structure. A correctly rounded pow (noncomputable) shows `pow_accurate` can be met.
* **C96** verbose. `verbose` and SciPy's version threaded through the melting-layer model; two-run equalities.
* **C97** one number for zdr. The three array computations take what `~cond_zdr` does as a parameter (elementwise negation, or always true for a Python bool); two-run equalities, any number type.
* **C98** the 80 per cent rule is exact in floating point. The integer comparison of the KDP models against Flocq's binary64/binary32: monotonicity of rounding away from ties, the midpoint lemma at ties.
* **C99** accuracy of the hydrometeor scores and classes. Absolute-error propagation through single-precision storage: the membership 1/(1+t^b) is Lipschitz in log t with constant b/4 and flat far out (`BetaErr`), sums and quotients with bounded weights (`HidErr`); the per-gate form of the classifiers (`core_scores`) supplies the code structure, a first-maximum lemma the class. Requirements on pow: `Spec/PowSpec.v` (`pow_good`), met by a noncomputable correctly rounded pow; a concrete gate is classified.
* **C100** weights. `Model/Weights.v` puts the dictionary reads (KeyError, TypeError, IndexError, in the order of the code) in front of the classifier models; congruence of the classifiers in the weights read (any arithmetic), a scaling homomorphism on extended reals (`sc_add`, `sc_mul`, `sc_div`) carried through weight sums, tests and hybrid products, and the zero contribution of an unmeasured variable.
* **C101** monotone scores. From the exact scores (C32, C40, C64): the memberships decrease with distance from the centre, weighted means and products of positive factors are monotone, strictly so in a factor of positive weight; the class from the first-maximum theorem (C33).
* **C102** simulation between the two runs: standard deviations, each filter pass (induction on the number of passes), least-squares slopes (Proofs/KdpAffine.v); rational witness for the offset condition (Properties/P41_KdpAffine.v).
* **C103** despeckle from the run characterisation C01; freezing altitude from C23/C24 plus uniqueness of the least-squares line; melting level from the median characterisation C44; PPI witness in rationals (Properties/P42_Symmetry.v).
* **C104** instance `mixed_ops` (`Base/Mixed.v`) of the number class: Python floats are doubles, array elements singles, a double beside an array element is rounded to single first (NumPy's weak scalars). The law-free decision trees C07, C08, C09, C13, C14, C16 apply as they are; the rates by a relative-error calculus for mixed expressions (`Proofs/SingleRain.v`, `Properties/P43_Single.v`). Not covered: Python/NumPy scalars as inputs, fields of different float types, and the predefined tropical S-band R(Kdp,Zdr), whose coefficients are tuples and hence doubles.
* **C105** Solve the ice-fraction inequality of the C83 decision tree for the part of Zh that is Zh - Zv (exact reals), then bound logarithms by integer powers. C105_*.
* **C106** Mean value theorem on the two quartics of each band, on top of C27 (exact reals). C106_*.
* **C107** NumPy's rule (`clash`, `misfit`, `index_misfit` in Model/Common.v) at the first statement of each function where the fields meet; law-free proofs (Properties/P46_Shapes.v).
* **C108** IEEE instance: the membership 1/(1+((x-m)/a)^(2b)) stored as float32 is exactly zero when the power exceeds 2^152 and positive when it is below 2^148 (Proofs/FillErr.v); per-row rational checks of the shipped tables; a finite product with zero is zero; first maximum of the column.
* **C109** bound memberships far from the centre by powers of two (Proofs/AllFill.v), carry the bounds through the rounded weighted mean and the products; below 2^-150 rounds to zero in single precision, above 2^-1074 does not in double; first maximum as in C108 (Properties/P48_AllFill.v)
* **C110** IEEE instance with a contract on pow/log10 at the edges (Spec/EdgeSpec.v); Proofs/EdgeRain.v computes the estimators at fill values; theorems in P49 through the law-free decision trees C07-C09, C13, C14 and the gate lemma of C20.
* **C111** Model/Masked.v: data plus mask, the numpy.ma operators the code uses; despeckle by equality with the plain model on the filled array, insect_filter by projecting the fold of masked conditions on data and mask.
* **C112** relative-error calculus for products, quotients and powers of positive doubles with integer counters (Base/PosErr), absolute-error analysis of the logarithm and of the cancelling subtraction (Proofs/FundErr); the correctly rounded C library meets the hypotheses.
* **C113** absolute-error calculus (near) and log-relative-error calculus (apx) over the Flocq instance, Proofs/IceErr.v (Zdp, rain line), MassErr.v (partition and masses), BlendErr.v (ice fraction, rain-only reflectivity); theorems in P52 through the gate lemma of C20 and the decision tree of C08; non-vacuity with the correctly rounded C library and two concrete gates.
* **C114** absolute-error calculus for the polynomials (Proofs/DsdErr.v), a positive lower bound on D0, then the relative calculus of MassErr.v for Nw; the pow contract for bases of either sign is Spec/PowIntSpec.v, met by the correctly rounded pow; theorems in P53 through the gate lemmas of C27. The 2004 scheme (P54; Proofs/DsdErr04.v, DsdErr04M1.v) uses a power lemma with an approximate exponent, absolute errors for the convex combination of method 3 and for zeta - 1, and margins of 1e-9 about 0.2 and 0.3, whose literals are not the decimal values.
* **C115** gate lemma (each output element is the program on the one-element array), then class by class: comparisons decided in exact arithmetic because the corners are integers, slopes from integer denominators checked by computing the double, ramps by the absolute-error calculus; theorems in P55.
