{"id": "C01", "title": "despeckle masks exactly the bad gates and the short runs", "statement": "For a 1-D ray, despeckle(data, bad, ngates) returns a mask of the same length that is True at gate i iff data[i] == bad or the maximal contiguous run of non-bad gates containing i has at most ngates gates.", "quantifier": "every ray (any length, any values including NaN), every bad value, every ngates (negative included)", "why_tests_cant": "the claim quantifies over all placements of runs in rays of every length; tests sample a few rays", "anchors": ["csu_radartools/csu_misc.py:despeckle", "csu_radartools/csu_misc.py:_despeckle_ray"]}
{"id": "C02", "title": "despeckle masks a run of exactly ngates gates (docstring off by one)", "statement": "The docstring says ngates contiguous good gates are enough for no masking to occur; this is false: for every ngates >= 1 and every position in a ray, an isolated run of exactly ngates good gates is masked, and ngates+1 gates is the shortest run that survives.", "quantifier": "every ngates >= 1, every ray containing an isolated run of that length", "why_tests_cant": "a boundary that must be established for every ngates and every surrounding ray", "anchors": ["csu_radartools/csu_misc.py:despeckle", "csu_radartools/csu_misc.py:_despeckle_ray"]}
{"id": "C03", "title": "despeckle of a sweep is ray by ray", "statement": "For a 2-D array, row k of the mask is exactly despeckle applied to row k alone, the mask has the shape of the data, and a scalar or an array with more than two dimensions makes the function warn and return None.", "quantifier": "every 2-D array (any number of rays and gates)", "why_tests_cant": "non-interference between rays has to hold for all contents of all other rays", "anchors": ["csu_radartools/csu_misc.py:despeckle"]}
{"id": "C04", "title": "despeckle is idempotent and monotone", "statement": "Overwriting the masked gates with the bad value and despeckling again returns the same mask; every bad gate is masked; and raising ngates never un-masks a gate.", "quantifier": "every ray, every bad value equal to itself, every ngates <= ngates'", "why_tests_cant": "relates two executions over all inputs", "anchors": ["csu_radartools/csu_misc.py:despeckle", "csu_radartools/csu_misc.py:_despeckle_ray"]}
{"id": "C05", "title": "insect_filter flags exactly the gates above the Zdr threshold of their Z interval", "statement": "insect_filter returns True at a gate iff the supplied mask is True there (default mask: dz == bad or zdr == bad) or, for some k, dz_range[k][0] < dz <= dz_range[k][1] and zdr >= dr_thresh[k]; more thresholds than intervals raises IndexError. With the default tables the intervals are disjoint, and the result is monotone in zdr.", "quantifier": "every pair of arrays of equal length, every mask, every threshold/interval table", "why_tests_cant": "quantifies over tables and all real values, including the interval end points", "anchors": ["csu_radartools/csu_misc.py:insect_filter"]}
{"id": "C06", "title": "the simple QC filters are exact pointwise predicates", "statement": "second_trip_filter_magnetron flags exactly the gates equal to bad; differential_phase_filter flags exactly the gates strictly above the (scalar or per-gate) threshold; NaN gates are never flagged.", "quantifier": "every array, every bad value / threshold", "why_tests_cant": "pointwise claim over all values, NaN included", "anchors": ["csu_radartools/csu_misc.py:second_trip_filter_magnetron", "csu_radartools/csu_misc.py:differential_phase_filter"]}
{"id": "C07", "title": "calc_rain_nexrad caps and is monotone", "statement": "calc_rain_nexrad never exceeds the Z-R rate at thresh_nexrad, equals the plain Z-R rate at or below the threshold and the constant cap above it, is positive, and is non-decreasing in reflectivity.", "quantifier": "every finite reflectivity, threshold, and a > 0, b > 0", "why_tests_cant": "real-analysis claim over a continuum", "anchors": ["csu_radartools/common.py:calc_rain_nexrad", "csu_radartools/common.py:calc_rain_zr"]}
{"id": "C08", "title": "calc_blended_rain at S band follows the documented decision tree at every gate", "statement": "For band 'S' every gate gets exactly one method in {1,..,5}, chosen from (ice fraction < threshold), (dz >= thresh_dz and kdp >= thresh_kdp), (zdr >= thresh_zdr), and the rain rate stored at that gate is the estimator of that method evaluated at that gate only; the outputs have the shape of dz.", "quantifier": "every array shape, every gate, every threshold and coefficient, any floating-point semantics (NaN included)", "why_tests_cant": "the code builds nine overlapping boolean masks and five masked assignments; that they partition all gates for all inputs is a universal claim", "anchors": ["csu_radartools/csu_blended_rain.py:calc_blended_rain"]}
{"id": "C09", "title": "calc_blended_rain at other bands uses only Z and Kdp", "statement": "For band != 'S' every gate has method 2 with R(Kdp) iff dz >= thresh_dz and kdp >= thresh_kdp, else method 4 with the capped R(Z); zdr has no influence on the result, and (Zdp, ice fraction) are never returned.", "quantifier": "every array, every gate, every zdr", "why_tests_cant": "non-interference over all zdr fields", "anchors": ["csu_radartools/csu_blended_rain.py:calc_blended_rain"]}
{"id": "C10", "title": "blended rain rates are non-negative finite numbers", "statement": "For finite inputs, non-negative leading coefficients, r_z_a, r_z_b > 0 and thresh_kdp > 0, every rain rate returned by calc_blended_rain is a finite number >= 0, and methods 4 and 5 never exceed the Z-R rate at thresh_nexrad.", "quantifier": "every finite (dz, zdr, kdp) field, in exact real arithmetic", "why_tests_cant": "continuum of inputs; negative kdp gives NaN in an intermediate array that must never be selected", "anchors": ["csu_radartools/csu_blended_rain.py:calc_blended_rain", "csu_radartools/common.py:calc_rain_kdp", "csu_radartools/common.py:calc_rain_kdp_zdr", "csu_radartools/common.py:calc_rain_z_zdr"]}
{"id": "C11", "title": "scalar calls agree with array calls", "statement": "calc_blended_rain and csu_hidro_rain on scalars return scalars equal to element 0 of the call on the length-1 arrays holding them; calc_dsd and calc_liquid_ice_mass likewise. calc_blended_rain_tropical does not: it returns length-1 arrays for scalar input.", "quantifier": "every scalar input, every keyword argument", "why_tests_cant": "relates two call forms over all inputs", "anchors": ["csu_radartools/common.py:_check_for_array", "csu_radartools/csu_blended_rain.py:calc_blended_rain", "csu_radartools/csu_blended_rain.py:csu_hidro_rain", "csu_radartools/csu_blended_rain_tropical.py:calc_blended_rain_tropical", "csu_radartools/csu_dsd.py:calc_dsd", "csu_radartools/csu_liquid_ice_mass.py:calc_liquid_ice_mass"]}
{"id": "C12", "title": "integer reflectivity truncates the rain rates", "statement": "If dz is an integer array or an integer scalar, every returned rain rate is the estimator truncated toward zero to an integer; in particular a positive rate below 1 mm/h is returned as 0.", "quantifier": "every integer dz field", "why_tests_cant": "dtype-dependent behaviour of every masked assignment, for all inputs", "anchors": ["csu_radartools/csu_blended_rain.py:calc_blended_rain", "csu_radartools/csu_blended_rain.py:csu_hidro_rain"]}
{"id": "C13", "title": "csu_hidro_rain at S band follows its decision tree", "statement": "For band 'S', a gate classified rain (fhc 1, 2, 10) gets method 4 if dz < thresh_dz, else 1/2 (kdp high; zdr high/low) or 3/4 (kdp low; zdr high/low); a gate classified ice (5, 7, 8, 9) gets method 2 iff kdp >= thresh_kdp; every other gate gets method 0 and rain 0. The stored rate is that of the method.", "quantifier": "every array, every gate, every fhc code, any floating-point semantics", "why_tests_cant": "overlapping masks and an assignment order that decides the result; must hold for all combinations", "anchors": ["csu_radartools/csu_blended_rain.py:csu_hidro_rain"]}
{"id": "C14", "title": "csu_hidro_rain at other bands", "statement": "For band != 'S': method 2 with R(Kdp) iff dz and kdp reach their thresholds, whatever the class; otherwise method 4 with R(Z) on rain classes and (method 2, rain 0) on every other class. zdr has no influence.", "quantifier": "every array, every gate, every fhc code", "why_tests_cant": "universal over fields and classes", "anchors": ["csu_radartools/csu_blended_rain.py:csu_hidro_rain"]}
{"id": "C15", "title": "csu_hidro_rain ignores thresh_nexrad", "statement": "The result of csu_hidro_rain does not depend on the thresh_nexrad argument: R(Z) is always capped at 53 dBZ, so the documented meaning of the parameter is violated for every value other than 53.", "quantifier": "every pair of thresh_nexrad values, every other input", "why_tests_cant": "non-interference over all inputs", "anchors": ["csu_radartools/csu_blended_rain.py:csu_hidro_rain"]}
{"id": "C16", "title": "calc_blended_rain_tropical: exact gate-by-gate result", "statement": "Without fhc: dz < -10 gives (0, -1); otherwise method 1/2/3 by (kdp and dz at threshold) and (zdr at threshold), and where neither holds method 4 when cs is None, and 5/6/4 for cs = 2/1/3 and (0,-1) for any other cs. The stored rate is that of the method.", "quantifier": "every array, every gate, every cs code, any floating-point semantics", "why_tests_cant": "order-dependent masked assignments over all combinations", "anchors": ["csu_radartools/csu_blended_rain_tropical.py:calc_blended_rain_tropical"]}
{"id": "C17", "title": "tropical ice gates are labelled R(Kdp) with zero rain", "statement": "With fhc given, a gate with 2 < fhc < 10 and dz >= -10 always gets method code 2; its rain is 0 unless fhc == 9 with dz and kdp at threshold. So 'method 2 = R(Kdp)' is violated on every non-hail ice gate.", "quantifier": "every array, every gate, every fhc", "why_tests_cant": "universal characterisation of a masked-assignment slip", "anchors": ["csu_radartools/csu_blended_rain_tropical.py:calc_blended_rain_tropical"]}
{"id": "C18", "title": "tropical coefficient selection", "statement": "With predef == 'True' the user's coefficients have no influence and the band ('S','C','X') selects the Thompson coefficients; with any other predef value (including the boolean True) the arguments are used as given, so predef=True with band 'C' computes with the S-band defaults.", "quantifier": "every coefficient argument, every band string, every input field", "why_tests_cant": "non-interference over all coefficient values", "anchors": ["csu_radartools/csu_blended_rain_tropical.py:calc_blended_rain_tropical"]}
{"id": "C19", "title": "missing inputs are reported, not computed with", "statement": "calc_blended_rain, csu_hidro_rain and calc_blended_rain_tropical return None with a warning when a required field is None; calc_dsd in the same situation raises NameError (the name warnings is not imported), and returns None with a warning for a band other than 'S' and 'C'.", "quantifier": "every combination of missing arguments and every other argument", "why_tests_cant": "all combinations of None and any values elsewhere", "anchors": ["csu_radartools/csu_blended_rain.py:calc_blended_rain", "csu_radartools/csu_blended_rain.py:csu_hidro_rain", "csu_radartools/csu_blended_rain_tropical.py:calc_blended_rain_tropical", "csu_radartools/csu_dsd.py:calc_dsd"]}
{"id": "C20", "title": "liquid/ice masses are non-negative and correctly zeroed", "statement": "For finite inputs calc_liquid_ice_mass returns finite water and ice masses >= 0; negative Zdr gives zero water; a gate whose excess over the rain line is below the height-dependent threshold gets zero ice and the all-rain water mass; otherwise water and ice come from the partitioned reflectivity.", "quantifier": "every finite field, in exact real arithmetic", "why_tests_cant": "continuum of inputs, fractional powers of possibly zero bases", "anchors": ["csu_radartools/csu_liquid_ice_mass.py:calc_liquid_ice_mass", "csu_radartools/csu_liquid_ice_mass.py:_liquid_ice_calcs"]}
{"id": "C21", "title": "the Zdp partition conserves reflectivity", "statement": "The ice fraction is in [0, 1), rain and ice reflectivities are non-negative and add up to the total linear reflectivity, and the rain reflectivity never exceeds the total.", "quantifier": "every finite dbz, zdr and rain-line coefficients", "why_tests_cant": "real-analysis claim over a continuum", "anchors": ["csu_radartools/csu_liquid_ice_mass.py:_liquid_ice_calcs", "csu_radartools/csu_liquid_ice_mass.py:calc_zdp", "csu_radartools/csu_liquid_ice_mass.py:calc_zh_zv"]}
{"id": "C22", "title": "calc_liquid_ice_mass ignores its method argument", "statement": "The result does not depend on method: unless fit_a is given the Cifelli rain line is always used, contrary to the docstring.", "quantifier": "every pair of method strings, every other input", "why_tests_cant": "non-interference over all inputs", "anchors": ["csu_radartools/csu_liquid_ice_mass.py:calc_liquid_ice_mass", "csu_radartools/csu_liquid_ice_mass.py:_liquid_ice_calcs"]}
{"id": "C23", "title": "get_freezing_altitude on a monotone sounding", "statement": "If the sounding contains exact 0-degree points the highest of them is returned. If temperature strictly decreases with height and crosses 0, the result is the linear interpolation between the two bracketing levels, hence between their heights. For a sounding that does not cross 0 the least-squares line's height at 0 degrees is returned.", "quantifier": "every sounding of any length with distinct heights, in any order", "why_tests_cant": "quantifies over all soundings and orderings", "anchors": ["csu_radartools/csu_liquid_ice_mass.py:get_freezing_altitude"]}
{"id": "C24", "title": "get_freezing_altitude is wrong on soundings with an inversion", "statement": "With a low-level inversion the position computed inside the sub-array of positive temperatures is used as a position in the full sounding, so the returned height need not lie near any zero crossing; also an exact-zero point hides a higher crossing, contradicting 'returns highest possible freezing altitude'. In general, for a sounding with both signs and no exact zero, if n levels are above freezing then the n-th and (n+1)-th levels from the ground decide: opposite signs interpolate between those two, equal signs return the height of one of them although it is not at 0 C.", "quantifier": "witness soundings", "why_tests_cant": "tests on ordinary soundings never reach it", "anchors": ["csu_radartools/csu_liquid_ice_mass.py:get_freezing_altitude"]}
{"id": "C25", "title": "delta threshold profile", "statement": "get_delta_thresh returns 1.1 strictly above the freezing level and (8/3)*(Hfrz - z) + 2 >= 2 at or below it; the profile is non-increasing in height.", "quantifier": "every height and freezing level", "why_tests_cant": "continuum", "anchors": ["csu_radartools/csu_liquid_ice_mass.py:get_delta_thresh"]}
{"id": "C26", "title": "calc_dsd (S band, 2004) assigns one method per gate and zeros elsewhere", "statement": "In calc_dsd_sband_bringi_2004 the four method masks are pairwise disjoint, each selected gate gets that method's (d0, Nw, mu), and every gate in no method (for example kdp >= 0.3 with dz < 35) is returned as (0, 0, 0).", "quantifier": "every array, every gate", "why_tests_cant": "universal over fields", "anchors": ["csu_radartools/csu_dsd.py:calc_dsd_sband_bringi_2004"]}
{"id": "C27", "title": "calc_dsd dispatch and the piecewise d0 of the 2009/2013 retrievals", "statement": "calc_dsd uses 2013 at S band by default, 2004 for any other method string, 2009 at C band; d0 follows the documented piecewise polynomial at every gate and mu is 3 everywhere; at C band a gate with zdr < -0.5 gets d0 = 0.", "quantifier": "every array, every gate, every method string", "why_tests_cant": "universal over fields", "anchors": ["csu_radartools/csu_dsd.py:calc_dsd", "csu_radartools/csu_dsd.py:calc_dsd_cband_bringi_2009", "csu_radartools/csu_dsd.py:calc_dsd_sband_bringi_2013"]}
{"id": "C28", "title": "2004 method 3 does not blend methods 2 and 4", "statement": "Bringi et al. (2004) Eq. A.18 is a convex blend of the method-2 and method-4 diameters; the code divides the weights by 3.0 instead of 0.3, so the weights sum to 0.1 for every zdr and the retrieved d0 is one tenth of the blend; d0 jumps by a factor 10 at zdr = 0.2 and 0.5.", "quantifier": "every zdr in [0.2, 0.5), every dz", "why_tests_cant": "continuum; established as an identity", "anchors": ["csu_radartools/csu_dsd.py:calc_d0_sband_method3"]}
{"id": "C29", "title": "Nw is consistent with d0", "statement": "For every gate with positive d0 the returned Nw satisfies the defining power law exactly (Nw * 0.056 * d0**7.319 = Z at C band, Nw * d0**7.46 = 19.76 Z at S band 2013, Nw * d0**7.3529 = 21 Z for 2004 methods 2-4) and Nw > 0.", "quantifier": "every finite dz, zdr with d0 > 0", "why_tests_cant": "continuum", "anchors": ["csu_radartools/csu_dsd.py:calc_dsd_cband_bringi_2009", "csu_radartools/csu_dsd.py:calc_dsd_sband_bringi_2013", "csu_radartools/csu_dsd.py:calc_Nw_mult_methods"]}
{"id": "C30", "title": "the membership beta function is a proper membership function", "statement": "hid_beta_f with a != 0, b > 0 returns a value in (0, 1], equal to 1 exactly at x = m, 1/2 at x = m +- a, symmetric about m and strictly decreasing in |x - m|; a = 0 raises ZeroDivisionError (Cython) for any non-empty input.", "quantifier": "every x, m, a, b in exact real arithmetic", "why_tests_cant": "continuum", "anchors": ["csu_radartools/calc_kdp_ray_fir.pyx:hid_beta_f"]}
{"id": "C31", "title": "all shipped membership tables are well formed", "statement": "For bands S, C, X and all six variables the summer tables have 10 rows and the melting-layer tables 2 rows with finite m, a > 0, b > 0; the winter tables have 6 rows, and exactly the winter correlation-coefficient and LDR tables contain NaN.", "quantifier": "every shipped table and row (finite domain, exhaustively)", "why_tests_cant": "a property of shipped data no unit test of the repo reads", "anchors": ["csu_radartools/beta_function_parameters", "csu_radartools/beta_functions.py:get_mbf_sets_summer"]}
{"id": "C32", "title": "summer HID scores stay in [0, 1]", "statement": "With beta membership functions (use_trap=False), non-negative weights and positive weight sum over the supplied variables, every score returned by csu_fhc_summer is a number in [0, 1], for both methods.", "quantifier": "every finite field, every weights dictionary, every subset of variables, every band", "why_tests_cant": "the in-code checks of this invariant are commented out", "anchors": ["csu_radartools/csu_fhc.py:csu_fhc_summer", "csu_radartools/csu_fhc.py:_get_test_list", "csu_radartools/csu_fhc.py:_calculate_test"]}
{"id": "C33", "title": "summer HID is the first class of maximal score", "statement": "csu_fhc_summer returns at every gate an integer in 1..10 such that the class's score is maximal and every lower-numbered class scores strictly less; with return_scores the array has shape (10,) + shape of dz; with any n_types other than 10 the call raises ValueError.", "quantifier": "every field and option combination that yields scores", "why_tests_cant": "universal over fields", "anchors": ["csu_radartools/csu_fhc.py:csu_fhc_summer"]}
{"id": "C34", "title": "use_trap has no effect in hybrid mode", "statement": "For method='hybrid' the result of csu_fhc_summer is the same with use_trap=True and use_trap=False.", "quantifier": "every input", "why_tests_cant": "non-interference over all inputs", "anchors": ["csu_radartools/csu_fhc.py:_get_test_list", "csu_radartools/csu_fhc.py:_calculate_test_trap"]}
{"id": "C35", "title": "trapezoid temperature scores are not weighted", "statement": "With method='linear' and use_trap=True the temperature term enters the sum without weights['T'] while the normalisation includes it, so scores above 1 (and below 0) occur: with the default weights a gate at all centres of any class but 9 (Hail) scores 1.12. With use_temp=False the supplied temperature is still added, only its weight leaves the normalisation.", "quantifier": "witness, plus the exact formula for every input", "why_tests_cant": "needs the all-input formula, and the invariant is only violated in a corner", "anchors": ["csu_radartools/csu_fhc.py:_calculate_test_trap"]}
{"id": "C36", "title": "unusable option combinations raise", "statement": "csu_fhc_summer(method='linear') with only reflectivity (and temperature) raises UnboundLocalError; method='linear', use_trap=False with T supplied and use_temp=False raises TypeError; an unknown method or missing dz returns None.", "quantifier": "every value of every field", "why_tests_cant": "error behaviour over all inputs", "anchors": ["csu_radartools/csu_fhc.py:csu_fhc_summer", "csu_radartools/csu_fhc.py:_get_test_list", "csu_radartools/csu_fhc.py:_calculate_test", "csu_radartools/csu_fhc.py:_get_weight_sum"]}
{"id": "C37", "title": "HID is gate-local", "statement": "The class and scores at a gate depend only on the measurements at that gate (and options): permuting, cropping or changing other gates leaves it unchanged.", "quantifier": "every field, every gate, every change elsewhere", "why_tests_cant": "non-interference over all inputs", "anchors": ["csu_radartools/csu_fhc.py:csu_fhc_summer"]}
{"id": "C38", "title": "a NaN measurement turns the gate into class 1", "statement": "If a supplied field used in the score is NaN at a gate, all scores there are NaN and csu_fhc_summer reports class 1 (Drizzle).", "quantifier": "every gate, every value of the other fields", "why_tests_cant": "universal over other values; relies on argmax's NaN rule", "anchors": ["csu_radartools/csu_fhc.py:csu_fhc_summer"]}
{"id": "C39", "title": "supplying rho or LDR to the winter HID destroys it", "statement": "csu_fhc_winter called with rho or ldr returns NaN for every class and gate (zero weight times a NaN membership), hence every gate argmax-classifies as the first class, although rho is documented as a necessary input.", "quantifier": "every field, every band, both method names", "why_tests_cant": "universal over fields", "anchors": ["csu_radartools/csu_fhc_winter.py:csu_fhc_winter", "csu_radartools/csu_fhc_winter.py:_calculate_test"]}
{"id": "C40", "title": "winter scores without rho and LDR stay in [0, 1]", "statement": "csu_fhc_winter with the default weights, method 'linear', dz and zdr (and optionally kdp, T) and no rho/ldr returns 2 (warm) or 4 (cold) scores per gate, each in [0, 1].", "quantifier": "every finite field, every band", "why_tests_cant": "universal over fields", "anchors": ["csu_radartools/csu_fhc_winter.py:csu_fhc_winter"]}
{"id": "C41", "title": "temp_factor shifts and narrows the temperature functions", "statement": "get_beta_set divides m, a and b by factor: for factor > 1 the centre moves towards 0 and the half-width becomes a/factor, contradicting 'temp_factor > 1 will broaden'; factor = 1 is the identity.", "quantifier": "every table and factor", "why_tests_cant": "algebraic identity over all factors", "anchors": ["csu_radartools/beta_functions.py:get_beta_set"]}
{"id": "C42", "title": "run_winter output codes and precedence", "statement": "Every gate of run_winter's result is in {-1, 1, .., 7}; rho missing or <= minRH, or sn below threshold, gives -1; else wet snow gives 5; else warm-side gates get 6/7 and cold-side gates 1..4 by the corresponding argmax; melting-level gates get -1 unless the scan is 'grid'. 0 is never returned although documented as Unclassified.", "quantifier": "every field, every scan type, every melting-level map", "why_tests_cant": "order of ten masked assignments over all combinations", "anchors": ["csu_radartools/csu_fhc.py:run_winter", "csu_radartools/csu_fhc_melt.py:melting_layer"]}
{"id": "C43", "title": "run_winter ignores band, method and use_temp", "statement": "The result of run_winter does not depend on band, method or use_temp: melting-layer scores always use the S-band tables and the warm/cold scores the C-band tables.", "quantifier": "every value of those arguments, every input", "why_tests_cant": "non-interference", "anchors": ["csu_radartools/csu_fhc.py:run_winter", "csu_radartools/csu_fhc_melt.py:melting_layer"]}
{"id": "C44", "title": "RHI/grid melting level is the median of in-range wet snow", "statement": "get_ml_rhi uses the median height of wet-snow gates within 1.5 km of expected_ML if there are more than 10 of them, otherwise expected_ML; the map is 0 strictly below it, 2 strictly above, 1 exactly at it; the median lies within 1.5 km of expected_ML.", "quantifier": "every field and height array", "why_tests_cant": "universal over fields; strictness at the boundary", "anchors": ["csu_radartools/csu_fhc_melt.py:get_ml_rhi"]}
{"id": "C45", "title": "PPI melting level by azimuth sector", "statement": "get_ml_ppi splits [0, 360) into nsect - 1 half-open sectors; each gate takes the median wet-snow height of its own sector, or 0 when the sector has too few points or is more than 2 km off; gates at or below it are 0, above it 2, never 1; azimuth 360 belongs to no sector; a sector without any azimuth raises ZeroDivisionError.", "quantifier": "every field, azimuth set and nsect >= 2", "why_tests_cant": "universal over azimuth sets", "anchors": ["csu_radartools/csu_fhc_melt.py:get_ml_ppi"]}
{"id": "C46", "title": "trapezoid temperature memberships: range, plateaus and breaks", "statement": "For each of the ten classes get_hid_traps is in [-1, 1], constant on the documented plateaus and linear on the ramps; hail and high-density graupel are continuous, wet snow is a +1/-1 step on [-3, 3], the other classes jump at exactly the stated breakpoints; NaN gives 0; a class index above 9 returns None.", "quantifier": "every temperature (any real or NaN), every class", "why_tests_cant": "continuum; overlapping masked assignments decide the value at breakpoints", "anchors": ["csu_radartools/csu_t_traps.py:get_hid_traps"]}
{"id": "C47", "title": "reported phase standard deviation is the population standard deviation of the window", "statement": "calc_kdp_bringi's third output at gate i is 100 if the std_gate window leaves the ray or holds at most (std_gate-1)/2 valid gates, else exactly the population standard deviation of the valid phases in the window (one-pass algorithm is exact), hence never negative or NaN.", "quantifier": "every ray, every window size, every pattern of missing gates, exact real arithmetic", "why_tests_cant": "induction over the window; one-pass recurrences are only trusted by testing", "anchors": ["csu_radartools/calc_kdp_ray_fir.pyx:calc_kdp_ray_fir"]}
{"id": "C48", "title": "the line fit is the least-squares line", "statement": "LSE returns the unique minimiser of the sum of squared residuals over the points where neither coordinate equals bad, recovers every exact line exactly, and raises ZeroDivisionError iff the normal-equation determinant is zero.", "quantifier": "every point set of every size, exact real arithmetic", "why_tests_cant": "optimality over all lines", "anchors": ["csu_radartools/calc_kdp_ray_fir.pyx:LSE"]}
{"id": "C49", "title": "edges, missing gates and untouched outputs of the KDP filter", "statement": "The three outputs have the ray's length; with nfilter = 0 the filtered phase is the input; with nfilter >= 1 it is missing at the first and last order/2 gates and wherever the phase standard deviation exceeds the threshold; KDP is missing wherever reflectivity is missing, where the adaptive window leaves the ray or holds at most 80% valid filtered phases, and otherwise half the slope of the least-squares line through the valid filtered phases of the window.", "quantifier": "every ray of every length, every filter order and nfilter", "why_tests_cant": "induction over passes and gates", "anchors": ["csu_radartools/calc_kdp_ray_fir.pyx:calc_kdp_ray_fir"]}
{"id": "C50", "title": "Cython FIR filter reads past the coefficient array", "statement": "The Cython build reads coefficient index order+1 of an array of order+1 coefficients at every gate it filters (a 1-based index carried over from Fortran): its filtered phase depends on one element of memory outside the array and never on coefficient 0; the Fortran build applies coefficients 0..order and reads nothing else. One pass over a ray without missing gates is exactly the dot product of those weights with the window, times the gain.", "quantifier": "every ray with at least one filtered gate, every memory content", "why_tests_cant": "out-of-bounds reads are usually silent in tests", "anchors": ["csu_radartools/calc_kdp_ray_fir.pyx:calc_kdp_ray_fir", "csu_radartools/calc_kdp_ray_fir.f:calc_kdp_ray_fir"]}
{"id": "C51", "title": "linear phase: exact in the Fortran build, biased in the Cython build", "statement": "On equally spaced gates with phase 2*K*r + c and no missing gate, one pass with symmetric coefficients of unit sum gives in the f2py build a filtered phase equal to the phase wherever it is filtered and KDP equal to K wherever there is a KDP (in particular where the adaptive window lies among filtered gates); in the Cython build KDP is K*(1 - coefficient 0 + the element behind the coefficients).", "quantifier": "every K, c, order, ray length, spacing, reflectivity, exact real arithmetic", "why_tests_cant": "end-to-end exactness over all rays", "anchors": ["csu_radartools/calc_kdp_ray_fir.f:calc_kdp_ray_fir"]}
{"id": "C52", "title": "work arrays of the KDP routine", "statement": "No write to the two 500-element work arrays is out of bounds for any ray without NaN reflectivity when the FIR order is at most 334 (Cython) or 332 (Fortran); for every larger even order there are rays on which it is. Within the limit the Fortran build always returns, and in exact arithmetic the Cython build returns finite outputs for every finite ray with distinct ranges.", "quantifier": "every ray of every length, every even order", "why_tests_cant": "needs a bound on a counter over all rays", "anchors": ["csu_radartools/calc_kdp_ray_fir.pyx:calc_kdp_ray_fir", "csu_radartools/csu_kdp.py:get_fir"]}
{"id": "C53", "title": "NaN reflectivity makes KDP depend on the previous gate", "statement": "At a gate with NaN reflectivity the adaptive window length is the one left over from an earlier gate, so two rays that agree on everything around that gate except an earlier gate's reflectivity class can differ in KDP there.", "quantifier": "witness, plus gate-locality for all rays without NaN", "why_tests_cant": "state leak only visible for particular histories", "anchors": ["csu_radartools/calc_kdp_ray_fir.pyx:calc_kdp_ray_fir"]}
{"id": "C54", "title": "calc_kdp_bringi dispatch", "statement": "calc_kdp_bringi returns None with a warning for missing inputs or mismatched dimensionality, (None, None, None) when window/gs truncates to an odd order, replaces an even std_gate by 11, and on 2-D input computes every ray independently of all others with the same parameters.", "quantifier": "every argument combination, every sweep", "why_tests_cant": "non-interference between rays, all combinations", "anchors": ["csu_radartools/csu_kdp.py:calc_kdp_bringi", "csu_radartools/csu_kdp.py:get_fir"]}
{"id": "C55", "title": "unit conversions are mutually inverse", "statement": "dbz2z/z2dbz, si2kmh/kmh2si, si2mph/mph2si, si2kts/kts2si, wavelength/frequency and pulse_length/pulse_duration are mutually inverse on their domains; dbz2z is strictly increasing and turns sums of dB into products.", "quantifier": "every real in the domain", "why_tests_cant": "continuum", "anchors": ["csu_radartools/common.py:dbz2z", "csu_radartools/common.py:z2dbz", "csu_radartools/common.py:si2kmh", "csu_radartools/common.py:si2mph", "csu_radartools/common.py:si2kts", "csu_radartools/fundamentals.py:frequency", "csu_radartools/fundamentals.py:wavelength", "csu_radartools/fundamentals.py:pulse_length", "csu_radartools/fundamentals.py:pulse_duration"]}
{"id": "C56", "title": "si2kts converts in the wrong direction", "statement": "si2kts multiplies by 0.51 and kts2si divides by 0.51, so si2kts(x) < x for every positive x whereas x m/s is about 1.94 x knots: each function computes (approximately) what the other one documents.", "quantifier": "every positive speed", "why_tests_cant": "documentation-level claim over all values", "anchors": ["csu_radartools/common.py:si2kts", "csu_radartools/common.py:kts2si"]}
{"id": "C57", "title": "the Doppler dilemma relation", "statement": "vmax(prf, wl) * rmax(prf) = c * wl / 8; doppler_dilemma maps each of vmax and rmax to the other and is an involution; vmax_dual with prf1 < prf2 is positive and above the Nyquist velocity of prf1, above that of prf2 exactly when prf2 < 2 prf1, swapping the PRFs negates it, and equal PRFs raise ZeroDivisionError for Python floats (inf for numpy).", "quantifier": "every PRF and wavelength (positive where stated)", "why_tests_cant": "continuum", "anchors": ["csu_radartools/fundamentals.py:vmax", "csu_radartools/fundamentals.py:rmax", "csu_radartools/fundamentals.py:doppler_dilemma", "csu_radartools/fundamentals.py:vmax_dual"]}
{"id": "C58", "title": "hdr and zdp piecewise definitions", "statement": "zdp is 10 log10(zh - zv) where zh > zv and NaN elsewhere, and raises ValueError for different lengths; hdr's reference is 27 for zdr <= 0, 19 zdr + 27 up to 1.74 and 60 above; it is not monotone: it drops by 0.06 at 1.74.", "quantifier": "every value, every length", "why_tests_cant": "continuum and break points", "anchors": ["csu_radartools/fundamentals.py:zdp", "csu_radartools/fundamentals.py:hdr"]}
{"id": "C59", "title": "beam blockage fraction", "statement": "For a > 0 and |terrain - beam_height| <= a the blockage fraction is in [0, 1], 0 at -a, 1/2 at 0, 1 at a, strictly increasing in terrain height, antisymmetric about 1/2 and invariant under a common change of unit and origin; for |y| > a the result is NaN (not 0 or 1), and a = 0 raises ZeroDivisionError for Python floats.", "quantifier": "every terrain/beam height in the domain", "why_tests_cant": "real analysis (monotonicity) over a continuum", "anchors": ["csu_radartools/fundamentals.py:beam_block_frac"]}
{"id": "C60", "title": "beam height geometry", "statement": "ray_height equals the antenna height at range 0, adds h0 exactly, is strictly increasing in range for elevations in [0, 90] and in elevation on [-90, 90], lies between h0 + r sin(elev) and h0 + r, and equals h0 + r at 90 degrees.", "quantifier": "every range >= 0, elevation in [0, 90], effective radius > 0", "why_tests_cant": "real analysis", "anchors": ["csu_radartools/fundamentals.py:ray_height"]}
{"id": "C61", "title": "reflectivity and range_correct always fail", "statement": "fundamentals.reflectivity and fundamentals.range_correct raise NameError on every input (they refer to names that do not exist), and vel_shift raises TypeError for scalars.", "quantifier": "every input", "why_tests_cant": "a claim about all inputs", "anchors": ["csu_radartools/fundamentals.py:reflectivity", "csu_radartools/fundamentals.py:range_correct", "csu_radartools/fundamentals.py:vel_shift"]}
{"id": "C62", "title": "class centres are classified as themselves", "statement": "With beta memberships and positive weights for dz and zdr, a gate where every variable taking part equals the table centre of a class is reported by csu_fhc_summer as that class, with score exactly 1, for both methods and all bands; with reflectivity alone a vertical-ice centre (class 6) is reported as a class numbered 3 or lower.", "quantifier": "every class, band, weights, method, set of extra variables and contents of the other gates", "why_tests_cant": "needs uniqueness of the maximum over all weights", "anchors": ["csu_radartools/csu_fhc.py:csu_fhc_summer", "csu_radartools/beta_functions.py:get_mbf_sets_summer"]}
{"id": "C63", "title": "winter hybrid cannot score the warm classes", "statement": "csu_fhc_winter(method contains 'hybrid', warm=True) with the default weights and any polarimetric variable returns NaN for both classes at every gate (all polarimetric weights of those classes are 0), although the documentation says 'hybrid preferred'.", "quantifier": "every field, band, temp_factor", "why_tests_cant": "universal over fields", "anchors": ["csu_radartools/csu_fhc_winter.py:csu_fhc_winter", "csu_radartools/csu_fhc_winter.py:DEFAULT_WEIGHTS"]}
{"id": "C64", "title": "melting-layer scores are weighted means", "statement": "csu_fhc_cold_newml1 (linear) returns for 'other' and 'wet snow' the weighted mean of the memberships of the supplied variables, a number in [0, 1], in an array of shape (2,) + shape of dz; any other n_types raises ValueError.", "quantifier": "every field without NaN, every non-negative weights with positive sum", "why_tests_cant": "universal over fields", "anchors": ["csu_radartools/csu_fhc_ml1.py:csu_fhc_cold_newml1"]}
{"id": "C65", "title": "run_winter needs ZDR or KDP", "statement": "run_winter called with dz, rho, heights and an expected level but neither zdr nor kdp raises UnboundLocalError, although the signature makes both optional: the warm and cold steps drop rho and are left without any polarimetric variable.", "quantifier": "every scan of any shape and values", "why_tests_cant": "must hold for every field content and option", "anchors": ["csu_radartools/csu_fhc.py:run_winter", "csu_radartools/csu_fhc_winter.py:_get_test_list"]}
{"id": "C66", "title": "vector thresholds need dtype float32", "statement": "calc_kdp_bringi documents that thsd may be a 1-D vector of thresholds; in the Cython build any vector that is not float32 (numpy's default is float64) raises ValueError, for every data; a float32 vector of equal values gives the scalar's result.", "quantifier": "every ray, vector and option", "why_tests_cant": "must hold for every content", "anchors": ["csu_radartools/csu_kdp.py:calc_kdp_bringi", "csu_radartools/calc_kdp_ray_fir.pyx:calc_kdp_ray_fir"]}
{"id": "C67", "title": "no KDP in heavy rain for filter orders 2, 6, 10", "statement": "In the Cython build, when the window is 2, 6 or 10 gates, KDP is missing at every gate of 45 dBZ or more whatever the phase: the KDP window loop drops its last gate, so it never holds more than 80% of the required gates. The Fortran build includes the last gate.", "quantifier": "every ray, nfilter, threshold", "why_tests_cant": "a universal negative", "anchors": ["csu_radartools/calc_kdp_ray_fir.pyx:calc_kdp_ray_fir", "csu_radartools/calc_kdp_ray_fir.f:calc_kdp_ray_fir"]}
{"id": "C68", "title": "negative odd std_gate", "statement": "A negative odd std_gate passes the 'must be odd' check and makes the Cython routine raise ZeroDivisionError on every non-empty ray.", "quantifier": "every ray and every negative odd std_gate", "why_tests_cant": "all values", "anchors": ["csu_radartools/csu_kdp.py:calc_kdp_bringi", "csu_radartools/calc_kdp_ray_fir.pyx:calc_kdp_ray_fir"]}
{"id": "C69", "title": "the radar equation is consistent", "statement": "power_return_target equals power_target re-radiated isotropically times ant_eff_area (p_t * a_e / (4 pi r^2)); power_target falls with r^2 and power_return_target with r^4; d dB more gain multiplies them by 10^(d/10) and its square.", "quantifier": "every power, gain, wavelength, cross section, non-zero range", "why_tests_cant": "continuum", "anchors": ["csu_radartools/fundamentals.py:power_target", "csu_radartools/fundamentals.py:power_return_target", "csu_radartools/fundamentals.py:ant_eff_area"]}
{"id": "C70", "title": "Gaussian and ideal sample volumes", "statement": "sample_vol_gauss = sample_vol_ideal / (2 ln 2), so it is smaller; the ideal volume is pi times the two half_power_radius values times half the pulse length.", "quantifier": "every range, beamwidths, pulse length", "why_tests_cant": "continuum", "anchors": ["csu_radartools/fundamentals.py:sample_vol_ideal", "csu_radartools/fundamentals.py:sample_vol_gauss", "csu_radartools/fundamentals.py:half_power_radius"]}
{"id": "C71", "title": "Rayleigh backscatter laws", "statement": "norm_xsec_bscatter_sphere = 4 K^2 alpha^4 with alpha = size_param = pi D / wl; xsec_bscatter_sphere is non-negative and scales with the sixth power of the diameter.", "quantifier": "every non-zero diameter and wavelength", "why_tests_cant": "continuum", "anchors": ["csu_radartools/fundamentals.py:xsec_bscatter_sphere", "csu_radartools/fundamentals.py:norm_xsec_bscatter_sphere", "csu_radartools/fundamentals.py:size_param"]}
{"id": "C72", "title": "thermal noise units", "statement": "units are matched ignoring case; 'W' gives k T B, 'dBm' gives 10 log10(k T B / 1 mW), which are the same power; any other unit string gives the single number NaN even for an array of bandwidths.", "quantifier": "every unit string, bandwidth, temperature", "why_tests_cant": "all strings", "anchors": ["csu_radartools/fundamentals.py:thermal_noise"]}
{"id": "C73", "title": "effective earth radius", "statement": "r_effective(0) is the earth radius; it decreases strictly with the refractivity gradient above -1/6371 per km, raises ZeroDivisionError there for Python floats and is negative below; its default (8476 km) is at least 16 km smaller than the 4/3 radius ray_height uses by default.", "quantifier": "every gradient", "why_tests_cant": "continuum and singularity", "anchors": ["csu_radartools/fundamentals.py:r_effective", "csu_radartools/fundamentals.py:r43"]}
{"id": "C74", "title": "Nyquist frequency and velocity agree", "statement": "radial_velocity(fmax(prf), wl) = vmax(prf, wl).", "quantifier": "every PRF and wavelength", "why_tests_cant": "continuum", "anchors": ["csu_radartools/fundamentals.py:radial_velocity", "csu_radartools/fundamentals.py:fmax", "csu_radartools/fundamentals.py:vmax"]}
{"id": "C75", "title": "array arguments of the two-argument functions", "statement": "antenna_gain, vmax, radial_velocity, cdr, ldr and zdr accept numbers and arrays: number/array and same-shape arrays give an elementwise result of that shape, and two 1-D arrays of different lengths (neither 1) raise ValueError.", "quantifier": "every shape, length and element", "why_tests_cant": "all lengths", "anchors": ["csu_radartools/fundamentals.py:antenna_gain", "csu_radartools/fundamentals.py:vmax", "csu_radartools/fundamentals.py:radial_velocity", "csu_radartools/fundamentals.py:cdr", "csu_radartools/fundamentals.py:ldr", "csu_radartools/fundamentals.py:zdr"]}
{"id": "C76", "title": "attenuation coefficients", "statement": "ext_coeff = abs_coeff + scat_coeff; for m = n - ik with n, k > 0 absorption is positive and scattering non-negative, the conjugate index gives the opposite absorption and the same scattering; a real index gives no absorption; absorption scales with D^3 and scattering with D^6; m^2 = -2 raises ZeroDivisionError.", "quantifier": "every diameter, wavelength, refractive index", "why_tests_cant": "continuum, complex division branches", "anchors": ["csu_radartools/fundamentals.py:abs_coeff", "csu_radartools/fundamentals.py:scat_coeff", "csu_radartools/fundamentals.py:ext_coeff", "csu_radartools/fundamentals.py:k_complex"]}
{"id": "C77", "title": "dB ratios", "statement": "antenna_gain, cdr, ldr and zdr compute the same function; zdr of two linear reflectivities is the difference of their dBZ values, zdr(dbz2z(x), dbz2z(y)) = x - y, and swapping the arguments negates it.", "quantifier": "every positive pair", "why_tests_cant": "continuum", "anchors": ["csu_radartools/fundamentals.py:antenna_gain", "csu_radartools/fundamentals.py:cdr", "csu_radartools/fundamentals.py:ldr", "csu_radartools/fundamentals.py:zdr"]}
{"id": "C78", "title": "the radar constant grows with losses", "statement": "radar_const equals its documented formula; adding x dB to either loss multiplies it by 10^(x/10) (a lossy radar gets a larger constant), to the gain by 10^(2x/10); it is inversely proportional to wavelength^2.", "quantifier": "every parameter (wavelength > 0)", "why_tests_cant": "continuum", "anchors": ["csu_radartools/fundamentals.py:radar_const"]}
{"id": "C79", "title": "Python KDP estimator: gates, gaps and edges", "statement": "_calc_kdp_ray returns KDP, filtered phase and standard deviation rays of the length of the range ray. After at least one pass, filtered phase and KDP are missing wherever the measured phase is missing, in the first half filter window and in the last half window plus one gate; KDP is missing wherever the filtered phase is. One pass gives a gate gain times the weighted sum of its window iff its phase is present and quiet and more than 80% of the filter order of the window is, gaps being replaced by the line fitted to the rest; gap filling for other gates has no effect. The standard deviation is the population standard deviation of the present phases among gates i-5..i+4 (ten gates, not eleven), else 100.", "quantifier": "every ray, threshold, filter and number of passes", "why_tests_cant": "unbounded rays and gap patterns; the in-place fill makes the passes look order dependent", "anchors": ["csu_radartools/csu_kdp.py:_calc_kdp_ray", "csu_radartools/csu_kdp.py:_quick_std", "csu_radartools/csu_kdp.py:_leastsqrs"]}
{"id": "C80", "title": "Python KDP estimator is exact on linear phase with gaps", "statement": "If the measured phase is 2 K r + c at equally spaced gates, any of them missing, then for symmetric coefficients of sum 1 and gain 1, any number of passes and any threshold, every filtered phase is missing or on the line and every KDP is missing or K; KDP is K where the adaptive window is complete.", "quantifier": "every line, gap pattern, filter order >= 4, number of passes and threshold", "why_tests_cant": "exponentially many gap patterns over a continuum of lines", "anchors": ["csu_radartools/csu_kdp.py:_calc_kdp_ray", "csu_radartools/csu_kdp.py:_fit_line_and_get_kdp", "csu_radartools/csu_kdp.py:_get_nadp_indices"]}
{"id": "C81", "title": "Python and compiled KDP estimators disagree", "statement": "On the same complete linear ray the Cython routine's KDP is the Python routine's times (1 - first coefficient + the number in memory behind the last coefficient). A phase jump at gate i+5 counts in the standard deviation of gate i in the compiled routine and not in the Python one.", "quantifier": "every linear ray; every ray with such a jump", "why_tests_cant": "relates two programs on all inputs and memory contents", "anchors": ["csu_radartools/csu_kdp.py:_calc_kdp_ray", "csu_radartools/calc_kdp_ray_fir.pyx:calc_kdp_ray_fir"]}
{"id": "C82", "title": "the Python KDP estimator is local, the compiled one is not", "statement": "In _calc_kdp_ray the filtered phase (KDP) of a gate depends only on the inputs within half a filter window per pass plus five gates (plus the adaptive window). In the compiled routine, both builds, one measured phase can change the filtered phase arbitrarily many gates away because filled gaps count as measured, and missing gates are given phases.", "quantifier": "every pair of rays that agree near the gate; witness for the compiled routine", "why_tests_cant": "a two-run property over all rays", "anchors": ["csu_radartools/csu_kdp.py:_calc_kdp_ray", "csu_radartools/calc_kdp_ray_fir.pyx:calc_kdp_ray_fir", "csu_radartools/calc_kdp_ray_fir.f:calc_kdp_ray_fir"]}
{"id": "C83", "title": "default rain rates, gate by gate, in plain numbers", "statement": "With the default arguments calc_blended_rain, csu_hidro_rain and calc_blended_rain_tropical compute, at every gate where Z, Zdr and Kdp are numbers, exactly the published decision tree with the published coefficients: thresholds 38 dBZ, 0.5 dB (0.25 dB tropical), 0.3 deg/km; R(Kdp)=40.5 Kdp^0.85; R(Kdp,Zdr)=90.8 Kdp^0.93 10^(-0.169 Zdr); R(Z,Zdr)=6.7e-3 Z^0.927 10^(-0.343 Zdr); R(Z)=(Z/300)^(1/1.4) with Z capped at 53 dBZ (Z of the rain part where the ice fraction is at least 0.1); and the tropical predefined coefficient sets.", "quantifier": "every array triple of one shape, every gate, every band name, both ice flags, every echo-type field", "why_tests_cant": "a wrong default coefficient shows only at gates of one branch; the formula must hold for every measurement triple", "anchors": ["csu_radartools/csu_blended_rain.py:calc_blended_rain", "csu_radartools/csu_blended_rain.py:csu_hidro_rain", "csu_radartools/csu_blended_rain_tropical.py:calc_blended_rain_tropical"]}
{"id": "C84", "title": "rain rates at gates with missing (NaN) measurements", "statement": "A NaN Kdp counts as below its threshold (the gate is treated as if Kdp were 0). A NaN Zdr in calc_blended_rain (S band) keeps R(Kdp) where Z and Kdp are high and otherwise gives method 5 with a NaN rate; in csu_hidro_rain it counts as below threshold. A NaN Z gives a NaN rate but still a method label. A NaN class gives no rain, method 0. Other bands ignore Zdr. calc_blended_rain_tropical behaves analogously.", "quantifier": "every array triple, every gate with the stated field missing", "why_tests_cant": "combinations of missing fields and branches; comparisons with NaN are silently false", "anchors": ["csu_radartools/csu_blended_rain.py:_get_blended_rain", "csu_radartools/csu_blended_rain.py:csu_hidro_rain", "csu_radartools/csu_blended_rain_tropical.py:calc_blended_rain_tropical"]}
{"id": "C85", "title": "the trapezoid helpers with arbitrary corners", "statement": "The four-corner temperature membership functions are the documented trapezoids whenever the rising corners are non-positive and the falling ones non-negative; with a positive first corner the rising ramp is shifted up by x1/(x2-x1) and may exceed the plateau. The two-corner functions rise over |x1|+|x2| or |x1+x2| rather than x2-x1, and corners symmetric about 0 divide by zero (NaN at the first corner, infinite elsewhere on the ramp).", "quantifier": "every temperature list and every ordered corner tuple", "why_tests_cant": "holds for every corner tuple; the defaults hide the sign dependence", "anchors": ["csu_radartools/csu_t_traps.py:t_trap_agg, t_trap_ldg, t_trap_hdg, t_trap_ha, t_trap_dz, t_trap_bd, t_trap_ws, t_trap_rain, t_trap_ic"]}
{"id": "C86", "title": "classifier scores with the default weights, in plain numbers", "statement": "With the default weights and the usual fields the scores are: summer hybrid (0.8 DR + KD + 0.8 RH)/2.6 x T x DZ; summer linear (0.8 DR + KD + 0.8 RH + 0.4 T + 1.5 DZ)/4.5; winter warm classes (DZ + 2 T)/3; winter cold classes (5 DZ + 9 DR + 11 KD)/25, the fourth (DZ + 2 DR + 2 KD)/5; melting layer (7 DR + 14 RH + 4 DZ)/25, and although Kdp then has weight 0 a NaN Kdp makes the score NaN.", "quantifier": "every field set of matching sizes, every gate, class, band and temp_factor > 0", "why_tests_cant": "must hold at every gate and class; a wrong default weight shifts scores slightly", "anchors": ["csu_radartools/csu_fhc.py:csu_fhc_summer", "csu_radartools/csu_fhc_winter.py:csu_fhc_winter", "csu_radartools/csu_fhc_ml1.py:csu_fhc_cold_newml1"]}
{"id": "C87", "title": "the Python KDP filter requests exactly one low-pass design", "statement": "For every even positive filter order n = int(window*1000/gs) calc_kdp_bringi asks scipy for exactly one low-pass design, firwin(n + 1, 1.6/n, gaussian width 1.4 n), and nothing else of window or gs reaches the result (so scaling both by the same factor changes nothing). The request is in firwin's domain (odd taps >= 3, 0 < cutoff <= 0.8). The defaults (150 m gates, 3 km window) request 21 taps, cutoff 0.08, width 28; order zero does not give a design.", "quantifier": "every window length and gate spacing, every firwin implementation", "why_tests_cant": "must hold for every window/gate-spacing combination", "anchors": ["csu_radartools/csu_kdp.py:get_fir, calc_kdp_bringi"]}
{"id": "C88", "title": "every radar-fundamentals function is its documented formula", "statement": "Inside its documented domain every function of fundamentals.py returns, in exact arithmetic, the textbook expression of its docstring: wavelength/frequency, pulse length/duration, antenna gain and effective area, power at and back from a target, backscatter cross sections, size parameter, radar constant, Nyquist, unambiguous range, Doppler dilemma, dual-PRF Nyquist, effective earth radius, half-power radius, ray height, sample volumes, beam blockage, CDR/LDR/ZDR/dBZ and the absorption, scattering and extinction coefficients.", "quantifier": "all real arguments in the domain of the formula", "why_tests_cant": "a formula must match at every argument", "anchors": ["csu_radartools/fundamentals.py"]}
{"id": "C89", "title": "IEEE: rain rates and water/ice masses are never negative", "statement": "In IEEE-754 arithmetic (round to nearest, overflow, underflow, NaN and infinities included), with any pow that keeps the sign bit clear for arguments with a clear sign bit, no rain rate returned by calc_rain_nexrad, calc_blended_rain, csu_hidro_rain or calc_blended_rain_tropical with positive coefficients compares below zero, and no mass returned by calc_liquid_ice_mass does, for arrays and for numbers.", "quantifier": "every input array of doubles (including NaN, infinities, subnormals), every coefficient setting with positive factors, every C library meeting the sign rule, both NumPy promotion rules", "why_tests_cant": "the sign must survive rounding for every bit pattern of the inputs", "anchors": ["csu_radartools/csu_blended_rain.py", "csu_radartools/csu_blended_rain_tropical.py", "csu_radartools/csu_liquid_ice_mass.py:calc_liquid_ice_mass"]}
{"id": "C90", "title": "IEEE: the membership functions and HID scores under rounding", "statement": "In IEEE-754 arithmetic the membership (beta) functions return values in [0,1] (or NaN); the winter and melting-layer scores and, with NumPy before 2.0, the summer scores with default weights stay in [0,1] at every gate without NaN; with NumPy 2 the summer scores stay below 1 + 2^-24, and the source comment that the scores never exceed 1 is false there. Scores with non-negative weights are never negative and the classifiers return (no exception) for every field of the right shape.", "quantifier": "every field value (bit pattern), every subset of supplied variables, every C library meeting the stated pow rules, NumPy before and after 2.0", "why_tests_cant": "the rounding of the weighted mean must be bounded for every input and every subset of variables", "anchors": ["csu_radartools/csu_fhc.py:csu_fhc_summer, csu_fhc_winter, csu_fhc_melt, hid_beta_f", "csu_radartools/beta_functions.py"]}
{"id": "C91", "title": "IEEE: the compiled KDP routine in single precision", "statement": "The phase standard deviation returned by the compiled KDP routine never compares below zero, whatever the phases and whichever build. The line fit, exact in real arithmetic (KDP 0.5 deg/km for a phase rising 1 deg/km, at any range), is not accurate in its single-precision accumulators: for an exactly linear phase with 62.5 m gates it returns more than 0.649 deg/km at 206 km and more than 1.59 deg/km at 341 km, and raises ZeroDivisionError at 419 km although all ranges are distinct.", "quantifier": "every phase array (bit pattern) for the sign; every coefficient array, threshold array and uninitialised memory for the counterexamples", "why_tests_cant": "sign claim ranges over all inputs; the counterexamples are proved independent of the memory content the routine reads", "anchors": ["csu_radartools/calc_kdp_ray_fir.pyx:LSE, calc_kdp_ray_fir"]}
{"id": "C92", "title": "plot_flag writes one membership plot per species and leaves the result alone", "statement": "With temperature in use and n_types at most the number of classes in the shipped tables (10 summer, 6 winter, 2 melting layer), plot_flag=True writes exactly n_types files, <pdir><species>_beta_<band>.png in species order, each with six panels whose curves are the membership functions the classifier uses for that class sampled on fixed axes (all NaN for RHOHV and LDR in winter), and the call returns exactly what it returns with plot_flag=False. Without temperature it raises TypeError before writing anything; with too many species (csu_fhc_winter's default n_types=7) it writes one file per class and raises IndexError. plot_flag=False writes nothing.", "quantifier": "every season, band, temp_factor, directory, n_types, input fields, weights, method; every class and grid point for the curves", "why_tests_cant": "ranges over all parameters and all 12 805 grid points of every curve, and over the files left behind when the call fails half way", "anchors": ["csu_radartools/beta_functions.py:plot_beta_functions, _get_beta_example, get_mbf_sets_summer, get_mbf_sets_winter, get_mbf_sets_winterML", "csu_radartools/csu_fhc.py:csu_fhc_summer", "csu_radartools/csu_fhc_winter.py:csu_fhc_winter", "csu_radartools/csu_fhc_ml1.py:csu_fhc_cold_newml1"]}
{"id": "C93", "title": "plots of different seasons overwrite each other", "statement": "The plot files are named by summer species, band and directory only. So a second plotting run for the same band into the same directory with at least as many species replaces every file of the first, whichever season or temp_factor either was for; files of different species or different bands never have the same name and survive.", "quantifier": "every initial directory content, every pair of runs (seasons, temp_factors, numbers of species), every directory name", "why_tests_cant": "ranges over histories of runs and over all directory contents and names", "anchors": ["csu_radartools/beta_functions.py:plot_beta_functions"]}
{"id": "C94", "title": "unit conversions in floating point: inverse up to rounding, not exactly", "statement": "In IEEE double precision, converting wind speeds m/s <-> km/h, mph, knots, pulse length <-> duration and wavelength <-> frequency there and back returns the number to within a relative 2^-49 (1.8e-15) for every double of ordinary magnitude (zero or between e^-300 and e^300), each single conversion is right to the same accuracy, and NaN and infinities survive the wind round trips; the round trips are not the identity (15 km/h, 3 m/s via mph, 63 m/s via knots and a 27 m wavelength do not come back).", "quantifier": "every binary64 input of ordinary magnitude; both directions of each pair of conversions", "why_tests_cant": "about 2^63 inputs per function; the accuracy bound must hold for each one", "anchors": ["csu_radartools/common.py:si2kmh, si2mph, si2kts, kmh2si, mph2si, kts2si", "csu_radartools/fundamentals.py:pulse_length, pulse_duration, frequency, wavelength"]}
{"id": "C95", "title": "default rain rates are accurate to 13 digits in double precision", "statement": "With the default keywords and a C library whose pow is within one unit in the last place, calc_rain_nexrad, calc_blended_rain, csu_hidro_rain and calc_blended_rain_tropical (each band's coefficients) computed in IEEE double precision return at every gate the method code of the exact-arithmetic decision tree and a rain rate within a relative 1e-13 of the exact formula; a Kdp typed as 0.3 counts as reaching the 0.3 threshold although the stored double is smaller. At S band calc_blended_rain's ice test is a rounded comparison: given its outcome the code is exact, and the rate is accurate for methods 1-4.", "quantifier": "every array shape and gate; every double reflectivity up to 100 dBZ and Zdr up to 20 dB in magnitude (zero or above e^-300), every double Kdp up to 100 deg/km; every band; every classification and echo map value", "why_tests_cant": "about 2^190 input triples; worst-case rounding error cannot be sampled", "anchors": ["csu_radartools/csu_blended_rain.py:calc_blended_rain, csu_hidro_rain, calc_rain_nexrad, calc_rain_kdp, calc_rain_kdp_zdr, calc_rain_z_zdr", "csu_radartools/csu_blended_rain_tropical.py:calc_blended_rain_tropical"]}
{"id": "C96", "title": "verbose changes only what is printed, except that it can make run_winter raise", "statement": "Whatever run_winter returns with verbose=True it also returns with verbose=False. PPI scans, and SciPy before 1.11 (where stats.mode of a 1-D array is an array), lose nothing by verbose unless the scan is empty (ValueError from the maximum of the scores). With SciPy 1.11 or later, an RHI or gridded scan called with the default verbose=True raises IndexError exactly when the melting level would be computed from the data (more than 10 wet-snow gates, within 1.5 km of expected_ML if given); otherwise the result is that of the quiet call.", "quantifier": "every scan, option value, expected level and SciPy version", "why_tests_cant": "the raising condition depends on how many gates of the input are classified as wet snow near the expected level; a test scan with few of them passes", "anchors": ["csu_radartools/csu_fhc.py:run_winter", "csu_radartools/csu_fhc_melt.py:get_ml_rhi", "csu_radartools/csu_fhc_melt.py:melting_layer"]}
{"id": "C97", "title": "one number for zdr with arrays of dz and kdp", "statement": "A numpy number for zdr acts like the array holding it at every gate. A Python number does not: at S band calc_blended_rain and csu_hidro_rain then behave as if the number did not reach thresh_zdr (methods 1 and 3 never occur), because ~ of a Python bool is a non-zero integer; calc_blended_rain_tropical turns every gate of method 1 into method 2 with the R(Kdp) rate and leaves all others alone; other bands are unaffected. With predef='True' at S band any number for zdr is a TypeError.", "quantifier": "every dz, kdp, class and cs field, every number, every option", "why_tests_cant": "agreement of two calls for all fields and options", "anchors": ["csu_radartools/csu_blended_rain.py:calc_blended_rain", "csu_radartools/csu_blended_rain.py:csu_hidro_rain", "csu_radartools/csu_blended_rain_tropical.py:calc_blended_rain_tropical"]}
{"id": "C98", "title": "the 80 per cent rule is exact in floating point", "statement": "The KDP routines require more than (the Python estimator's fit: at least) 80 per cent valid gates by comparing the count n with 0.8 * k in floating point. Although 0.8 is not a floating-point number, the comparison n > 0.8 * k holds exactly when 5 n > 4 k and n >= 0.8 * k exactly when 5 n >= 4 k, also at the ties (16 of 20).", "quantifier": "all window sizes k and counts n below 2^49 (double precision: Cython build, Python estimator) or 2^20 (single precision: Fortran build), any C library", "why_tests_cant": "a wrong rounding shows only at ties for particular window sizes; no test enumerates all of them", "anchors": ["csu_radartools/calc_kdp_ray_fir.pyx: calc_kdp_ray_fir", "csu_radartools/calc_kdp_ray_fir.f: calc_kdp_ray_fir", "csu_radartools/csu_kdp.py: _calc_kdp_ray"]}
{"id": "C99", "title": "the hydrometeor scores and classes are accurate in the arithmetic that runs", "statement": "With measurements and memberships in single precision and weights and powers in double, every score of csu_fhc_summer, csu_fhc_winter and csu_fhc_cold_newml1 is within 1/2000 of the documented formula at the same measurements; hence csu_fhc_summer returns class c at every gate where the exact score of c leads all others by more than 1/1000.", "quantifier": "all arrays and gates with finite measurements up to 1e30, all bands, both methods, NumPy 1 and 2 promotion, all weights zero or between 1e-20 and 1e20, temp_factor 1, any C library whose pow is accurate to one ulp and sane at the extremes", "why_tests_cant": "rounding errors depend on every bit of the measurements; the memberships have exponents up to 30 that amplify them, and no test samples the worst case", "anchors": ["csu_radartools/beta_functions.py: hid_beta", "csu_radartools/csu_fhc.py: csu_fhc_summer", "csu_radartools/csu_fhc_winter.py: csu_fhc_winter", "csu_radartools/csu_fhc_ml1.py: csu_fhc_cold_newml1"]}
{"id": "C100", "title": "what the classifiers make of the weights", "statement": "csu_fhc_summer, csu_fhc_winter and csu_fhc_cold_newml1 read the weights of exactly the variables of the method (hybrid: Zdr, Kdp, LDR, rhohv; linear: also dBZ and T): two dictionaries that agree on them give the same result, one that lacks a variable of the method raises KeyError even when that variable was not measured, and for winter and melting layer numbers in place of sequences raise TypeError and sequences shorter than 6 (2) raise IndexError whatever number of classes is scored. Weights are relative: multiplying all of them by the same positive number changes no score; the finite weight of a variable that was not measured changes no score, but a non-finite one makes every score NaN; with use_trap in the linear method weights are not relative.", "quantifier": "all weight dictionaries, methods, fields, bands, temperature settings; scaling factors any positive real; scaling and absent weights in exact arithmetic with NaN and infinities", "why_tests_cant": "a dictionary can lack any subset of keys, hold sequences of any length, and scale by any factor; a test tries a few", "anchors": ["csu_radartools/csu_fhc.py: csu_fhc_summer, _get_weight_sum, _calculate_test", "csu_radartools/csu_fhc_winter.py: csu_fhc_winter", "csu_radartools/csu_fhc_ml1.py: csu_fhc_cold_newml1"]}
{"id": "C101", "title": "measurements closer to the centre of a class score higher", "statement": "When every measured variable is at least as close to the centre of a class as at another gate (same call or another call with the same settings), the score of that class is at least as high, and strictly higher if a variable that counts is strictly closer (csu_fhc_summer with method hybrid or linear, csu_fhc_winter and csu_fhc_cold_newml1 with method linear). A gate that moves towards the centre of its class and not towards any other centre keeps its class. In the hybrid method reflectivity and temperature each cap the score; in the linear method the score lies between the smallest and largest membership.", "quantifier": "all pairs of calls with the same settings, all gates with finite measurements, all bands, positive temp_factor, non-negative weights not all zero", "why_tests_cant": "monotonicity relates every pair of inputs; a test compares a few", "anchors": ["csu_radartools/csu_fhc.py: csu_fhc_summer", "csu_radartools/csu_fhc_winter.py: csu_fhc_winter", "csu_radartools/csu_fhc_ml1.py: csu_fhc_cold_newml1"]}
{"id": "C102", "title": "KDP follows a change of phase or range units", "statement": "Exact arithmetic, Cython build of the compiled filter: map every phase v of a ray to s*v+c (the missing value and the standard-deviation threshold with it, the threshold by |s|) and every range r to lam*r+rho, with s and lam non-zero. calc_kdp_bringi then returns the same missing gates, filtered phases mapped the same way, standard deviations multiplied by |s| (or 100, the value for too few gates), and KDP multiplied by s/lam. An offset c other than 0 is allowed only if the weights the Cython build applies (it skips the first coefficient and reads one element behind the last) sum to 1; a ray of constant phase shows that otherwise an offset alone makes KDP non-zero, in the Cython build and not in the Fortran one.", "quantifier": "all rays, masks of missing gates, filter coefficients, numbers of filter passes, memory contents, and all affine changes of phase and range", "why_tests_cant": "it relates the outputs of two runs for every ray and every change of units", "anchors": ["csu_radartools/csu_kdp.py: calc_kdp_bringi", "csu_radartools/calc_kdp_ray_fir.pyx: calc_kdp_ray_fir"]}
{"id": "C103", "title": "symmetries of despeckle, the freezing altitude and the melting level", "statement": "despeckle: reversing a ray reverses its mask; only the pattern of missing gates and ngates matter; what lies on one side of a missing gate does not influence the other side. get_freezing_altitude (levels at distinct heights, two temperatures at least): the order of the levels does not matter, and in other height units and origin (a*z+b, a>0) and temperature units (k*T, k>0) the answer is the same level in the new units. melting_layer and run_winter on RHI and gridded scans: heights and expected level counted from another origin give the same maps and the same level in the new heights. On PPI scans this fails, because a sector without a melting level gets the level 0.", "quantifier": "all rays, all soundings, all scans, all changes of origin and units", "why_tests_cant": "relates pairs of runs over every input and every change of units", "anchors": ["csu_radartools/csu_misc.py: despeckle", "csu_radartools/csu_liquid_ice_mass.py: get_freezing_altitude", "csu_radartools/csu_fhc_melt.py: melting_layer, get_ml_rhi, get_ml_ppi", "csu_radartools/csu_fhc.py: run_winter"]}
{"id": "C104", "title": "accuracy of the default rain rates for float32 fields", "statement": "Given float32 fields (Z up to 100 dBZ, |Zdr| up to 20 dB, Kdp up to 100 deg/km, nonzero values above 1e-26), calc_rain_nexrad, calc_blended_rain, csu_hidro_rain and calc_blended_rain_tropical (C and X band, or default keywords) with default coefficients choose at every gate the method exact arithmetic chooses (at S band up to the rounded ice-fraction test), and the float32 rate they store differs from the formula's value by at most one part in 10^4. A Kdp stored as the float32 nearest 0.3 counts as 0.3.", "quantifier": "all float32 fields of those sizes, all shapes, all gates, every C library whose pow is accurate to 1 ulp (double) and 4 ulp (single)", "why_tests_cant": "2^32 values per field, and the rounding of every literal to single precision; it must hold for every libm", "anchors": ["csu_radartools/common.py: calc_rain_zr, calc_rain_nexrad, calc_rain_kdp, calc_rain_kdp_zdr, calc_rain_z_zdr", "csu_radartools/csu_blended_rain.py: calc_blended_rain, csu_hidro_rain", "csu_radartools/csu_blended_rain_tropical.py: calc_blended_rain_tropical"]}
{"id": "C105", "title": "what the S-band ice test of calc_blended_rain lets through", "statement": "calc_blended_rain(dz, zdr, kdp) at S band with default keywords treats a gate (Z > -100 dBZ) as free of ice exactly when 1 - 10^(-Zdr/10) exceeds 10^((0.0909 Z + 10 log10 0.9 - 8.5091)/9.091): raising Zdr or lowering Z never turns a free gate into an icy one. Methods 1, 3 and 4 occur only at free gates and method 5 only at icy ones; R(Kdp) (method 2) needs Z >= 38 and Kdp >= 0.3; the plain Z-R relation (method 4) never occurs at a gate of 3 dBZ or more. A gate whose Zdr is zero, negative or a fill value such as -32768 gets R(Kdp) if Z >= 38 and Kdp >= 0.3, and otherwise at most 1e-8 mm/h (method 5), although any other band letter reports at least 1 mm/h for the same gate when Z >= 30 dBZ.", "quantifier": "every shape of the three fields and every finite Z > -100, Zdr and Kdp at every gate", "why_tests_cant": "the claim is about a curve in the (Z, Zdr) plane and the absence of a method over a half plane; a test samples points", "anchors": ["csu_radartools/csu_blended_rain.py:calc_blended_rain", "csu_radartools/csu_liquid_ice_mass.py:get_linear_fits", "csu_radartools/csu_liquid_ice_mass.py:calc_zdp"]}
{"id": "C106", "title": "how the retrieved drop diameter and concentration move with Zdr and Z", "statement": "calc_dsd at S band with method '2013': from Zdr = -0.26 dB up, a larger Zdr gives a larger d0 and, at the same or smaller Z, a smaller Nw; below -0.29 dB the diameter grows again as Zdr falls (over 20 mm from -3 dB down, fill values such as -32768 included); d0 always exceeds 0.81 mm; raising Z by 10t dB at the same Zdr multiplies Nw by 10^t. At C band, from -0.5 dB up, d0 exceeds 0.59 mm and grows with Zdr on each side of 1.25 dB, with the same two statements about Nw; across 1.25 dB it can fall, by less than 0.0004 mm, and does (1.2501 dB gets less than 1.25 dB).", "quantifier": "every field size and every pair of gates with finite Z, Zdr, whatever Kdp, the dtypes and (at C band) the method string", "why_tests_cant": "monotonicity and lower bounds over a continuum of Zdr and Z values; tests sample a few", "anchors": ["csu_radartools/csu_dsd.py:calc_dsd", "csu_radartools/csu_dsd.py:calc_dsd_sband_bringi_2013", "csu_radartools/csu_dsd.py:calc_dsd_cband_bringi_2009", "csu_radartools/csu_dsd.py:d0_low_zdr", "csu_radartools/csu_dsd.py:d0_high_zdr"]}
{"id": "C107", "title": "fields of different shapes are refused, ignored or raveled, never mixed up", "statement": "When two fields that are combined have shapes NumPy cannot broadcast, calc_blended_rain (dz with kdp at every band, either with zdr at S band only), csu_hidro_rain (the same, and fhc), calc_blended_rain_tropical (all three at every band, and cs), calc_dsd 2004, insect_filter and differential_phase_filter raise ValueError; calc_blended_rain_tropical's fhc and calc_dsd 2013/C band's zdr raise IndexError unless their shape is the beginning of dz's. At other bands zdr's shape and values are irrelevant to the rain rates, and kdp's to calc_dsd 2013/C band. calc_liquid_ice_mass only looks at the number of elements: reshaping zdr, z or T changes nothing, and another number of elements raises ValueError once the freezing level is known. get_freezing_altitude raises IndexError when there are fewer temperatures than heights, but accepts more, and then overlooks exact zeros.", "quantifier": "all shapes, contents, bands, coefficients and float semantics", "why_tests_cant": "ranges over all pairs of shapes and all option combinations; the suite has no shape test at all", "anchors": ["csu_radartools/csu_blended_rain.py:calc_blended_rain", "csu_radartools/csu_blended_rain.py:csu_hidro_rain", "csu_radartools/csu_blended_rain_tropical.py:calc_blended_rain_tropical", "csu_radartools/csu_dsd.py:calc_dsd", "csu_radartools/csu_liquid_ice_mass.py:calc_liquid_ice_mass", "csu_radartools/csu_liquid_ice_mass.py:get_freezing_altitude", "csu_radartools/csu_misc.py:insect_filter", "csu_radartools/csu_misc.py:differential_phase_filter"]}
{"id": "C108", "title": "a reflectivity fill value is classified as drizzle or graupel", "statement": "csu_fhc_summer (hybrid method, no trapezoids, any weights of ordinary size, either NumPy) has no notion of a missing measurement. At a gate whose reflectivity is a fill value with |dz| >= 9000 (such as -9999 or -32768) the returned class is 1 (drizzle) or 8 (high-density graupel), at X band also 9 (hail), whatever the other measurements are; if reflectivity is the only field supplied and |dz| <= 40000 it is never 1, so -9999 and -32768 are labelled graupel; with |dz| >= 10^6 it is always 1.", "quantifier": "all gates, all other (finite) measurements, all three bands, both NumPy promotion rules, every C library whose pow is accurate to one unit in the last place", "why_tests_cant": "the class depends on which of ten single-precision underflows happen for every combination of the other fields; a test sees a few combinations", "anchors": ["csu_radartools/csu_fhc.py:csu_fhc_summer", "csu_radartools/csu_fhc.py:_get_test_list", "csu_radartools/calc_kdp_ray_fir.pyx:hid_beta_f", "csu_radartools/beta_function_parameters/S-band_Reflectivity.csv"]}
{"id": "C109", "title": "A gate with fill values in every field: the class depends on the NumPy version", "statement": "csu_fhc_summer with method hybrid and the default weights, IEEE arithmetic. If at a gate the reflectivity and every polarimetric field supplied are 9000 or more in absolute value (30000 at X band), e.g. -9999 or -32768, then under NumPy 1 the class is 1 (drizzle), because every score rounds to zero in single precision; the temperature may be anything. Under NumPy 2 the same gate is classified as high-density graupel (8; at X band 8 or 9) whenever the reflectivity lies between 9000 and 40000 in absolute value, KDP is supplied and not beyond 40000 and the temperature is unused or not beyond 40000, because the product of memberships is no longer rounded to single precision.", "quantifier": "every call with any shapes, any choice of supplied fields, any method containing hybrid, every gate, every value of the measurements in the stated ranges, any C library pow meeting the accuracy contract, both NumPy promotion rules", "why_tests_cant": "A test sees one installed NumPy and a few fill values; the claim ranges over all values beyond the bound, all combinations of fields and both promotion rules, and depends on underflow of products of rounded memberships.", "anchors": ["csu_radartools/csu_fhc.py:csu_fhc_summer", "csu_radartools/csu_fhc.py:_calculate_test", "csu_radartools/csu_fhc.py:_get_test_list", "csu_radartools/calc_kdp_ray_fir.pyx:hid_beta_f", "csu_radartools/beta_function_parameters/X-band_Correlation_Coefficient.csv"]}
{"id": "C110", "title": "Rain rates and masses at gates marked missing", "statement": "At a gate whose reflectivity holds a fill value (any double at or below -9000): the NEXRAD relation, calc_blended_rain outside S band (method 4) and csu_hidro_rain at gates classified as rain (S band) or at any gate (other bands) return a rain rate of exactly 0. At S band calc_blended_rain returns rate 0 with method 3 or 4 by Zdr when Zdr is a number within 100 dB, but when Zdr is a fill value too the ice test computes 0/0, the gate gets method 5 and the rate is NaN, although exact arithmetic would say method 4. calc_liquid_ice_mass returns 0 for both masses when both fields are missing; when reflectivity alone is missing the ice mass is 0 and the liquid mass is NaN for Zdr >= 0 and 0 for Zdr < 0.", "quantifier": "all double-precision arrays, all fill values at or below -9000, all other gates, every keyword set of usual size (the defaults included), any C library with the stated edge behaviour", "why_tests_cant": "the outcome hinges on underflow and on 0/0 in the rounded arithmetic, for every fill value, array and option set; the same call in exact arithmetic takes another branch", "anchors": ["csu_radartools/csu_blended_rain.py: calc_blended_rain, csu_hidro_rain", "csu_radartools/common.py: calc_rain_nexrad", "csu_radartools/csu_liquid_ice_mass.py: calc_liquid_ice_mass, calc_zh_zv, calc_zdp"]}
{"id": "C111", "title": "masked gates are echo to despeckle and drop out of the other filters", "statement": "On numpy masked arrays (what Py-ART hands out): despeckle returns, with nothing masked, the answer for the array whose masked gates hold any value other than bad, so masked gates count as echo, bridge runs, a wholly masked ray longer than ngates is kept everywhere, and values under the mask have no influence. second_trip_filter_magnetron never flags a masked gate, even if bad lies under the mask, and keeps the mask. insect_filter's result is masked exactly where dz or zdr is; its data flags an unmasked bad value, never a masked one, and flags by the values under the mask where these fall in an interval above its threshold. differential_phase_filter compares the values under the mask and keeps the mask; calc_rain_nexrad returns the plain array of rates of the values under the mask.", "quantifier": "every masked array of every shape, every mask, any floating-point semantics", "why_tests_cant": "the claim is for all data and mask contents; numpy.ma operators differ in what they leave under the mask, so behaviour on a few samples does not show which values are read", "anchors": ["csu_radartools/csu_misc.py:insect_filter", "csu_radartools/csu_misc.py:second_trip_filter_magnetron", "csu_radartools/csu_misc.py:differential_phase_filter", "csu_radartools/csu_misc.py:despeckle", "csu_radartools/common.py:calc_rain_nexrad"]}
{"id": "C112", "title": "the radar equations in double precision", "statement": "In IEEE double precision with a C library whose pow, log, sin are good to one and log10 to two units in the last place, for inputs between 1e-10 and 1e10 (gains and losses within 100 dB): the radar constant is its formula to a relative 2^-45, the effective area, power and cross-section formulas to 2^-46 or better, the Doppler, pulse and range relations to 2^-51, the beam volumes to 2^-48; dB ratios (antenna gain, ZDR, LDR, CDR, dBZ) are right to 2^-50 (1 + |value|) dB and the noise level in dBm to 2^-48 (1 + |value|); the ray height (elevations 0 to 90 degrees), whose last step cancels against the earth's radius, is right to 2^-49 of the sum of range, effective radius and altitude, which is under 0.02 micrometres out to 1000 km with the default radius. None of them overflows or underflows.", "quantifier": "every binary64 value of every argument in the stated ranges; every C library of the stated accuracy", "why_tests_cant": "up to 2^500 combinations of inputs; the bound must hold for the worst rounding of each operation", "anchors": ["csu_radartools/fundamentals.py:radar_const, ant_eff_area, power_target, power_return_target, xsec_bscatter_sphere, norm_xsec_bscatter_sphere, size_param, thermal_noise, frequency, wavelength, pulse_length, pulse_duration, fmax, vmax, rmax, doppler_dilemma, radial_velocity, half_power_radius, sample_vol_ideal, sample_vol_gauss, antenna_gain, cdr, ldr, zdr, ray_height", "csu_radartools/common.py:dbz2z, z2dbz"]}
{"id": "C113", "title": "Liquid and ice masses and the S-band ice test in double precision", "statement": "calc_liquid_ice_mass in double precision gives the partition of exact arithmetic: at every gate with |dBZ| <= 100, 0.01 <= |Zdr| <= 20 dB, height and freezing level within 1000, for the default rain line or any caller's line of usual size, when the reflectivity excess misses its height-dependent threshold by at least 1e-9 dB the ice mass is exactly 0 and, for Zdr > 0, the liquid mass is the all-rain mass to 12 digits; when it clears the threshold by at least 1e-9 dB the ice mass is right to 9 digits and, for Zdr > 0 and an excess up to 60 dB, the liquid mass is right to 1e-9 times the factor 10^(excess/10); for Zdr < 0 the liquid mass is exactly 0. calc_blended_rain at S band with default keywords chooses the method of exact arithmetic at every gate whose ice fraction is at least 1e-9 away from 0.1 and |Zdr| >= 0.01, and its rate is right to 13 digits for methods 1 to 4 and to 9 digits for method 5.", "quantifier": "all double-precision arrays of matching sizes, all gates in the stated ranges, all rain lines of usual size, any C library accurate to an ulp or two", "why_tests_cant": "a rounding bound through the cancellation Zh - Zv, a logarithm and two powers has to hold for every double, and decisions near a boundary cannot be sampled exhaustively", "anchors": ["csu_radartools/csu_liquid_ice_mass.py: calc_liquid_ice_mass, calc_zh_zv, calc_zdp", "csu_radartools/csu_blended_rain.py: calc_blended_rain, get_linear_fits"]}
{"id": "C114", "title": "Drop-size retrievals in double precision", "statement": "calc_dsd in double precision is accurate: with the default S-band method, at every gate with |dBZ| <= 100 and |Zdr| <= 10 dB (negative Zdr included), D0 equals the 2013 polynomial of Zdr to 10 digits, Nw equals 19.76 Z / D0^7.46 to 9 digits and mu is exactly 3, with no exception at the branch point Zdr = 1. At C band, for every method argument, the same holds of the 2009 polynomials and Nw = Z / (0.056 D0^7.319) when Zdr >= -0.5; when Zdr < -0.5 D0 is exactly 0 and Nw is plus infinity. With any other S-band method argument the 2004 scheme is served, and at every such gate whose Zdr and Kdp are 1e-9 away from the inexact branch points 0.2 and 0.3: below Kdp 0.3, D0 is the method-2, method-3 or method-4 diameter (to 12, 9 and 12 digits) as Zdr selects, Nw follows from it to 8 digits or better and mu is exactly 3; gates no method serves are exactly zero; at Kdp above 0.3 with dBZ >= 35 and Zdr > 0.2, D0 and Nw of method 1 are accurate to 11 and 9 digits and mu to 10 digits of the sum of the two terms it subtracts, for beta between 0.01 and 10.", "quantifier": "all double-precision arrays with reflectivity and Zdr of one shape, any Kdp array, all gates in the stated ranges, any C library whose pow is accurate to an ulp", "why_tests_cant": "a rounding bound through a quartic with cancelling terms and a power near 7.5 has to hold for every pair of doubles, and the branch decisions at 1, 1.25 and -0.5 must agree with exact arithmetic for every double", "anchors": ["csu_radartools/csu_dsd.py: calc_dsd, calc_dsd_sband_bringi_2013, calc_dsd_cband_bringi_2009, power_law, d0_low_zdr, d0_high_zdr", "csu_radartools/csu_dsd.py: calc_dsd_sband_bringi_2004, dsd_sband_method1, dsd_sband_method2, dsd_sband_method3, dsd_sband_method4, calc_beta"]}
{"id": "C115", "title": "Trapezoid temperature memberships in double precision", "statement": "get_hid_traps in double precision returns, for each of the ten classes and every array of temperatures, a finite number within 1e-12 of the documented piecewise-linear membership of each gate's temperature, with no exception at the break points or jumps (the comparisons with the corners agree with exact arithmetic); infinite temperatures get the outermost plateau, NaN gets exactly 0, and no membership leaves [-1, 1] by more than 1e-12.", "quantifier": "all class numbers 0 to 9, all arrays of double-precision temperatures (any size, finite, infinite or NaN), any C library", "why_tests_cant": "the bound and the branch decisions at the corners have to hold for every one of the 2^64 doubles in each of the ten classes", "anchors": ["csu_radartools/csu_t_traps.py: get_hid_traps, t_trap_dz, t_trap_rain, t_trap_ic, t_trap_agg, t_trap_ws, t_trap_ldg, t_trap_hdg, t_trap_ha, t_trap_bd"]}
