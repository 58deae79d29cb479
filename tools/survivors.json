[
 {
  "definition": "despeckle_ray",
  "match": "lmax labels",
  "verdict": "equivalent: labels above the maximum select no gate, so visiting more of them changes nothing"
 },
 {
  "definition": "blended_core",
  "match": "r_blended := map (fun _ => #1)",
  "verdict": "equivalent: every gate is overwritten by exactly one masked assignment (C08)"
 },
 {
  "definition": "csu_hidro_rain",
  "match": "shape_eqb",
  "verdict": "not a behaviour: only moves the boundary of inputs classed as Unmodelled"
 },
 {
  "definition": "trop_defaults",
  "match": "t_r_z",
  "claim": "C83: the default coefficients of the tropical algorithm are the documented ones",
  "tightened": [
   "C83_tropical_defaults",
   "C18_default_coefficients_are_predef_S"
  ],
  "verdict": "survived, theorems added; now killed"
 },
 {
  "definition": "t_trap_ldg",
  "match": "slope_x3_x4",
  "claim": "C85: slope of the helper for every corner setting",
  "tightened": [
   "C85 (t_trap_ldg with arbitrary corners)"
  ],
  "verdict": "survived, theorems added; now killed"
 },
 {
  "definition": "t_trap_ic",
  "match": "slope_x1_x2",
  "claim": "C85: slope of the helper for every corner setting",
  "tightened": [
   "C85 (t_trap_ic with arbitrary corners)"
  ],
  "verdict": "survived, theorems added; now killed"
 },
 {
  "definition": "t_trap_agg",
  "match": "slope_x3_x4",
  "claim": "C85: slope of the helper for every corner setting",
  "tightened": [
   "C85 (t_trap_agg with arbitrary corners)"
  ],
  "verdict": "survived, theorems added; now killed"
 },
 {
  "definition": "ml1_weights",
  "match": "match k with",
  "claim": "C86: melting-layer scores with the default weights in numbers",
  "tightened": [
   "C86_melt_defaults"
  ],
  "verdict": "survived, theorem added; now killed"
 },
 {
  "definition": "summer_weights",
  "match": "KLD => #0.51",
  "claim": "C86: summer scores with the default weights in numbers",
  "tightened": [
   "C86 summer theorem",
   "C35_default_weights"
  ],
  "verdict": "survived, theorem added; now killed"
 },
 {
  "definition": "linspace360",
  "match": "n =? 1",
  "verdict": "equivalent: linspace is never asked for one point"
 },
 {
  "definition": "get_fir",
  "match": "#0.08 * ratio",
  "claim": "C87: the cutoff requested is 1.6/order",
  "tightened": [
   "C87 theorems"
  ],
  "verdict": "survived, theorems added; now killed"
 },
 {
  "definition": "trop_core",
  "match": "cond_ice (-2)",
  "verdict": "equivalent: the ice label is overwritten later in the same function (C17)"
 },
 {
  "definition": "ndim",
  "match": "N0 _ => 1",
  "claim": "C54: a 0-d array beside 1-d arrays is a dimension mismatch",
  "tightened": [
   "C54_dimension_mismatch",
   "C54_other_dimensions"
  ],
  "verdict": "survived, theorems stated for arrays of given dimensions added; now killed"
 },
 {
  "definition": "ndim",
  "match": "N3 => 4",
  "verdict": "equivalent: N3 stands for any array that is neither 1-d nor 2-d; the number is only compared with 1 and 2 and with itself"
 },
 {
  "definition": "np_array_of",
  "match": "2%nat :: ashape",
  "claim": "C11: a 0-d array beside a plain reflectivity number counts as a number",
  "tightened": [
   "C11_zero_dim_arrays_are_scalars"
  ],
  "verdict": "survived, theorem added; now killed"
 },
 {
  "definition": "hidro_core_with",
  "match": "cond_dz_kdp_zdr := lor",
  "verdict": "equivalent: every gate that the wider mask marks with method 1 is overwritten by the later masks for methods 2, 3 or 4, so the result is the same function"
 },
 {
  "definition": "atleast_1d",
  "match": "[] => Ok (mkarr (adt a) [2%nat]",
  "claim": "C58: zdp and hdr of zero-dimensional arrays give one-element arrays",
  "tightened": [
   "C58_zdp_zero_dimensional",
   "C58_hdr_zero_dimensional"
  ],
  "verdict": "survived, theorems added; now killed"
 },
 {
  "definition": "dndh_default",
  "match": "",
  "claim": "C73: the default refractivity gradient gives the exact value 1000/(1/6371 - 39e-6)",
  "tightened": [
   "C73_default"
  ],
  "verdict": "survived, theorem tightened; now killed"
 },
 {
  "definition": "k_boltz",
  "match": "",
  "claim": "C72: thermal noise uses Boltzmann's constant 1.381e-23",
  "tightened": [
   "C72 (constant spelled out in the statement)"
  ],
  "verdict": "survived, theorem tightened; now killed"
 },
 {
  "definition": "alen",
  "match": "[] => 1%nat",
  "verdict": "equivalent: alen is only applied to results of atleast_1d, which have at least one dimension"
 },
 {
  "definition": "lmin",
  "match": "[] => 1%nat",
  "verdict": "equivalent: only applied to non-empty lists of labels"
 },
 {
  "definition": "dielectric_default",
  "match": "",
  "claim": "C88: the default dielectric factor is 0.93",
  "tightened": [
   "C88_default_arguments"
  ],
  "verdict": "survived, theorem added; now killed"
 }
]