{
 "claims": [
  {
   "property": "C01",
   "status": "proved",
   "theorems": [
    "C01_one_dim",
    "C01_multilinear",
    "C01_cell_exists",
    "C01_cell_corners"
   ],
   "note": "Over the real numbers (ROps). dom = points whose cell number fits in isize on a regular grid, every point on a rectilinear grid; elsewhere a regular-grid evaluator returns an error."
  },
  {
   "property": "C02",
   "status": "proved",
   "theorems": [
    "C02_one_dim",
    "C02_multilinear"
   ],
   "note": "Over the real numbers (ROps). dom = points whose cell number fits in isize on a regular grid, every point on a rectilinear grid; elsewhere a regular-grid evaluator returns an error."
  },
  {
   "property": "C03",
   "status": "proved",
   "theorems": [
    "C03_one_dim",
    "C03_multilinear",
    "C03_multicubic",
    "C03_nearest"
   ],
   "note": "Over the real numbers (ROps). Every node of every accepted grid, no representability hypothesis."
  },
  {
   "property": "C04",
   "status": "proved",
   "theorems": [
    "C04_one_dim",
    "C04_corners",
    "C04_array"
   ],
   "note": "Over the real numbers (ROps). "
  },
  {
   "property": "C05",
   "status": "proved",
   "theorems": [
    "C05_one_dim",
    "C05_multilinear"
   ],
   "note": "Over the real numbers (ROps). The continuous function F is defined on all of R^N and agrees with eval on dom. dom = points whose cell number fits in isize on a regular grid, every point on a rectilinear grid; elsewhere a regular-grid evaluator returns an error."
  },
  {
   "property": "C06",
   "status": "proved",
   "theorems": [
    "C06_quadratic",
    "C06_affine"
   ],
   "note": "Over the real numbers (ROps). dom = points whose cell number fits in isize on a regular grid, every point on a rectilinear grid; elsewhere a regular-grid evaluator returns an error."
  },
  {
   "property": "C07",
   "status": "proved",
   "theorems": [
    "C07_multicubic"
   ],
   "note": "Over the real numbers (ROps). F is continuous on all of R^N and agrees with eval on dom."
  },
  {
   "property": "C08",
   "status": "proved",
   "theorems": [
    "C08_multicubic"
   ],
   "note": "Over the real numbers (ROps). F is C1 on all of R^N and agrees with eval on dom."
  },
  {
   "property": "C09",
   "status": "proved",
   "theorems": [
    "C09_low",
    "C09_high",
    "C09_flag_has_no_effect_inside"
   ],
   "note": "Over the real numbers (ROps). "
  },
  {
   "property": "C10",
   "status": "proved",
   "theorems": [
    "C10_one_dim",
    "C10_multilinear",
    "C10_multicubic",
    "C10_nearest"
   ],
   "note": "Over the real numbers (ROps). The two grids only have to have the same coordinates (same_grid)."
  },
  {
   "property": "C11",
   "status": "proved",
   "theorems": [
    "C11_exact_multilinear",
    "C11_exact_multicubic",
    "C11_linear_regular",
    "C11_linear_regular_new",
    "C11_linear_regular_interpn",
    "C11_linear_rectilinear",
    "C11_linear_rectilinear_new",
    "C11_linear_rectilinear_interpn",
    "C11_cubic_regular",
    "C11_cubic_regular_new",
    "C11_cubic_regular_interpn",
    "C11_cubic_rectilinear",
    "C11_cubic_rectilinear_new",
    "C11_cubic_rectilinear_interpn"
   ],
   "note": "For any arithmetic (any Ops record), without fma. With fma the flattened and recursive code round differently; C11_exact_* is agreement in exact arithmetic for any combination of builds."
  },
  {
   "property": "C12",
   "status": "proved",
   "theorems": [
    "C12_linear_regular",
    "C12_linear_regular_recursive",
    "C12_nearest_regular",
    "C12_linear_rectilinear",
    "C12_nearest_rectilinear",
    "C12_cubic_rectilinear",
    "C12_linear_rectilinear_recursive",
    "C12_cubic_rectilinear_recursive"
   ],
   "note": "Every number type, every bit pattern. Cubic on a regular grid is C13."
  },
  {
   "property": "C13",
   "status": "partial",
   "theorems": [
    "C13_refuted",
    "C13_recursive_refuted",
    "C13_partial",
    "C13_recursive_partial"
   ],
   "note": "False: C13_refuted gives a binary64 observation (cell number -2^63) that panics in a build with overflow checks. The _partial theorems show it is the only way to panic."
  },
  {
   "property": "C14",
   "status": "proved",
   "theorems": [
    "C14_linear_regular",
    "C14_nearest_regular",
    "C14_linear_regular_recursive",
    "C14_cubic_regular",
    "C14_cubic_regular_recursive",
    "C14_linear_rectilinear",
    "C14_nearest_rectilinear",
    "C14_linear_rectilinear_recursive",
    "C14_cubic_rectilinear",
    "C14_cubic_rectilinear_recursive"
   ],
   "note": "Under the hypothesis that the left-to-right product of the sizes fits in usize; see C15 for what happens otherwise."
  },
  {
   "property": "C15",
   "status": "partial",
   "theorems": [
    "C15_refuted",
    "C15_evaluation_panics_refuted",
    "C15_linear_regular_partial",
    "C15_linear_regular_recursive_partial",
    "C15_nearest_regular_partial",
    "C15_cubic_regular_partial",
    "C15_cubic_regular_recursive_partial",
    "C15_linear_rectilinear_partial",
    "C15_linear_rectilinear_recursive_partial",
    "C15_nearest_rectilinear_partial",
    "C15_cubic_rectilinear_partial",
    "C15_cubic_rectilinear_recursive_partial",
    "C15_regular_all_builds_partial",
    "C15_rectilinear_all_builds_partial"
   ],
   "note": "False in builds without overflow checks: C15_refuted accepts 0 values for sizes 2^63 x 2, and evaluation then panics. Proved for builds with overflow checks; in every build the length equals the product modulo 2^64 (C15_*_all_builds_partial), so the check is exact for grids of fewer than 2^64 nodes."
  },
  {
   "property": "C16",
   "status": "partial",
   "theorems": [
    "C16_linear_regular",
    "C16_linear_regular_recursive",
    "C16_linear_rectilinear",
    "C16_linear_rectilinear_recursive",
    "C16_nearest_regular",
    "C16_nearest_rectilinear",
    "C16_cubic_regular_recursive",
    "C16_cubic_rectilinear_recursive",
    "C16_cubic_regular_refuted",
    "C16_cubic_rectilinear_refuted",
    "C16_cubic_regular_partial",
    "C16_cubic_regular_big_partial",
    "C16_cubic_rectilinear_partial",
    "C16_cubic_rectilinear_big_partial"
   ],
   "note": "Proved for linear and nearest (both grid kinds) and for the recursive cubic entry points; the dispatching cubic entry points panic for 1 to 4 axes (C16_cubic_*_refuted); _partial gives when they return errors."
  },
  {
   "property": "C17",
   "status": "proved",
   "theorems": [
    "C17_linear_regular",
    "C17_linear_regular_recursive",
    "C17_nearest_regular",
    "C17_cubic_regular",
    "C17_cubic_regular_recursive",
    "C17_linear_rectilinear",
    "C17_linear_rectilinear_recursive",
    "C17_nearest_rectilinear",
    "C17_cubic_rectilinear",
    "C17_cubic_rectilinear_recursive",
    "C17_one_dim",
    "C17_interpn_linear_regular",
    "C17_interpn_linear_regular_7_8",
    "C17_interpn_linear_rectilinear",
    "C17_interpn_linear_rectilinear_7_8",
    "C17_interpn_nearest_regular",
    "C17_interpn_nearest_rectilinear",
    "C17_interpn_cubic_regular",
    "C17_interpn_cubic_regular_5_8",
    "C17_interpn_cubic_rectilinear",
    "C17_interpn_cubic_rectilinear_5_8"
   ],
   "note": "All ten N-D evaluators, the 1-D evaluator, and interpn."
  },
  {
   "property": "C18",
   "status": "proved",
   "theorems": [
    "C18_linear_regular",
    "C18_linear_regular_mismatch",
    "C18_linear_regular_recursive",
    "C18_linear_regular_recursive_mismatch",
    "C18_nearest_regular",
    "C18_nearest_regular_mismatch",
    "C18_cubic_regular",
    "C18_cubic_regular_mismatch",
    "C18_cubic_regular_recursive",
    "C18_cubic_regular_recursive_mismatch",
    "C18_linear_rectilinear",
    "C18_linear_rectilinear_mismatch",
    "C18_linear_rectilinear_recursive",
    "C18_linear_rectilinear_recursive_mismatch",
    "C18_nearest_rectilinear",
    "C18_nearest_rectilinear_mismatch",
    "C18_cubic_rectilinear",
    "C18_cubic_rectilinear_mismatch",
    "C18_cubic_rectilinear_recursive",
    "C18_cubic_rectilinear_recursive_mismatch",
    "C18_one_dim",
    "C18_one_dim_mismatch",
    "C18_interpn_linear_regular",
    "C18_interpn_linear_regular_7_8",
    "C18_interpn_linear_rectilinear",
    "C18_interpn_linear_rectilinear_7_8",
    "C18_interpn_nearest_regular",
    "C18_interpn_nearest_rectilinear",
    "C18_interpn_cubic_regular",
    "C18_interpn_cubic_regular_5_8",
    "C18_interpn_cubic_rectilinear",
    "C18_interpn_cubic_rectilinear_5_8"
   ],
   "note": "The failure half of batch_spec, stated separately: on a regular grid, when a point of the batch fails, everything before it is written and nothing after it is touched. On a rectilinear grid no point fails, so the theorems there say that every batch of matching lengths succeeds. The argument checks (mismatch theorems) leave the output unchanged. Instances in PropertiesInstances.v."
  },
  {
   "property": "C19",
   "status": "proved",
   "theorems": [
    "C19_one_dim_regular",
    "C19_one_dim_rectilinear",
    "C19_linear_regular",
    "C19_linear_regular_recursive",
    "C19_cubic_regular",
    "C19_cubic_regular_recursive",
    "C19_linear_rectilinear",
    "C19_linear_rectilinear_recursive",
    "C19_cubic_rectilinear",
    "C19_cubic_rectilinear_recursive",
    "C19_nearest_regular",
    "C19_nearest_rectilinear"
   ],
   "note": "The box depends only on the grid and the point; that it is the cell of the point is C01/C27."
  },
  {
   "property": "C20",
   "status": "proved",
   "theorems": [
    "C20_one_dim",
    "C20_multilinear",
    "C20_multicubic"
   ],
   "note": "Over the real numbers (ROps). C20_one_dim for the one-dimensional interpolators."
  },
  {
   "property": "C21",
   "status": "proved",
   "theorems": [
    "C21_one_dim",
    "C21_multilinear",
    "C21_multicubic",
    "C21_nearest"
   ],
   "note": "Over the real numbers (ROps). C21_one_dim for the one-dimensional interpolators."
  },
  {
   "property": "C22",
   "status": "proved",
   "theorems": [
    "C22_multilinear",
    "C22_multicubic",
    "C22_nearest"
   ],
   "note": "Over the real numbers (ROps). "
  },
  {
   "property": "C23",
   "status": "proved",
   "theorems": [
    "C23_one_dim",
    "C23_multilinear",
    "C23_multicubic"
   ],
   "note": "Over the real numbers (ROps). Any set of axes at once. Nearest is not reflection invariant (ties go to the lower node). C23_one_dim for the one-dimensional interpolators."
  },
  {
   "property": "C24",
   "status": "proved",
   "theorems": [
    "C24_nearest",
    "C24_stored_value_regular",
    "C24_stored_value_rectilinear"
   ],
   "note": "C24_stored_* for every number type; C24_nearest over the real numbers."
  },
  {
   "property": "C25",
   "status": "proved",
   "theorems": [
    "C25_rectilinear_infinite",
    "C25_regular_infinite",
    "C25_regular_returns",
    "C25_regular",
    "C25_rectilinear",
    "C25_regular_error",
    "C25_rectilinear_error",
    "C25_regular_ieee",
    "C25_rectilinear_ieee"
   ],
   "note": "Over the real numbers exactly (iff), for every number type the error cases. On IEEE floats: an observation at least atol outside is flagged, one inside is not when atol > 0 (C25_*_ieee), an infinite observation always is (C25_*_infinite). Hypothesis on regular grids: starts and steps have one entry per axis and every dims entry is >= 1 (otherwise the code panics)."
  },
  {
   "property": "C26",
   "status": "partial",
   "theorems": [
    "C26_nan_rectilinear_refuted",
    "C26_nan_regular_refuted",
    "C26_boundary_refuted",
    "C26_boundary_regular_refuted",
    "C26_nan_refuted",
    "C26_exact_partial",
    "C26_ieee_partial"
   ],
   "note": "Refuted: with atol = 0 a boundary point is flagged, and NaN observations have no influence on the answer (C26_nan_*_refuted, every grid, tolerance and IEEE format). The partial theorems show that with atol > 0 no finite point of the closed grid interval is flagged, over the reals and on IEEE floats of any precision (through check_bounds itself: C25_*_ieee)."
  },
  {
   "property": "C27",
   "status": "proved",
   "theorems": [
    "C27_linear",
    "C27_linear_recursive",
    "C27_cubic",
    "C27_one_dim",
    "C27_comparisons",
    "C27_number_types"
   ],
   "note": "For every number type whose < is transitive, shown for f64, f32 and the reals. The model follows core's binary search loop (not in /repo)."
  },
  {
   "property": "C28",
   "status": "proved",
   "theorems": [
    "C28_entry",
    "C28_size",
    "C28_samples",
    "C28_nodes"
   ],
   "note": "meshgrid order for every element type; reading back through the interpolators over the reals."
  },
  {
   "property": "C29",
   "status": "proved",
   "theorems": [
    "C29_one_axis",
    "C29_linear"
   ],
   "note": "Over the real numbers."
  },
  {
   "property": "C30",
   "status": "proved",
   "theorems": [
    "C30_regular_ieee",
    "C30_inside_any_number_type",
    "C30_inside_regular_any_number_type",
    "C30_inside",
    "C30_outside",
    "C30_outside_any_number_type"
   ],
   "note": "Between the first and last grid point the two methods agree bit for bit for every number type (C30_inside_*any_number_type); outside, hold-last returns the stored end value bit for bit, for every number type on rectilinear grids and for every IEEE format on regular grids (an observation whose cell number does not fit in isize is an error)."
  },
  {
   "property": "C31",
   "status": "proved",
   "theorems": [
    "C31_between",
    "C31_outside",
    "C31_nearest",
    "C31_stored_value_regular",
    "C31_stored_value_rectilinear",
    "C31_between_any_number_type",
    "C31_outside_any_number_type"
   ],
   "note": "Over the reals; on rectilinear grids Left1D and Right1D also for every number type with a transitive, irreflexive comparison (floats included), and 'every result is an element of the value array' for every number type."
  },
  {
   "property": "C32",
   "status": "partial",
   "theorems": [
    "C32_right_refuted",
    "C32_left_refuted",
    "C32_binary64_refuted",
    "C32_regular_partial",
    "C32_rectilinear_partial",
    "C32_rectilinear_any_number_type_partial"
   ],
   "note": "Refuted: see the three _refuted theorems. The _partial theorems say exactly which value is returned at every node, over the reals, and on rectilinear grids for every number type."
  },
  {
   "property": "C33",
   "status": "proved",
   "theorems": [
    "C33_linear_regular",
    "C33_nearest_regular",
    "C33_cubic_regular",
    "C33_cubic_regular_recursive",
    "C33_one_dim_regular",
    "C33_linear_rectilinear",
    "C33_cubic_rectilinear",
    "C33_cubic_rectilinear_recursive",
    "C33_nearest_rectilinear",
    "C33_one_dim_methods",
    "C33_one_dim_rectilinear"
   ],
   "note": "Any IEEE format. Every bit pattern in grids and values. One-dimensional methods included."
  },
  {
   "property": "C34",
   "status": "proved",
   "theorems": [
    "C34_one_dim_rectilinear",
    "C34_one_dim_regular",
    "C34_one_dim_refuted",
    "C34_rectilinear",
    "C34_inside",
    "C34_regular"
   ],
   "note": "Any IEEE format, with and without fma. increasing_grid is required for rectilinear grids. A finite normalised coordinate is an explicit hypothesis, discharged inside the grid box by C34_inside. One dimension: C34_one_dim_rectilinear, C34_one_dim_regular; C34_one_dim_refuted is the witness that a regular grid whose step is below the resolution of its coordinates gives NaN."
  },
  {
   "property": "C35",
   "status": "partial",
   "theorems": [
    "C35_rectilinear_near_partial",
    "C35_regular_near_partial",
    "C35_rectilinear_refuted",
    "C35_regular_refuted",
    "C35_rectilinear_partial",
    "C35_regular_partial",
    "C35_exact_differences"
   ],
   "note": "False: C35_rectilinear_refuted (values 1e16 and 1), C35_regular_refuted (step 0.1). Proved when differences of values (and, on regular grids, coordinates) are exact, in particular for values within a factor of two (C100_nodes); otherwise up to the error bound of C45."
  },
  {
   "property": "C36",
   "status": "partial",
   "theorems": [
    "C36_rectilinear_partial",
    "C36_regular_partial",
    "C36_refuted"
   ],
   "note": "False: C36_refuted (values 1e16 and 1 give 0). Proved with the slack of the error bound of C45; exactly, without slack, for the ranges of C86 and C100."
  },
  {
   "property": "C37",
   "status": "proved",
   "theorems": [
    "C37_linear_regular",
    "C37_linear_regular_recursive",
    "C37_nearest_regular",
    "C37_cubic_regular",
    "C37_cubic_regular_recursive",
    "C37_linear_rectilinear",
    "C37_linear_rectilinear_recursive",
    "C37_nearest_rectilinear",
    "C37_cubic_rectilinear",
    "C37_cubic_rectilinear_recursive",
    "C37_one_dim"
   ],
   "note": "For any previous contents of the in-place buffer; with no observation arrays the allocating variants panic (Example C37_empty_ex)."
  },
  {
   "property": "C38",
   "status": "proved",
   "theorems": [
    "C38_points",
    "C38_accepted"
   ],
   "note": "Over the real numbers."
  },
  {
   "property": "C39",
   "status": "partial",
   "theorems": [
    "C39_one_point_refuted",
    "C39_no_points_refuted",
    "C39_overflow_refuted",
    "C39_finite_partial"
   ],
   "note": "Refuted for n = 1 (NaN), n = 0 with overflow checks (panic) and when b - a overflows. Partial: n >= 2 finite points for |a|,|b| <= 2^(emax-5) on IEEE floats of any precision."
  },
  {
   "property": "C40",
   "status": "proved",
   "theorems": [
    "C40_linear",
    "C40_linear_recursive",
    "C40_nearest",
    "C40_one_dim"
   ],
   "note": "Any IEEE format."
  },
  {
   "property": "C41",
   "status": "proved",
   "theorems": [
    "C41_evaluation",
    "C41_interpn",
    "C41_one_dim",
    "C41_interpn_recursive",
    "C41_interpn_alloc"
   ],
   "note": "Over the real numbers (ROps): evaluation, every batch function (flattened, recursive, allocating) and the 1-D interpolators."
  },
  {
   "property": "C42",
   "status": "proved",
   "theorems": [
    "C42_regular",
    "C42_rectilinear",
    "C42_unsupported",
    "C42_unsupported_value_error",
    "C42_linear_values",
    "C42_nearest_values",
    "C42_cubic_values"
   ],
   "note": "Any number type (dispatch) and exact arithmetic (values). Regularity is exact equality of computed differences. The dtype column of the match statement is the Ops record."
  },
  {
   "property": "C43",
   "status": "partial",
   "theorems": [
    "C43_ieee_rectilinear_partial",
    "C43_ieee_regular_partial",
    "C43_refuted",
    "C43_other_dims",
    "C43_partial"
   ],
   "note": "False with two or more axes: C43_refuted, C43_other_dims (always AssertionError). One axis: C43_partial (exact arithmetic) and C43_ieee_*_partial (IEEE floats of any precision)."
  },
  {
   "property": "C44",
   "status": "partial",
   "theorems": [
    "C44_refuted",
    "C44_partial",
    "C44_recursive_partial"
   ],
   "note": "False in builds without overflow checks: C44_refuted. Proved with overflow checks, and without them unless the cell number of a is -2^63."
  },
  {
   "property": "C45",
   "status": "proved",
   "theorems": [
    "C45_rectilinear",
    "C45_regular",
    "C45_rectilinear_exact",
    "C45_regular_exact"
   ],
   "note": "Any IEEE format. Inside the grid only; kappa and A are hypotheses, with a margin to overflow."
  },
  {
   "property": "C46",
   "status": "partial",
   "theorems": [
    "C46_large_refuted",
    "C46_zero_refuted",
    "C46_partial"
   ],
   "note": "False: a buffer of two or more elements always raises ValueError and a one-element buffer holding zero is ignored. Proved for a nonzero one-element buffer."
  },
  {
   "property": "C47",
   "status": "partial",
   "theorems": [
    "C47_object_check_bounds_rectilinear",
    "C47_object_check_bounds_regular",
    "C47_check_bounds_regular_ieee",
    "C47_check_bounds_rectilinear_ieee",
    "C47_rectilinear_accepts",
    "C47_regular_accepts",
    "C47_differences_ieee",
    "C47_differences_exact",
    "C47_refuted",
    "C47_linear_rectilinear_partial",
    "C47_nearest_rectilinear_partial",
    "C47_cubic_rectilinear_partial",
    "C47_linear_regular_partial",
    "C47_nearest_regular_partial",
    "C47_cubic_regular_partial",
    "C47_check_bounds_regular",
    "C47_check_bounds_rectilinear",
    "C47_regular_object",
    "C47_rectilinear_object"
   ],
   "note": "False: C47_refuted (a one-point grid, or three points for cubic, is accepted and cannot be evaluated). The _partial theorems assume enough points per axis; cubic on a regular grid assumes a build without overflow checks (see C13). check_bounds in exact arithmetic and on IEEE floats of any precision."
  },
  {
   "property": "C48",
   "status": "proved",
   "theorems": [
    "C48_document_regular",
    "C48_document_rectilinear",
    "C48_document_integers",
    "C48_document_booleans",
    "C48_regular",
    "C48_rectilinear",
    "C48_f32_numbers",
    "C48_fields_regular",
    "C48_fields_rectilinear"
   ],
   "note": "JSON as a tree of values: that the decimal text of a number is read back as the same number (Python's repr) is trusted."
  },
  {
   "property": "C49",
   "status": "proved",
   "theorems": [
    "C49_check_bounds_mixed_regular",
    "C49_check_bounds_mixed_rectilinear",
    "C49_int_num",
    "C49_interpn_int_grids_regular",
    "C49_interpn_int_grids_irregular",
    "C49_interpn_ints_like_floats",
    "C49_interpn_int_values",
    "C49_linear_regular",
    "C49_nearest_regular",
    "C49_cubic_regular",
    "C49_linear_rectilinear",
    "C49_nearest_rectilinear",
    "C49_cubic_rectilinear",
    "C49_mixed_regular",
    "C49_mixed_rectilinear",
    "C49_interpn",
    "C49_interpn_mixed",
    "C49_interpn_grids_regular",
    "C49_interpn_grids_irregular"
   ],
   "note": "Integer arrays stand for all element types other than f32 and f64. Arrays are one-dimensional and contiguous inside the classes."
  },
  {
   "property": "C50",
   "status": "partial",
   "theorems": [
    "C50_new_regular_holds",
    "C50_new_rectilinear_holds",
    "C50_new_type",
    "C50_integers_refuted",
    "C50_starts_refuted",
    "C50_regular_partial",
    "C50_rectilinear_partial",
    "C50_conversion_same",
    "C50_conversion_wider",
    "C50_conversion_narrower",
    "C50_new_one_type",
    "C50_rectilinear_one_type",
    "C50_regular_one_type_partial"
   ],
   "note": "Refuted: new() stores integer data as f32 (16777217 becomes 16777216), and MultilinearRegular / MulticubicRegular accept starts of another element type. Proved for floating-point inputs of new(), and for the element types of all rectilinear and nearest objects. Integer inputs (up to 64 bits) are rounded to the nearest number of the stored type: C50_new_*_holds."
  },
  {
   "property": "C51",
   "status": "proved",
   "theorems": [
    "C51_one_dim",
    "C51_one_dim_slope",
    "C51_multilinear_cell",
    "C51_multilinear",
    "C51_multilinear_slope",
    "C51_multilinear_variation",
    "C51_nearest",
    "C51_multicubic",
    "C51_regular_spacing",
    "C51_regular_ratio",
    "C51_multilinear_converges",
    "C51_nearest_converges",
    "C51_multicubic_converges"
   ],
   "note": ""
  },
  {
   "property": "C52",
   "status": "proved",
   "theorems": [
    "C52_one_dim",
    "C52_multilinear",
    "C52_nearest",
    "C52_multicubic",
    "C52_multicubic_range"
   ],
   "note": ""
  },
  {
   "property": "C53",
   "status": "proved",
   "theorems": [
    "C53_one_dim",
    "C53_multilinear",
    "C53_nearest",
    "C53_multicubic_refuted"
   ],
   "note": ""
  },
  {
   "property": "C54",
   "status": "proved",
   "theorems": [
    "C54_axis",
    "C54_points"
   ],
   "note": ""
  },
  {
   "property": "C55",
   "status": "proved",
   "theorems": [
    "C55_rectilinear",
    "C55_regular"
   ],
   "note": ""
  },
  {
   "property": "C56",
   "status": "proved",
   "theorems": [
    "C56_rectilinear",
    "C56_rectilinear_clear",
    "C56_regular",
    "C56_regular_anywhere",
    "C56_exact_refuted"
   ],
   "note": "C56_exact_refuted shows that the allowance for rounding is needed."
  },
  {
   "property": "C57",
   "status": "proved",
   "theorems": [
    "C57_rectilinear",
    "C57_regular"
   ],
   "note": ""
  },
  {
   "property": "C58",
   "status": "proved",
   "theorems": [
    "C58_rectilinear",
    "C58_regular",
    "C58_rectilinear_node",
    "C58_regular_node"
   ],
   "note": "Any IEEE format (precision at most 64 on regular grids). Inside the grid only; A, kappa and rho are hypotheses, with a margin to overflow. The constants are not sharp."
  },
  {
   "property": "C59",
   "status": "proved",
   "theorems": [
    "C59_rectilinear",
    "C59_regular"
   ],
   "note": ""
  },
  {
   "property": "C60",
   "status": "proved",
   "theorems": [
    "C60_multilinear",
    "C60_multicubic",
    "C60_multilinear_range",
    "C60_multicubic_range",
    "C60_inside"
   ],
   "note": ""
  },
  {
   "property": "C61",
   "status": "proved",
   "theorems": [
    "C61_one_dim",
    "C61_multilinear",
    "C61_multicubic",
    "C61_multicubic_linearised"
   ],
   "note": ""
  },
  {
   "property": "C62",
   "status": "proved",
   "theorems": [
    "C62_rectilinear",
    "C62_regular",
    "C62_rectilinear_exact",
    "C62_regular_exact"
   ],
   "note": ""
  },
  {
   "property": "C63",
   "status": "proved",
   "theorems": [
    "C63_rectilinear",
    "C63_regular"
   ],
   "note": ""
  },
  {
   "property": "C64",
   "status": "proved",
   "theorems": [
    "C64_multilinear_product",
    "C64_multilinear_sum",
    "C64_multicubic_product",
    "C64_multicubic_sum",
    "C64_nearest_product",
    "C64_nearest_sum"
   ],
   "note": "Exact arithmetic; stated for every split of the axes, regular and rectilinear interpolators may be mixed."
  },
  {
   "property": "C65",
   "status": "proved",
   "theorems": [
    "C65_multilinear_slice",
    "C65_multicubic_slice",
    "C65_nearest_slice",
    "C65_multilinear_nested",
    "C65_multicubic_nested",
    "C65_nearest_nested"
   ],
   "note": "Exact arithmetic. The nested form takes the leading axes first; with C22 (permutation of axes) this covers any order."
  },
  {
   "property": "C66",
   "status": "proved",
   "theorems": [
    "C66_one_dim",
    "C66_multilinear"
   ],
   "note": "Exact arithmetic. Multilinear only: the multicubic and nearest interpolants are not reproduced on a finer grid."
  },
  {
   "property": "C67",
   "status": "proved",
   "theorems": [
    "C67_one_dim",
    "C67_multilinear",
    "C67_multicubic",
    "C67_nearest"
   ],
   "note": "Exact arithmetic."
  },
  {
   "property": "C68",
   "status": "proved",
   "theorems": [
    "C68_rectilinear",
    "C68_rectilinear_hold_last",
    "C68_regular",
    "C68_slope_bound_needed",
    "C68_regular_outside"
   ],
   "note": "Every IEEE format. C68_slope_bound_needed is a binary64 witness that the hypothesis on the slopes cannot be dropped."
  },
  {
   "property": "C69",
   "status": "proved",
   "theorems": [
    "C69_nearest_rectilinear",
    "C69_nearest_regular",
    "C69_left_right_regular",
    "C69_magnitude_bound_needed"
   ],
   "note": "Every IEEE format. Regular grids: points inside the grid. C69_magnitude_bound_needed is a binary64 witness for the bound on the magnitudes. The exact rectilinear choice of Left1D and Right1D is C31_between_any_number_type."
  },
  {
   "property": "C70",
   "status": "proved",
   "theorems": [
    "C70_anywhere",
    "C70_rectilinear",
    "C70_regular"
   ],
   "note": "Every IEEE format; points inside the grid."
  },
  {
   "property": "C71",
   "status": "proved",
   "theorems": [
    "C71_one_dim_rectilinear",
    "C71_one_dim_regular",
    "C71_one_dim_slope_refuted",
    "C71_rectilinear",
    "C71_regular"
   ],
   "note": "Every method on both grid kinds, any format. The one-dimensional linear interpolators form a dimensional slope; C71_one_dim_slope_refuted shows that the condition on it is needed."
  },
  {
   "property": "C72",
   "status": "proved",
   "theorems": [
    "C72_one_dim_rectilinear",
    "C72_one_dim_regular",
    "C72_rectilinear",
    "C72_regular"
   ],
   "note": "Every N-dimensional and one-dimensional method on both grid kinds, any format; zeros of either sign count as equal."
  },
  {
   "property": "C73",
   "status": "proved",
   "theorems": [
    "C73_hold_last_anywhere",
    "C73_one_dim_anywhere",
    "C73_one_dim",
    "C73_linear",
    "C73_linear_inside",
    "C73_cubic"
   ],
   "note": "Conditions on grids, values and points are those of C45, C58, C62 and C75 (in linear_run and cubic_run), for the one-dimensional theorems those of C68 (in line_run, line_reach and hold_reach)."
  },
  {
   "property": "C74",
   "status": "proved",
   "theorems": [
    "C74_hold_last_anywhere",
    "C74_one_dim_anywhere",
    "C74_one_dim",
    "C74_monotone",
    "C74_slope"
   ],
   "note": ""
  },
  {
   "property": "C75",
   "status": "proved",
   "theorems": [
    "C75_rectilinear",
    "C75_regular"
   ],
   "note": "Conditions: moderate coordinates, values so small that nothing overflows, neighbouring spacings within a factor rho (rectilinear) or grid and point within kappa steps of zero (regular)."
  },
  {
   "property": "C76",
   "status": "proved",
   "theorems": [
    "C76_rectilinear",
    "C76_regular"
   ],
   "note": "Conditions as in C75; with linearised extrapolation also a bound on the second derivative."
  },
  {
   "property": "C77",
   "status": "proved",
   "theorems": [
    "C77_points",
    "C77_accepted",
    "C77_spacing_needed",
    "C77_last_point_not_exact"
   ],
   "note": "Any format with roundoff <= 1/64 (f16 and wider). C77_spacing_needed and C77_last_point_not_exact show why the statement has a tolerance and a condition on the spacing."
  },
  {
   "property": "C78",
   "status": "proved",
   "theorems": [
    "C78_hold_last_float",
    "C78_one_dim_float",
    "C78_one_dim_linear",
    "C78_one_dim_hold_last",
    "C78_one_dim_nearest",
    "C78_linear",
    "C78_linear_inside",
    "C78_nearest",
    "C78_linear_points",
    "C78_cubic",
    "C78_linear_float",
    "C78_cubic_float"
   ],
   "note": "C78_linear and C78_linear_inside at the same point, C78_linear_points and C78_cubic for two points each inside its own grid, C78_nearest for nearest, all over the reals; C78_linear_float and C78_cubic_float in floating point. One-dimensional: C78_one_dim_linear inside the grids, C78_one_dim_hold_last everywhere, C78_one_dim_float in floating point inside the grids. Multicubic extrapolation on moved grids is not covered."
  },
  {
   "property": "C79",
   "status": "proved",
   "theorems": [
    "C79_evenly_spaced",
    "C79_unevenly_spaced"
   ],
   "note": "An evenly spaced grid is one whose computed differences are all equal, as the package tests it; its points need not be exactly even. check_bounds is off and no output array is passed; C42, C43 and C46 cover those arguments."
  },
  {
   "property": "C80",
   "status": "proved",
   "theorems": [
    "C80_evenly_spaced",
    "C80_unevenly_spaced"
   ],
   "note": ""
  },
  {
   "property": "C81",
   "status": "proved",
   "theorems": [
    "C81_interpn",
    "C81_eval",
    "C81_eval_refused",
    "C81_check_bounds",
    "C81_eval_many",
    "C81_bindings_many"
   ],
   "note": "The layout rules of NumPy (strides, C_CONTIGUOUS, ravel, flatten) and of rust-numpy (as_slice, TypeError) are modelled from their documentation; they are not code of the repository. Output arrays given by the caller are contiguous in the model."
  },
  {
   "property": "C82",
   "status": "proved",
   "theorems": [
    "C82_evenly_spaced",
    "C82_unevenly_spaced"
   ],
   "note": ""
  },
  {
   "property": "C83",
   "status": "proved",
   "theorems": [
    "C83_evenly_spaced",
    "C83_unevenly_spaced"
   ],
   "note": ""
  },
  {
   "property": "C84",
   "status": "proved",
   "theorems": [
    "C84_evenly_spaced",
    "C84_unevenly_spaced"
   ],
   "note": ""
  },
  {
   "property": "C85",
   "status": "proved",
   "theorems": [
    "C85_evenly_spaced",
    "C85_unevenly_spaced"
   ],
   "note": ""
  },
  {
   "property": "C86",
   "status": "proved",
   "theorems": [
    "C86_nonnegative",
    "C86_magnitude",
    "C86_python",
    "C86_pixel_nonnegative",
    "C86_pixel_magnitude",
    "C86_pixel_python",
    "C86_regular_refuted",
    "C86_one_dim_refuted"
   ],
   "note": "The theorems with suffix _refuted show where the property stops holding: other regular grids (also through the Python function) and the one-dimensional linear interpolator."
  },
  {
   "property": "C87",
   "status": "proved",
   "theorems": [
    "C87_select",
    "C87_joined",
    "C87_one_dim_select",
    "C87_one_dim_joined",
    "C87_python_select",
    "C87_python_joined"
   ],
   "note": ""
  },
  {
   "property": "C88",
   "status": "proved",
   "theorems": [
    "C88_regular",
    "C88_rectilinear"
   ],
   "note": ""
  },
  {
   "property": "C89",
   "status": "proved",
   "theorems": [
    "C89_regular",
    "C89_rectilinear",
    "C89_python_even",
    "C89_python_uneven",
    "C89_one_dim_rectilinear",
    "C89_one_dim_regular",
    "C89_one_dim_slope_needed",
    "C89_regular_outside",
    "C89_rectilinear_outside",
    "C89_python_even_outside",
    "C89_python_uneven_outside"
   ],
   "note": ""
  },
  {
   "property": "C90",
   "status": "proved",
   "theorems": [
    "C90_rectilinear",
    "C90_regular",
    "C90_pixel_cell",
    "C90_one_dim_rectilinear",
    "C90_one_dim_regular",
    "C90_python",
    "C90_across_cells_refuted",
    "C90_other_axis_refuted"
   ],
   "note": "Finite results are the only assumption on sizes. The cell on regular axes is the computed one; C90_pixel_cell shows that it is the true one on axes that start at 0 with a power of two as step. Refuted across cells and along other axes (C90_across_cells_refuted, C90_other_axis_refuted); these are outside the property."
  },
  {
   "property": "C91",
   "status": "proved",
   "theorems": [
    "C91_rectilinear",
    "C91_regular",
    "C91_cubic_rectilinear",
    "C91_cubic_regular",
    "C91_one_dim_rectilinear",
    "C91_one_dim_regular",
    "C91_python_linear",
    "C91_python_cubic",
    "C91_grid_point_refuted"
   ],
   "note": "Cells are named by comparison with the grid points (rectilinear) or as computed (regular). C91_grid_point_refuted shows that a NaN neighbour is not hidden at a grid point. On regular grids the cubic statement needs overflow checks or a cell number that is not the lowest integer."
  },
  {
   "property": "C92",
   "status": "proved",
   "theorems": [
    "C92_rectilinear",
    "C92_regular",
    "C92_cubic_rectilinear",
    "C92_cubic_regular"
   ],
   "note": "Strengthens C19: the grid points are named, and the fourth point loaded at the edge is shown not to matter."
  },
  {
   "property": "C93",
   "status": "proved",
   "theorems": [
    "C93_linear_permuted",
    "C93_cubic_permuted",
    "C93_linear_reflected",
    "C93_cubic_reflected",
    "C93_linear_rescaled",
    "C93_cubic_rescaled",
    "C93_linear_slice",
    "C93_cubic_slice",
    "C93_linear_crop",
    "C93_cubic_crop"
   ],
   "note": "Every pair of evaluations in the sense of C73 (SpecAgree), linear and cubic: permuted, reflected, rescaled, slice, crop."
  },
  {
   "property": "C94",
   "status": "proved",
   "theorems": [
    "C94_linear_superposition",
    "C94_cubic_superposition",
    "C94_linear_nested",
    "C94_cubic_nested",
    "C94_resample"
   ],
   "note": "Superposition and nesting for linear and cubic; resampling on a refined grid for linear only, it is not claimed for cubic."
  },
  {
   "property": "C95",
   "status": "partial",
   "theorems": [
    "C95_rectilinear_accepts",
    "C95_rectilinear",
    "C95_regular_short",
    "C95_regular_accepts",
    "C95_regular_refuted",
    "C95_regular_partial",
    "C95_regular_ieee_partial",
    "C95_batch"
   ],
   "note": "Rectilinear grids in full. Regular grids with at least two values in full (C95_regular_partial, C95_regular_ieee_partial). Refuted for fewer: one value is accepted and every evaluation panics (C95_regular_short, C95_regular_refuted)."
  },
  {
   "property": "C96",
   "status": "proved",
   "theorems": [
    "C96_linear_rectilinear",
    "C96_linear_rectilinear_recursive",
    "C96_nearest_rectilinear",
    "C96_cubic_rectilinear_recursive",
    "C96_cubic_rectilinear",
    "C96_linear_regular",
    "C96_linear_regular_recursive",
    "C96_nearest_regular",
    "C96_cubic_regular_recursive",
    "C96_cubic_regular",
    "C96_whole_steps",
    "C96_alloc_empty"
   ],
   "note": "Rectilinear: all methods, any number type, any bit patterns. Regular: all methods. The cubic dispatchers and the regular cubic recursion carry the conditions whose failure is C13 (2^63 steps below the start with overflow checks) and C16 (wrong number of arrays with up to four axes). Size products are assumed to fit in usize."
  },
  {
   "property": "C97",
   "status": "proved",
   "theorems": [
    "C97_rectilinear",
    "C97_regular",
    "C97_short_grid",
    "C97_no_observations",
    "C97_many_observations",
    "C97_cubic_refuted"
   ],
   "note": "Any element type and any bit patterns. The calls that panic (more than eight observation arrays, C13, C16) are part of the statement; C97_cubic_refuted shows that the cubic condition is needed."
  },
  {
   "property": "C98",
   "status": "proved",
   "theorems": [
    "C98_regular",
    "C98_rectilinear",
    "C98_python",
    "C98_regular_outside",
    "C98_rectilinear_outside",
    "C98_python_outside"
   ],
   "note": ""
  },
  {
   "property": "C99",
   "status": "proved",
   "theorems": [
    "C99_linear_regular",
    "C99_linear_rectilinear",
    "C99_cubic_regular",
    "C99_cubic_rectilinear",
    "C99_linear_regular_function",
    "C99_linear_rectilinear_function",
    "C99_cubic_regular_function",
    "C99_cubic_rectilinear_function"
   ],
   "note": ""
  },
  {
   "property": "C100",
   "status": "proved",
   "theorems": [
    "C100_rectilinear",
    "C100_regular",
    "C100_python",
    "C100_python_regular",
    "C100_constant_cell",
    "C100_nodes",
    "C100_short_integers",
    "C100_short_single",
    "C100_refuted"
   ],
   "note": "Proved for rectilinear grids (flat and recursive), pixel-like regular grids and Python interpn; C100_refuted shows that neither condition on the range can be dropped."
  },
  {
   "property": "C101",
   "status": "proved",
   "theorems": [
    "C101_axis",
    "C101_points",
    "C101_factor",
    "C101_factor_is_needed",
    "C101_float_axis",
    "C101_float_points"
   ],
   "note": "C101_axis and C101_points over the reals, C101_factor and C101_factor_is_needed for the size of the factor, C101_float_axis and C101_float_points in floating point."
  },
  {
   "property": "C102",
   "status": "proved",
   "theorems": [
    "C102_multilinear",
    "C102_multicubic_inside",
    "C102_multicubic",
    "C102_attained",
    "C102_linear_float",
    "C102_cubic_float"
   ],
   "note": "C102_multilinear, C102_multicubic and C102_multicubic_inside over the reals; inside the grid the factor of C102_multilinear is 1 (C60_inside). C102_attained shows that 1/8 is reached. C102_linear_float and C102_cubic_float add the rounding error."
  },
  {
   "property": "C103",
   "status": "proved",
   "theorems": [
    "C103_nearest",
    "C103_one_point",
    "C103_one_dim",
    "C103_python"
   ],
   "note": "Unconditional equations between the call on the relabelled data and the relabelled call, for any operations on any type (no property of the arithmetic is used). Coordinates are not relabelled."
  },
  {
   "property": "C104",
   "status": "proved",
   "theorems": [
    "C104_regular_constructor",
    "C104_rectilinear_constructor",
    "C104_regular_new",
    "C104_rectilinear_new",
    "C104_regular_documents",
    "C104_rectilinear_documents",
    "C104_regular_objects",
    "C104_rectilinear_objects",
    "C104_differences"
   ],
   "note": "Sizes are only multiplied, so pairs of negative sizes are accepted (C104_regular_ex); the contiguity test of the stored arrays always holds and is not modelled."
  },
  {
   "property": "C105",
   "status": "proved",
   "theorems": [
    "C105_rectilinear",
    "C105_regular",
    "C105_no_observations_regular",
    "C105_no_observations_rectilinear",
    "C105_negative_sizes",
    "C105_many_rectilinear",
    "C105_many_regular",
    "C105_check_bounds_rectilinear",
    "C105_check_bounds_regular",
    "C105_cubic_refuted"
   ],
   "note": "C105_cubic_refuted shows that the condition on the number of observation arrays of multicubic objects is needed."
  },
  {
   "property": "C106",
   "status": "proved",
   "theorems": [
    "C106_linear",
    "C106_clamped",
    "C106_hold_last",
    "C106_range",
    "C106_attained",
    "C106_unique"
   ],
   "note": "Over the real numbers (ROps). The floating-point versions are C68, C90."
  },
  {
   "property": "C107",
   "status": "proved",
   "theorems": [
    "C107_linear",
    "C107_hold_last",
    "C107_no_step",
    "C107_hold_last_refuted"
   ],
   "note": "Negative steps over the real numbers (ROps); C107_hold_last_refuted is the f64 witness that hold-last does not interpolate there. C107_no_step for every IEEE format."
  }
 ]
}
