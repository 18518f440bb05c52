{
"C11": {
"note": "For any arithmetic (any Ops record), without fma. With fma the flattened and recursive code round differently; C11_exact_* is agreement in exact arithmetic for any combination of builds."
},
"C12": {
"note": "Every number type, every bit pattern. Cubic on a regular grid is C13."
},
"C13": {
"status": "partial",
"note": "False: C13_refuted gives a binary64 observation (cell number -2^63) that panics in a build with overflow checks. The _partial theorems show it is the only way to panic."
},
"C14": {
"note": "Under the hypothesis that the left-to-right product of the sizes fits in usize; see C15 for what happens otherwise."
},
"C15": {
"status": "partial",
"note": "False in builds without overflow checks: C15_refuted accepts 0 values for sizes 2^63 x 2, and evaluation then panics. Proved for builds with overflow checks; in every build the length equals the product modulo 2^64 (C15_*_all_builds_partial), so the check is exact for grids of fewer than 2^64 nodes."
},
"C16": {
"status": "partial",
"note": "Proved for linear and nearest (both grid kinds) and for the recursive cubic entry points; the dispatching cubic entry points panic for 1 to 4 axes (C16_cubic_*_refuted); _partial gives when they return errors."
},
"C17": {
"note": "All ten N-D evaluators, the 1-D evaluator, and interpn."
},
"C18": {
"note": "The failure half of batch_spec, stated separately: on a regular grid, when a point of the batch fails, everything before it is written and nothing after it is touched. On a rectilinear grid no point fails, so the theorems there say that every batch of matching lengths succeeds. The argument checks (mismatch theorems) leave the output unchanged. Instances in PropertiesInstances.v."
},
"C19": {
"note": "The box depends only on the grid and the point; that it is the cell of the point is C01/C27."
},
"C37": {
"note": "For any previous contents of the in-place buffer; with no observation arrays the allocating variants panic (Example C37_empty_ex)."
},
"C01": {
"note": "Over the real numbers (ROps). dom = points whose cell number fits in isize on a regular grid, every point on a rectilinear grid; elsewhere a regular-grid evaluator returns an error."
},
"C02": {
"note": "Over the real numbers (ROps). dom = points whose cell number fits in isize on a regular grid, every point on a rectilinear grid; elsewhere a regular-grid evaluator returns an error."
},
"C03": {
"note": "Over the real numbers (ROps). Every node of every accepted grid, no representability hypothesis."
},
"C04": {
"note": "Over the real numbers (ROps). "
},
"C05": {
"note": "Over the real numbers (ROps). The continuous function F is defined on all of R^N and agrees with eval on dom. dom = points whose cell number fits in isize on a regular grid, every point on a rectilinear grid; elsewhere a regular-grid evaluator returns an error."
},
"C06": {
"note": "Over the real numbers (ROps). dom = points whose cell number fits in isize on a regular grid, every point on a rectilinear grid; elsewhere a regular-grid evaluator returns an error."
},
"C07": {
"note": "Over the real numbers (ROps). F is continuous on all of R^N and agrees with eval on dom."
},
"C08": {
"note": "Over the real numbers (ROps). F is C1 on all of R^N and agrees with eval on dom."
},
"C09": {
"note": "Over the real numbers (ROps). "
},
"C10": {
"note": "Over the real numbers (ROps). The two grids only have to have the same coordinates (same_grid)."
},
"C20": {
"note": "Over the real numbers (ROps). C20_one_dim for the one-dimensional interpolators."
},
"C21": {
"note": "Over the real numbers (ROps). C21_one_dim for the one-dimensional interpolators."
},
"C22": {
"note": "Over the real numbers (ROps). "
},
"C23": {
"note": "Over the real numbers (ROps). Any set of axes at once. Nearest is not reflection invariant (ties go to the lower node). C23_one_dim for the one-dimensional interpolators."
},
"C24": {
"note": "C24_stored_* for every number type; C24_nearest over the real numbers."
},
"C41": {
"note": "Over the real numbers (ROps): evaluation, every batch function (flattened, recursive, allocating) and the 1-D interpolators."
},
"C25": {
"note": "Over the real numbers exactly (iff), for every number type the error cases. On IEEE floats: an observation at least atol outside is flagged, one inside is not when atol > 0 (C25_*_ieee), an infinite observation always is (C25_*_infinite). Hypothesis on regular grids: starts and steps have one entry per axis and every dims entry is >= 1 (otherwise the code panics)."
},
"C26": {
"status": "partial",
"note": "Refuted: with atol = 0 a boundary point is flagged, and NaN observations have no influence on the answer (C26_nan_*_refuted, every grid, tolerance and IEEE format). The partial theorems show that with atol > 0 no finite point of the closed grid interval is flagged, over the reals and on IEEE floats of any precision (through check_bounds itself: C25_*_ieee)."
},
"C27": {
"note": "For every number type whose < is transitive, shown for f64, f32 and the reals. The model follows core's binary search loop (not in /repo)."
},
"C28": {
"note": "meshgrid order for every element type; reading back through the interpolators over the reals."
},
"C29": {
"note": "Over the real numbers."
},
"C30": {
"note": "Between the first and last grid point the two methods agree bit for bit for every number type (C30_inside_*any_number_type); outside, hold-last returns the stored end value bit for bit, for every number type on rectilinear grids and for every IEEE format on regular grids (an observation whose cell number does not fit in isize is an error)."
},
"C31": {
"note": "Over the reals; on rectilinear grids Left1D and Right1D also for every number type with a transitive, irreflexive comparison (floats included), and 'every result is an element of the value array' for every number type."
},
"C32": {
"status": "partial",
"note": "Refuted: see the three _refuted theorems. The _partial theorems say exactly which value is returned at every node, over the reals, and on rectilinear grids for every number type."
},
"C38": {
"note": "Over the real numbers."
},
"C39": {
"status": "partial",
"note": "Refuted for n = 1 (NaN), n = 0 with overflow checks (panic) and when b - a overflows. Partial: n >= 2 finite points for |a|,|b| <= 2^(emax-5) on IEEE floats of any precision."
},
"C33": {
"note": "Any IEEE format. Every bit pattern in grids and values. One-dimensional methods included."
},
"C34": {
"note": "Any IEEE format, with and without fma. increasing_grid is required for rectilinear grids. A finite normalised coordinate is an explicit hypothesis, discharged inside the grid box by C34_inside. One dimension: C34_one_dim_rectilinear, C34_one_dim_regular; C34_one_dim_refuted is the witness that a regular grid whose step is below the resolution of its coordinates gives NaN."
},
"C35": {
"status": "partial",
"note": "False: C35_rectilinear_refuted (values 1e16 and 1), C35_regular_refuted (step 0.1). Proved when differences of values (and, on regular grids, coordinates) are exact, in particular for values within a factor of two (C100_nodes); otherwise up to the error bound of C45."
},
"C36": {
"status": "partial",
"note": "False: C36_refuted (values 1e16 and 1 give 0). Proved with the slack of the error bound of C45; exactly, without slack, for the ranges of C86 and C100."
},
"C40": {
"note": "Any IEEE format."
},
"C44": {
"status": "partial",
"note": "False in builds without overflow checks: C44_refuted. Proved with overflow checks, and without them unless the cell number of a is -2^63."
},
"C42": {
"note": "Any number type (dispatch) and exact arithmetic (values). Regularity is exact equality of computed differences. The dtype column of the match statement is the Ops record."
},
"C43": {
"status": "partial",
"note": "False with two or more axes: C43_refuted, C43_other_dims (always AssertionError). One axis: C43_partial (exact arithmetic) and C43_ieee_*_partial (IEEE floats of any precision)."
},
"C46": {
"status": "partial",
"note": "False: a buffer of two or more elements always raises ValueError and a one-element buffer holding zero is ignored. Proved for a nonzero one-element buffer."
},
"C47": {
"status": "partial",
"note": "False: C47_refuted (a one-point grid, or three points for cubic, is accepted and cannot be evaluated). The _partial theorems assume enough points per axis; cubic on a regular grid assumes a build without overflow checks (see C13). check_bounds in exact arithmetic and on IEEE floats of any precision."
},
"C45": {
"note": "Any IEEE format. Inside the grid only; kappa and A are hypotheses, with a margin to overflow."
},
"C48": {
"note": "JSON as a tree of values: that the decimal text of a number is read back as the same number (Python's repr) is trusted."
},
"C49": {
"note": "Integer arrays stand for all element types other than f32 and f64. Arrays are one-dimensional and contiguous inside the classes."
},
"C50": {
"status": "partial",
"note": "Refuted: new() stores integer data as f32 (16777217 becomes 16777216), and MultilinearRegular / MulticubicRegular accept starts of another element type. Proved for floating-point inputs of new(), and for the element types of all rectilinear and nearest objects. Integer inputs (up to 64 bits) are rounded to the nearest number of the stored type: C50_new_*_holds."
},
"C56": {
"note": "C56_exact_refuted shows that the allowance for rounding is needed."
},
"C58": {
"note": "Any IEEE format (precision at most 64 on regular grids). Inside the grid only; A, kappa and rho are hypotheses, with a margin to overflow. The constants are not sharp."
},
"C64": {
"note": "Exact arithmetic; stated for every split of the axes, regular and rectilinear interpolators may be mixed."
},
"C65": {
"note": "Exact arithmetic. The nested form takes the leading axes first; with C22 (permutation of axes) this covers any order."
},
"C66": {
"note": "Exact arithmetic. Multilinear only: the multicubic and nearest interpolants are not reproduced on a finer grid."
},
"C67": {
"note": "Exact arithmetic."
},
"C68": {
"note": "Every IEEE format. C68_slope_bound_needed is a binary64 witness that the hypothesis on the slopes cannot be dropped."
},
"C69": {
"note": "Every IEEE format. Regular grids: points inside the grid. C69_magnitude_bound_needed is a binary64 witness for the bound on the magnitudes. The exact rectilinear choice of Left1D and Right1D is C31_between_any_number_type."
},
"C70": {
"note": "Every IEEE format; points inside the grid."
},
"C71": {
"note": "Every method on both grid kinds, any format. The one-dimensional linear interpolators form a dimensional slope; C71_one_dim_slope_refuted shows that the condition on it is needed."
},
"C72": {
"note": "Every N-dimensional and one-dimensional method on both grid kinds, any format; zeros of either sign count as equal."
},
"C73": {
"note": "Conditions on grids, values and points are those of C45, C58, C62 and C75 (in linear_run and cubic_run), for the one-dimensional theorems those of C68 (in line_run, line_reach and hold_reach)."
},
"C75": {
"note": "Conditions: moderate coordinates, values so small that nothing overflows, neighbouring spacings within a factor rho (rectilinear) or grid and point within kappa steps of zero (regular)."
},
"C76": {
"note": "Conditions as in C75; with linearised extrapolation also a bound on the second derivative."
},
"C77": {
"note": "Any format with roundoff <= 1/64 (f16 and wider). C77_spacing_needed and C77_last_point_not_exact show why the statement has a tolerance and a condition on the spacing."
},
"C79": {
"note": "An evenly spaced grid is one whose computed differences are all equal, as the package tests it; its points need not be exactly even. check_bounds is off and no output array is passed; C42, C43 and C46 cover those arguments."
},
"C81": {
"note": "The layout rules of NumPy (strides, C_CONTIGUOUS, ravel, flatten) and of rust-numpy (as_slice, TypeError) are modelled from their documentation; they are not code of the repository. Output arrays given by the caller are contiguous in the model."
},
"C86": {
"note": "The theorems with suffix _refuted show where the property stops holding: other regular grids (also through the Python function) and the one-dimensional linear interpolator."
},
"C90": {
"note": "Finite results are the only assumption on sizes. The cell on regular axes is the computed one; C90_pixel_cell shows that it is the true one on axes that start at 0 with a power of two as step. Refuted across cells and along other axes (C90_across_cells_refuted, C90_other_axis_refuted); these are outside the property."
},
"C91": {
"status": "proved",
"note": "Cells are named by comparison with the grid points (rectilinear) or as computed (regular). C91_grid_point_refuted shows that a NaN neighbour is not hidden at a grid point. On regular grids the cubic statement needs overflow checks or a cell number that is not the lowest integer."
},
"C92": {
"status": "proved",
"note": "Strengthens C19: the grid points are named, and the fourth point loaded at the edge is shown not to matter."
},
"C93": {
"status": "proved",
"note": "Every pair of evaluations in the sense of C73 (SpecAgree), linear and cubic: permuted, reflected, rescaled, slice, crop."
},
"C94": {
"status": "proved",
"note": "Superposition and nesting for linear and cubic; resampling on a refined grid for linear only, it is not claimed for cubic."
},
"C95": {
"status": "partial",
"note": "Rectilinear grids in full. Regular grids with at least two values in full (C95_regular_partial, C95_regular_ieee_partial). Refuted for fewer: one value is accepted and every evaluation panics (C95_regular_short, C95_regular_refuted)."
},
"C96": {
"status": "proved",
"note": "Rectilinear: all methods, any number type, any bit patterns. Regular: all methods. The cubic dispatchers and the regular cubic recursion carry the conditions whose failure is C13 (2^63 steps below the start with overflow checks) and C16 (wrong number of arrays with up to four axes). Size products are assumed to fit in usize."
},
"C97": {
"status": "proved",
"note": "Any element type and any bit patterns. The calls that panic (more than eight observation arrays, C13, C16) are part of the statement; C97_cubic_refuted shows that the cubic condition is needed."
},
"C100": {
"status": "proved",
"note": "Proved for rectilinear grids (flat and recursive), pixel-like regular grids and Python interpn; C100_refuted shows that neither condition on the range can be dropped."
},
"C101": {
"status": "proved",
"note": "C101_axis and C101_points over the reals, C101_factor and C101_factor_is_needed for the size of the factor, C101_float_axis and C101_float_points in floating point."
},
"C102": {
"note": "C102_multilinear, C102_multicubic and C102_multicubic_inside over the reals; inside the grid the factor of C102_multilinear is 1 (C60_inside). C102_attained shows that 1/8 is reached. C102_linear_float and C102_cubic_float add the rounding error."
},
"C78": {
"note": "C78_linear and C78_linear_inside at the same point, C78_linear_points and C78_cubic for two points each inside its own grid, C78_nearest for nearest, all over the reals; C78_linear_float and C78_cubic_float in floating point. One-dimensional: C78_one_dim_linear inside the grids, C78_one_dim_hold_last everywhere, C78_one_dim_float in floating point inside the grids. Multicubic extrapolation on moved grids is not covered."
},
"C103": {
"status": "proved",
"note": "Unconditional equations between the call on the relabelled data and the relabelled call, for any operations on any type (no property of the arithmetic is used). Coordinates are not relabelled."
},
"C104": {
"note": "Sizes are only multiplied, so pairs of negative sizes are accepted (C104_regular_ex); the contiguity test of the stored arrays always holds and is not modelled."
},
"C105": {
"note": "C105_cubic_refuted shows that the condition on the number of observation arrays of multicubic objects is needed."
},
"C106": {
"note": "Over the real numbers (ROps). The floating-point versions are C68, C90."
},
"C107": {
"note": "Negative steps over the real numbers (ROps); C107_hold_last_refuted is the f64 witness that hold-last does not interpolate there. C107_no_step for every IEEE format."
}
}