{"id": "C01", "title": "Multilinear evaluation is the multilinear formula of the enclosing cell", "statement": "For a grid and value array accepted by the constructor, evaluating the multilinear interpolator at a point returns (in exact arithmetic) the sum over the 2^N corners c of the cell that contains the point (the nearest edge cell when the point is outside) of vals[corner] times the product over the axes of t_k or 1-t_k, where t_k is the coordinate of the point relative to that cell. In one dimension Linear1D returns the value at the point of the line through the two data points of its cell, outside the grid of the outermost cell.", "quantifier": "every number of dimensions N, every grid size, every grid spacing, every value array, every observation point (inside and outside)", "why_tests_cant": "Unit tests evaluate a few grids in 1-8 dimensions; the formula must hold for every grid, cell and point, and the flattened loop is different code for every N.", "anchors": ["src/multilinear/regular.rs::MultilinearRegular::interp_one", "src/multilinear/regular.rs::get_loc", "src/multilinear/rectilinear.rs::MultilinearRectilinear::interp_one", "src/multilinear/regular_recursive.rs::interp_one", "src/multilinear/regular_recursive.rs::populate", "src/multilinear/rectilinear_recursive.rs::interp_one", "src/multilinear/rectilinear_recursive.rs::populate", "src/one_dim/linear.rs::Linear1D::eval_one"]}
{"id": "C02", "title": "Multilinear interpolation reproduces multi-affine data", "statement": "If the values are samples at the grid nodes of a function that is affine in each coordinate separately, the multilinear interpolator returns (in exact arithmetic) that function's value at the observation point, both inside the grid and when extrapolating. Linear1D reproduces samples of p + q x at every accepted point, and LinearHoldLast1D does so at the point of the grid interval nearest to the observation.", "quantifier": "every N, every grid, every multi-affine function, every observation point", "why_tests_cant": "The space of functions and points is infinite; tests use one linear function on one grid.", "anchors": ["src/multilinear/regular.rs::interp_one", "src/multilinear/rectilinear.rs::interp_one", "src/multilinear/regular_recursive.rs::populate", "src/multilinear/rectilinear_recursive.rs::populate", "src/one_dim/linear.rs::Linear1D::eval_one", "src/one_dim/linear.rs::LinearHoldLast1D::eval_one"]}
{"id": "C03", "title": "Interpolation passes through the data", "statement": "At every grid node the multilinear, multicubic and nearest interpolators return (in exact arithmetic) the value stored for that node. Linear1D, LinearHoldLast1D and Nearest1D do so too (Left1D and Right1D: C32).", "quantifier": "every method, N, grid, value array and every multi-index of a node, including edge nodes where saturation applies", "why_tests_cant": "There are prod(dims) nodes per grid and infinitely many grids; edge nodes go through different branches on regular and rectilinear grids.", "anchors": ["src/multilinear/regular.rs::interp_one", "src/multilinear/rectilinear.rs::interp_one", "src/multicubic/regular.rs::interp_one", "src/multicubic/rectilinear.rs::interp_one", "src/nearest/regular.rs::interp_one", "src/nearest/rectilinear.rs::interp_one", "src/one_dim/linear.rs", "src/one_dim/mod.rs"]}
{"id": "C04", "title": "Multilinear interpolation inside the grid stays between the corner values", "statement": "For a point inside the grid, the multilinear result (in exact arithmetic) is no less than the smallest and no greater than the largest of the 2^N values at the corners of its cell; hence no less than the minimum and no greater than the maximum of the value array. In one dimension Linear1D and LinearHoldLast1D return a result between the values of the two neighbouring grid points.", "quantifier": "every N, grid, value array, point inside the grid", "why_tests_cant": "A bound over all points in a continuum of cells.", "anchors": ["src/multilinear/regular.rs::interp_one", "src/multilinear/rectilinear.rs::interp_one", "src/one_dim/linear.rs::Linear1D::eval_one", "src/one_dim/linear.rs::LinearHoldLast1D::eval_one"]}
{"id": "C05", "title": "Multilinear interpolant is continuous everywhere", "statement": "In exact arithmetic the multilinear interpolant is a continuous function of the observation point, across cell faces and across the boundary into extrapolation. The interpolants of Linear1D and LinearHoldLast1D are continuous everywhere too.", "quantifier": "every N, grid, value array and every point of R^N (regular grids: every point whose cell number fits the machine integer)", "why_tests_cant": "Continuity is an epsilon-delta statement over a continuum; a test samples finitely many points.", "anchors": ["src/multilinear/regular.rs::interp_one", "src/multilinear/regular.rs::get_loc", "src/multilinear/rectilinear.rs::interp_one", "src/multilinear/rectilinear.rs::get_loc", "src/one_dim/linear.rs::Linear1D::eval_one", "src/one_dim/linear.rs::LinearHoldLast1D::eval_one"]}
{"id": "C06", "title": "Multicubic interpolation reproduces per-axis quadratics", "statement": "If the values are samples of a function that is a polynomial of degree at most 2 in each coordinate separately, the multicubic interpolator returns exactly that function at every point inside the grid; with linearize_extrapolation=false also at every point outside; with linearize_extrapolation=true, functions affine in each coordinate are reproduced everywhere.", "quantifier": "every N, grid (uniform and non-uniform spacing), function of the class, point, and both extrapolation settings", "why_tests_cant": "Infinitely many functions, grids and points; the README/doc claim ('reproduce a quadratic function exactly') is a universal statement.", "anchors": ["src/multicubic/regular.rs::interp_inner", "src/multicubic/rectilinear.rs::interp_inner", "src/multicubic/regular_recursive.rs::interp_inner", "src/multicubic/rectilinear_recursive.rs::interp_inner", "src/multicubic/mod.rs::normalized_hermite_spline", "src/multicubic/mod.rs::centered_difference_nonuniform"]}
{"id": "C07", "title": "Multicubic interpolant is continuous everywhere", "statement": "In exact arithmetic the multicubic interpolant is a continuous function of the observation point on all of space, across cells, across the natural-boundary cells and into extrapolation, for both extrapolation settings.", "quantifier": "every N, grid, value array, extrapolation setting, every point", "why_tests_cant": "Epsilon-delta statement over a continuum, over five different evaluation branches per axis.", "anchors": ["src/multicubic/regular.rs::get_loc", "src/multicubic/regular.rs::interp_inner", "src/multicubic/rectilinear.rs::get_loc", "src/multicubic/rectilinear.rs::interp_inner"]}
{"id": "C08", "title": "Multicubic interpolant has continuous first derivatives everywhere", "statement": "In exact arithmetic the multicubic interpolant has, along every axis and at every point, a first partial derivative, and that derivative is a continuous function of the point, including at grid nodes, at the boundary and under both extrapolation settings.", "quantifier": "every N, grid, value array, extrapolation setting, axis and point", "why_tests_cant": "Differentiability and continuity of the derivative cannot be observed by sampling.", "anchors": ["src/multicubic/mod.rs (module documentation)", "src/multicubic/regular.rs::interp_inner", "src/multicubic/rectilinear.rs::interp_inner"]}
{"id": "C09", "title": "Multicubic extrapolation and boundary cells have the documented order", "statement": "In exact arithmetic, the interpolant is a quadratic along an axis in the first and last cell of that axis; with linearize_extrapolation=false the same quadratic continues outside; with linearize_extrapolation=true it is affine along that axis outside, with the value and slope that the boundary cell has at the last grid point; and the setting has no effect at points inside the grid.", "quantifier": "every N, grid, value array, extrapolated axis, point", "why_tests_cant": "Statement about functions, not about sample values.", "anchors": ["src/multicubic/regular.rs::interp_inner", "src/multicubic/rectilinear.rs::interp_inner", "src/multicubic/regular_recursive.rs::interp_inner", "src/multicubic/rectilinear_recursive.rs::interp_inner"]}
{"id": "C10", "title": "Regular and rectilinear interpolators agree on a uniformly spaced grid", "statement": "Given the same uniformly spaced grid described once by (dims, starts, steps) and once by explicit coordinates, the regular and the rectilinear interpolators of the same method (linear, cubic, nearest) return the same value in exact arithmetic at every point, although they choose different cells at grid nodes. The same holds for the one-dimensional interpolators, for Left1D and Right1D at points that are not grid points.", "quantifier": "every method, N, grid, value array, extrapolation setting, point", "why_tests_cant": "The two implementations use different search, different cell conventions at nodes and different slope formulas; agreement is needed at every point.", "anchors": ["src/multilinear/regular.rs", "src/multilinear/rectilinear.rs", "src/multicubic/regular.rs", "src/multicubic/rectilinear.rs", "src/nearest/regular.rs", "src/nearest/rectilinear.rs", "src/one_dim/linear.rs", "src/one_dim/mod.rs"]}
{"id": "C11", "title": "Flattened and recursive evaluators agree bit for bit", "statement": "Without the fma feature the flattened and the recursive evaluators of the same method and grid kind perform the same arithmetic: for every number type, whatever its rounding, they return identical results (including errors and panics) on the same accepted inputs, for every number of dimensions, so the dimension-based dispatch of interpn is invisible. With fma they may differ only by rounding (they agree in exact arithmetic).", "quantifier": "every number type and arithmetic (f32, f64, NaN and infinities included), every N, grid, values, point", "why_tests_cant": "The flattened code is unrolled per N (up to 64/256 vertices), so each N is different straight-line code; tests compare a few points with a tolerance.", "anchors": ["src/multilinear/regular.rs::interp_one", "src/multilinear/regular_recursive.rs::populate", "src/multilinear/rectilinear.rs::interp_one", "src/multilinear/rectilinear_recursive.rs::populate", "src/multicubic/regular.rs::interp_one", "src/multicubic/regular_recursive.rs::populate", "src/multicubic/rectilinear.rs::interp_one", "src/multicubic/rectilinear_recursive.rs::populate"]}
{"id": "C12", "title": "Evaluation of an accepted interpolator never panics", "statement": "If the constructor accepted the grid and values (and the true product of the dimensions is representable in usize), evaluation at any point of the right length returns a value or an error and never panics, reads out of bounds or overflows, for every bit pattern of the observation and of the grid, including NaN, infinities and non-monotonic rectilinear grids.", "quantifier": "every method except cubic on a regular grid, every number type, N, grid, values, point including NaN/inf", "why_tests_cant": "All bit patterns of all inputs; memory safety of computed indices.", "anchors": ["src/lib.rs::index_arr", "src/lib.rs::index_arr_fixed_dims", "src/multilinear/regular.rs::get_loc", "src/multilinear/rectilinear.rs::get_loc", "src/multicubic/regular.rs::get_loc", "src/multicubic/rectilinear.rs::get_loc", "src/nearest/regular.rs::get_loc", "src/nearest/rectilinear.rs::get_loc"]}
{"id": "C13", "title": "Cubic evaluation on a regular grid never panics", "statement": "Like C12 for cubic interpolation on regular grids: evaluation of an accepted interpolator at any point never panics.", "quantifier": "every number type, N, grid, values, point", "why_tests_cant": "The failing input, if any, is a single cell number out of 2^64.", "anchors": ["src/multicubic/regular.rs::get_loc", "src/multicubic/regular_recursive.rs::get_loc"]}
{"id": "C14", "title": "Constructors accept exactly the documented inputs", "statement": "A constructor succeeds if and only if the number of values equals the product of the grid sizes, every axis has at least 2 (linear, nearest) or 4 (cubic) points, and every step is positive (regular) or the first two coordinates of each axis increase (rectilinear); otherwise it returns the error of the first failing check in that order; it never modifies its inputs.", "quantifier": "every list of sizes, starts, steps/coordinates and values, every number type", "why_tests_cant": "Decision rule over all inputs; tests try a few rejections.", "anchors": ["src/multilinear/regular.rs::MultilinearRegular::new", "src/multilinear/rectilinear.rs::new", "src/multilinear/regular_recursive.rs::new", "src/multilinear/rectilinear_recursive.rs::new", "src/multicubic/regular.rs::new", "src/multicubic/rectilinear.rs::new", "src/multicubic/regular_recursive.rs::new", "src/multicubic/rectilinear_recursive.rs::new", "src/nearest/regular.rs::new", "src/nearest/rectilinear.rs::new"]}
{"id": "C15", "title": "Value-array size check is immune to integer overflow", "statement": "A constructor never accepts a value array whose length differs from the mathematical product of the grid sizes.", "quantifier": "every list of grid sizes, both with and without arithmetic overflow checks", "why_tests_cant": "The product of sizes is computed in 64-bit arithmetic; tests use tiny grids.", "anchors": ["src/multilinear/regular.rs::new", "src/multilinear/rectilinear.rs::new", "src/multicubic/regular.rs::new", "src/multicubic/rectilinear.rs::new", "Cargo.toml [profile.release]"]}
{"id": "C16", "title": "interpn reports mismatched argument lengths as errors", "statement": "The function-style interfaces (interpn) return an error, and do not panic, when the numbers of starts, steps or observation arrays do not match the number of dimensions, when observation arrays and output have different lengths, and when the number of dimensions is 0 or above the supported maximum.", "quantifier": "every method, grid kind and every combination of argument lengths", "why_tests_cant": "All combinations of lengths; the cubic functions take a different path from the others.", "anchors": ["src/multilinear/regular.rs::interpn", "src/multilinear/rectilinear.rs::interpn", "src/multicubic/regular.rs::interpn", "src/multicubic/rectilinear.rs::interpn", "src/nearest/regular.rs::interpn", "src/nearest/rectilinear.rs::interpn"]}
{"id": "C17", "title": "Batch evaluation equals pointwise evaluation", "statement": "Evaluating a batch of observation points writes to output i exactly what evaluating point i alone returns, for every i, and changes nothing else; the result of a point does not depend on the other points of the batch or on the previous contents of the output.", "quantifier": "every method, number type, batch size, observation arrays, previous output contents", "why_tests_cant": "Quantifies over all batch sizes, positions and prior contents of the output buffer.", "anchors": ["src/multilinear/regular.rs::interp", "src/multilinear/rectilinear.rs::interp", "src/multilinear/regular_recursive.rs::interp", "src/multilinear/rectilinear_recursive.rs::interp", "src/multicubic/regular.rs::interp", "src/multicubic/rectilinear.rs::interp", "src/multicubic/regular_recursive.rs::interp", "src/multicubic/rectilinear_recursive.rs::interp", "src/nearest/regular.rs::interp", "src/nearest/rectilinear.rs::interp", "src/one_dim/mod.rs::Interp1D::eval"]}
{"id": "C18", "title": "A failing batch leaves a written prefix and an untouched suffix", "statement": "If evaluation of a batch fails at point i, the error of the first failing point is returned, outputs before i hold the results of the earlier points and outputs from i on keep their previous contents; if the argument check fails the output is unchanged. On a regular grid a point can fail because its cell index does not fit; on a rectilinear grid no point ever fails, so every batch of matching lengths succeeds.", "quantifier": "every method, batch, failure position", "why_tests_cant": "Quantifies over every failure position and every buffer content.", "anchors": ["src/multilinear/regular.rs::interp", "src/one_dim/mod.rs::Interp1D::eval"]}
{"id": "C19", "title": "Evaluation is local", "statement": "The result at a point depends only on the values at the 2^N (linear), 4^N (cubic) or single (nearest) grid nodes of the footprint of that point: changing any other entry of the value array does not change the result, bit for bit. The one-dimensional interpolators depend on two neighbouring values only.", "quantifier": "every method, number type, N, grid, point, and every pair of value arrays agreeing on the footprint", "why_tests_cant": "Non-interference: quantifies over pairs of inputs.", "anchors": ["src/multicubic/mod.rs (module documentation)", "src/multilinear/regular.rs::interp_one", "src/multicubic/regular.rs::interp_one", "src/nearest/regular.rs::interp_one", "src/one_dim/mod.rs::RegularGrid1D::at", "src/one_dim/mod.rs::RectilinearGrid1D::at"]}
{"id": "C20", "title": "Evaluation is linear in the values", "statement": "In exact arithmetic, for fixed grid and point, multilinear and multicubic interpolation of a*u+b*v is a times the interpolation of u plus b times the interpolation of v. The same holds for Linear1D and LinearHoldLast1D.", "quantifier": "every N, grid, point, pair of value arrays, pair of scalars", "why_tests_cant": "Infinitely many pairs of data sets.", "anchors": ["src/multilinear/regular.rs::interp_one", "src/multilinear/rectilinear.rs::interp_one", "src/multicubic/regular.rs::interp_inner", "src/multicubic/rectilinear.rs::interp_inner", "src/one_dim/linear.rs"]}
{"id": "C21", "title": "Evaluation is invariant under change of units and translation of the axes", "statement": "In exact arithmetic, translating and positively rescaling any axis of the grid and the corresponding observation coordinate leaves the result unchanged. So it does for the one-dimensional interpolators; for Left1D and Right1D at points that are not grid points.", "quantifier": "every method, N, grid, values, point, every per-axis affine change of coordinates with positive scale", "why_tests_cant": "Infinitely many coordinate changes; catches unscaled slopes.", "anchors": ["src/multicubic/rectilinear.rs::interp_inner", "src/multicubic/regular.rs::interp_inner", "src/multilinear/regular.rs::interp_one", "src/multilinear/rectilinear.rs::interp_one", "src/nearest/regular.rs::interp_one", "src/nearest/rectilinear.rs::interp_one", "src/one_dim/linear.rs", "src/one_dim/hold.rs"]}
{"id": "C22", "title": "Evaluation does not depend on the order of the axes", "statement": "In exact arithmetic, permuting the axes of the grid, the observation point and (correspondingly) the value array leaves the result unchanged, although the code processes the axes in a fixed order.", "quantifier": "every method, N, grid, values, point, permutation of the axes", "why_tests_cant": "N! permutations for every grid.", "anchors": ["src/multilinear/regular.rs::interp_one", "src/multicubic/regular.rs::interp_one", "src/multilinear/regular_recursive.rs::populate", "src/multicubic/regular_recursive.rs::populate"]}
{"id": "C23", "title": "Evaluation commutes with reflection of an axis", "statement": "In exact arithmetic, reversing an axis (negating and reversing its coordinates, reversing the values along it and negating the observation coordinate) leaves multilinear and multicubic results unchanged: the low and the high side of the grid are treated alike. The same holds for Linear1D and LinearHoldLast1D, and for Nearest1D away from midpoints; Left1D and Right1D change places, at points that are not grid points.", "quantifier": "every N, grid, values, point, reflected axis, extrapolation setting", "why_tests_cant": "The low and high boundaries are different branches; symmetry must hold at every point.", "anchors": ["src/multicubic/regular.rs::interp_inner (InsideLow/InsideHigh, OutsideLow/OutsideHigh)", "src/multicubic/rectilinear.rs::interp_inner", "src/one_dim/linear.rs", "src/one_dim/hold.rs"]}
{"id": "C24", "title": "Nearest-neighbour interpolation returns the value of a nearest node", "statement": "The nearest interpolators always return an element of the value array (for every number type); in exact arithmetic it is the value at a node whose coordinate on each axis is at minimal distance from the observation coordinate, the lower node being taken on a tie, and outside the grid the edge node.", "quantifier": "every N, grid, values, point", "why_tests_cant": "All points including exact midpoints and extrapolated points.", "anchors": ["src/nearest/regular.rs::interp_one", "src/nearest/rectilinear.rs::interp_one"]}
{"id": "C25", "title": "Bounds check reports exactly the violated axes", "statement": "check_bounds sets flag i to true if and only if some observation coordinate on axis i is at or beyond atol outside the grid's first/last point on that axis, false otherwise; it changes nothing else and returns an error exactly when the argument counts mismatch (or, for rectilinear grids, a grid is empty). On regular grids it panics if a start or a step is missing, or, in builds with overflow checks, if an axis has size 0.", "quantifier": "every N, grid, observation arrays, tolerance", "why_tests_cant": "Decision rule over all inputs.", "anchors": ["src/multilinear/regular.rs::check_bounds", "src/multilinear/rectilinear.rs::check_bounds", "src/multilinear/regular_recursive.rs::check_bounds", "src/multilinear/rectilinear_recursive.rs::check_bounds"]}
{"id": "C26", "title": "Bounds check does not flag points on the boundary", "statement": "With any tolerance, observation points that lie on the grid boundary itself are not flagged as violations, and NaN observations are flagged.", "quantifier": "every grid, tolerance including 0, boundary points, NaN", "why_tests_cant": "Needs the exact boundary point and exact tolerance.", "anchors": ["src/multilinear/regular.rs::check_bounds", "src/multilinear/rectilinear.rs::check_bounds", "src/interpn/__init__.py::interpn"]}
{"id": "C27", "title": "Cell search on a rectilinear grid finds the bracketing cell", "statement": "For a strictly increasing grid and an observation that compares with it, the bisection search returns the number of grid points strictly below the observation, so the chosen cell brackets the observation whenever it is inside the grid, and the edge cell is chosen otherwise; the search takes at most ceil(log2 n)+1 comparisons.", "quantifier": "every grid length, every strictly increasing grid over any ordered number type (f32 and f64 included), every observation", "why_tests_cant": "All lengths and all positions; bisection off-by-one errors show at specific sizes.", "anchors": ["src/multilinear/rectilinear.rs::get_loc", "src/multilinear/rectilinear_recursive.rs::get_loc", "src/multicubic/rectilinear.rs::get_loc", "src/nearest/rectilinear.rs::get_loc", "src/one_dim/mod.rs::RectilinearGrid1D::index"]}
{"id": "C28", "title": "Value array is read in C order, consistently with meshgrid", "statement": "A value array built by evaluating a function at the points of meshgrid(grids), in order, is read by every interpolator as the function of the grid coordinates: the value used for node (i_0,...,i_{N-1}) is the function at (grid_0[i_0],...,grid_{N-1}[i_{N-1}]).", "quantifier": "every N, every list of grids, every function", "why_tests_cant": "Index arithmetic for every shape; tests with square grids or symmetric functions hide transpositions.", "anchors": ["src/utils.rs::meshgrid", "src/lib.rs::index_arr", "src/lib.rs::index_arr_fixed_dims"]}
{"id": "C29", "title": "One-dimensional linear interpolator agrees with the N-dimensional one", "statement": "In exact arithmetic Linear1D on a regular or rectilinear grid returns the same value as the multilinear interpolator with N=1 on the same data, inside and outside the grid. For every accepted one-dimensional grid the list of its points is accepted as the only axis of a multilinear interpolator, so the comparison is never empty.", "quantifier": "every grid with at least two points, values, observation", "why_tests_cant": "Different code paths that must agree at every point.", "anchors": ["src/one_dim/linear.rs::Linear1D::eval_one", "src/multilinear/regular.rs::interp_one", "src/multilinear/rectilinear.rs::interp_one"]}
{"id": "C30", "title": "Hold-last 1D interpolation", "statement": "LinearHoldLast1D equals linear interpolation for observations inside the grid and returns exactly (bit for bit) the first value below the grid and the last value above it.", "quantifier": "every grid, values, observation; the outside part for every number type", "why_tests_cant": "All observations.", "anchors": ["src/one_dim/linear.rs::LinearHoldLast1D::eval_one", "src/one_dim/mod.rs::index"]}
{"id": "C31", "title": "Left, right and nearest 1D interpolation", "statement": "In exact arithmetic: strictly between grid points Left1D returns the value of the grid point to the left, Right1D to the right, Nearest1D the closer one (left on ties); outside the grid all return the edge value; every result is an element of the value array for every number type.", "quantifier": "every grid, values, observation", "why_tests_cant": "All observations including ties.", "anchors": ["src/one_dim/hold.rs::Left1D::eval_one", "src/one_dim/hold.rs::Right1D::eval_one", "src/one_dim/hold.rs::Nearest1D::eval_one"]}
{"id": "C32", "title": "Left and right 1D interpolation return the node value at a node", "statement": "At a grid point, Left1D ('hold last') and Right1D ('hold next') return the value of that grid point, on both regular and rectilinear grids.", "quantifier": "every grid and node", "why_tests_cant": "Node membership conventions differ between the two grid kinds.", "anchors": ["src/one_dim/hold.rs::Left1D::eval_one", "src/one_dim/hold.rs::Right1D::eval_one", "src/one_dim/mod.rs::RegularGrid1D::index", "src/one_dim/mod.rs::RectilinearGrid1D::index"]}
{"id": "C33", "title": "Non-finite observations are handled predictably", "statement": "On f32/f64: on a regular grid a NaN or infinite observation yields an error from every method (the cubic method may instead reach its overflow panic of C13 on another coordinate); on a rectilinear grid a NaN observation yields NaN from the linear and cubic methods and nearest returns a stored value; nothing panics because of the non-finite coordinate.", "quantifier": "every grid, values, N, number of bits, and every position of the non-finite coordinate", "why_tests_cant": "Statement over all grids and values with special bit patterns.", "anchors": ["src/multilinear/regular.rs::get_loc", "src/multilinear/rectilinear.rs::get_loc", "src/nearest/rectilinear.rs::interp_one"]}
{"id": "C34", "title": "Constant data is reproduced exactly in floating point", "statement": "On f32/f64, if all values equal the same finite number then multilinear interpolation returns a number equal to it whenever the normalised coordinates are finite, with no rounding error, in every dimension. Linear1D and LinearHoldLast1D do so too: on rectilinear grids for coordinates whose differences do not overflow, on regular grids whose computed neighbouring grid points differ (with a step below the resolution of the coordinates the result can be NaN).", "quantifier": "every N, finite constant, grid, observation with finite normalised coordinates; f32 and f64, with and without fma", "why_tests_cant": "2^64 constants times all grids and points.", "anchors": ["src/multilinear/regular.rs::interp_one", "src/multilinear/rectilinear.rs::interp_one", "src/multilinear/regular_recursive.rs::populate", "src/multilinear/rectilinear_recursive.rs::populate", "src/one_dim/linear.rs", "src/one_dim/mod.rs::RegularGrid1D::at"]}
{"id": "C35", "title": "Grid nodes are exact in floating point", "statement": "On f64 the multilinear interpolator returns exactly the stored value at every grid node.", "quantifier": "every grid, value array and node, f64", "why_tests_cant": "Depends on rounding for every pair of neighbouring values.", "anchors": ["src/multilinear/rectilinear.rs::interp_one", "src/multilinear/regular.rs::interp_one"]}
{"id": "C36", "title": "Floating-point interpolation stays between the corner values", "statement": "On f64 the multilinear result inside the grid is between the smallest and largest corner value.", "quantifier": "every grid, value array, point inside the grid, f64", "why_tests_cant": "Rounding of each of 2^64 combinations.", "anchors": ["src/multilinear/rectilinear.rs::interp_one", "src/multilinear/regular.rs::interp_one"]}
{"id": "C37", "title": "The allocating variants equal the in-place variants", "statement": "interpn_alloc and eval_alloc return exactly the output that the in-place variants write into a buffer with the length of the first observation array, and the same errors.", "quantifier": "every method, arguments", "why_tests_cant": "All arguments including error paths.", "anchors": ["src/multilinear/regular.rs::interpn_alloc", "src/multilinear/rectilinear.rs::interpn_alloc", "src/multicubic/regular.rs::interpn_alloc", "src/multicubic/rectilinear.rs::interpn_alloc", "src/nearest/regular.rs::interpn_alloc", "src/nearest/rectilinear.rs::interpn_alloc", "src/one_dim/mod.rs::eval_alloc"]}
{"id": "C38", "title": "linspace returns the requested evenly spaced points", "statement": "For n >= 2 linspace(a,b,n) has n entries, entry i is a + i*(b-a)/(n-1), the first is a and (in exact arithmetic) the last is b, and it is strictly increasing when a < b; the grid it builds satisfies the rectilinear constructor.", "quantifier": "every a, b, n >= 2", "why_tests_cant": "All n.", "anchors": ["src/utils.rs::linspace"]}
{"id": "C39", "title": "linspace is total", "statement": "linspace returns n finite points for every n, including 0 and 1.", "quantifier": "every n and finite a, b", "why_tests_cant": "Corner sizes.", "anchors": ["src/utils.rs::linspace"]}
{"id": "C40", "title": "Cell search on a regular grid is monotone in floating point", "statement": "On f32/f64, for multilinear, nearest and 1-D interpolation on a regular grid with positive step, if two observations a <= b are both placed in a cell then the cell chosen for a is not above the cell chosen for b.", "quantifier": "every f32/f64 start, step, size and pair of observations", "why_tests_cant": "Pairs of 64-bit patterns under rounding.", "anchors": ["src/multilinear/regular.rs::get_loc", "src/nearest/regular.rs::get_loc", "src/one_dim/mod.rs::RegularGrid1D::index"]}
{"id": "C41", "title": "Exact-arithmetic result does not depend on the fma feature", "statement": "Building with or without the fma feature changes results by rounding only: in exact arithmetic every method returns the same value either way.", "quantifier": "every method, N, grid, values, point", "why_tests_cant": "Both feature settings for every input; several expressions are written twice.", "anchors": ["src/multilinear/regular.rs::interp_one", "src/multicubic/regular.rs::interp_inner", "src/multicubic/mod.rs"]}
{"id": "C42", "title": "Python interpn() dispatches to the method and grid kind asked for", "statement": "interpn(obs, grids, vals, method, ...) evaluates the requested method. It runs the regular-grid implementation, on the first point and first difference of each grid, exactly when assume_regular is set or all computed differences of consecutive grid points are equal on every axis; otherwise it runs the rectilinear implementation. In exact arithmetic this choice does not change the result. An unsupported method raises instead of returning.", "quantifier": "every combination of method, dtype, assume_regular, grid regularity", "why_tests_cant": "All combinations and all grids.", "anchors": ["src/interpn/__init__.py::interpn", "src/interpn/__init__.py::_check_regular"]}
{"id": "C43", "title": "Python interpn() bounds checking works in every dimension", "statement": "interpn(..., check_bounds=True) raises ValueError if and only if an observation violates the bounds, and otherwise returns the interpolated values, for every number of dimensions.", "quantifier": "every number of dimensions and every observation", "why_tests_cant": "Tests only exercise one dimension.", "anchors": ["src/interpn/__init__.py::interpn"]}
{"id": "C44", "title": "The cubic search on a regular grid is monotone in floating point", "statement": "On f32/f64, for cubic interpolation on a regular grid, if two observations a <= b are both placed then a's footprint does not start above b's, and a is not considered further towards the high side of the grid (below / first cell / interior / last cell / above) than b.", "quantifier": "every f32/f64 start, step, size, pair of observations, with and without overflow checks", "why_tests_cant": "Pairs of 64-bit patterns under rounding; the failing observation is one cell number out of 2^64.", "anchors": ["src/multicubic/regular.rs::get_loc", "src/multicubic/regular_recursive.rs::get_loc"]}
{"id": "C45", "title": "Floating-point multilinear interpolation is accurate", "statement": "On f32/f64, inside the grid, the multilinear result is finite and differs from the exact multilinear interpolation of the same data by at most N*(16*u*A + tiny) on a rectilinear grid and N*(64*u*kappa*A + tiny) on a regular grid, where N is the number of axes, u the unit roundoff, A the largest value in size, kappa the largest distance of a grid coordinate from zero counted in steps, and tiny a multiple of the smallest subnormal; in particular a cell chosen wrongly because of rounding does no harm beyond that.", "quantifier": "every N, grid, finite value array and point inside the grid, fused or not, flattened or recursive, any IEEE format, as long as N*u (times kappa) is small and nothing is near overflow", "why_tests_cant": "A bound on rounding over all grids, values and points; the worst case is not among any sampled ones.", "anchors": ["src/multilinear/rectilinear.rs::interp_one", "src/multilinear/regular.rs::interp_one", "src/multilinear/regular_recursive.rs::interp_one", "src/multilinear/rectilinear_recursive.rs::interp_one"]}
{"id": "C46", "title": "Python interpn() writes its result to the array passed as out", "statement": "interpn(..., out=buf) with a buffer of the right size and dtype returns the interpolated values and leaves them in buf.", "quantifier": "every valid call and every buffer of the right size, whatever it contains before the call", "why_tests_cant": "Depends on the size and on the previous content of the buffer; tests never pass one to interpn().", "anchors": ["src/interpn/__init__.py::interpn"]}
{"id": "C47", "title": "A validated Python interpolator can be evaluated", "statement": "The wrapper classes accept only grids that have between 1 and 8 (nearest: 6) axes, strictly increasing coordinates (or positive steps) and one value per node. Evaluating an accepted object on arrays of equal length, one per axis, never panics; it returns the library's result, or raises AssertionError with the library's message. check_bounds flags exactly the axes that have an observation at least atol outside the grid.", "quantifier": "every accepted interpolator object, every set of observation arrays, every output buffer of matching length, every number type and build", "why_tests_cant": "All grids, sizes and observations; tests use a few well-formed grids.", "anchors": ["src/interpn/multilinear_regular.py::MultilinearRegular", "src/interpn/multilinear_rectilinear.py::MultilinearRectilinear", "src/interpn/multicubic_regular.py::MulticubicRegular", "src/interpn/multicubic_rectilinear.py::MulticubicRectilinear", "src/interpn/nearest_regular.py::NearestRegular", "src/interpn/nearest_rectilinear.py::NearestRectilinear"]}
{"id": "C48", "title": "Saving a Python interpolator as JSON and loading it gives the same interpolator", "statement": "For every interpolator object of the six wrapper classes, model_validate_json(model_dump_json()) returns an object with exactly the same fields: the same dims, the same numbers in the same element type (f32 or f64, including NaN, infinities and signed zero) and the same flag. A document with a missing or an unknown field is refused.", "quantifier": "every object obtained from the constructor, from new() or from JSON; every array content and length", "why_tests_cant": "Tests round-trip a few arrays; the claim is for every f32/f64 number, including those f32 numbers whose f64 decimal form is rounded back.", "anchors": ["src/interpn/serialization.py::ArrayF32", "src/interpn/serialization.py::ArrayF64", "src/interpn/serialization.py::Array", "src/interpn/multilinear_regular.py::MultilinearRegular", "src/interpn/multilinear_rectilinear.py::MultilinearRectilinear", "src/interpn/multicubic_regular.py::MulticubicRegular", "src/interpn/multicubic_rectilinear.py::MulticubicRectilinear", "src/interpn/nearest_regular.py::NearestRegular", "src/interpn/nearest_rectilinear.py::NearestRectilinear"]}
{"id": "C49", "title": "Python evaluation never mixes element types", "statement": "If observations, grid, values and output have one element type, evaluation returns what the Rust library computes in that type. If any observation or output array, or any stored array, has another element type than the values, evaluation raises (the classes: TypeError) and leaves the output array unchanged. interpn() accepts grids of another element type exactly when they are treated as regular, and then converts only the first point and the first difference of each. This includes integer arrays: evenly spaced integer grids whose entries and step the type of the values represents exactly give the very result of the same grids given as floating-point arrays; unevenly spaced integer grids are a TypeError.", "quantifier": "every combination of element types (f32, f64, integer, other), every array content, all classes and methods", "why_tests_cant": "Tests cover the two homogeneous combinations only.", "anchors": ["src/python.rs", "src/interpn/__init__.py::interpn", "src/interpn/multilinear_regular.py::MultilinearRegular", "src/interpn/multilinear_rectilinear.py::MultilinearRectilinear", "src/interpn/multicubic_regular.py::MulticubicRegular", "src/interpn/multicubic_rectilinear.py::MulticubicRectilinear", "src/interpn/nearest_regular.py::NearestRegular", "src/interpn/nearest_rectilinear.py::NearestRectilinear"]}
{"id": "C50", "title": "A Python interpolator holds the numbers it was built from, in one element type", "statement": "new() stores the values it is given and the grid converted to the element type of the values (exact from f32 to f64, round to nearest from f64 to f32 and from integers). All arrays of an interpolator object have one element type.", "quantifier": "every input array of any element type, every way to obtain an object", "why_tests_cant": "Depends on element types tests do not combine and on the magnitude of the data.", "anchors": ["src/interpn/serialization.py", "src/interpn/multilinear_regular.py::MultilinearRegular", "src/interpn/multilinear_rectilinear.py::MultilinearRectilinear", "src/interpn/multicubic_regular.py::MulticubicRegular", "src/interpn/multicubic_rectilinear.py::MulticubicRectilinear", "src/interpn/nearest_regular.py::NearestRegular", "src/interpn/nearest_rectilinear.py::NearestRectilinear"]}
{"id": "C51", "title": "Interpolation error of a smooth function", "statement": "Inside the grid, with exact arithmetic and values sampled from a function f: the multilinear interpolant differs from f by at most the sum over the axes of M h^2 / 8, where M bounds the second partial derivative and h is the spacing (of the cell of the point, or the largest); for f with slopes bounded by L, by the sum of L h / 2; for any f, by at most the variation of f between the point and the corners of its cell. Nearest neighbour: the sum of L h / 2. Multicubic: the sum of 7/48 M h^3, where M bounds the third partial derivative, times the gain of the earlier axes (5/4 per axis on a regular grid). So refining the grid makes each error as small as wanted. Linear1D and LinearHoldLast1D: M h^2 / 8; for f with slope at most L, L h / 2 for Linear1D and Nearest1D and L h for Left1D and Right1D.", "quantifier": "every dimension, grid, function with the stated derivative bounds, and point inside the grid", "why_tests_cant": "A test compares against a few functions on a few grids with a chosen tolerance.", "anchors": ["src/multilinear/regular.rs::MultilinearRegular", "src/multilinear/regular_recursive.rs::MultilinearRegularRecursive", "src/multilinear/rectilinear.rs::MultilinearRectilinear", "src/multilinear/rectilinear_recursive.rs::MultilinearRectilinearRecursive", "src/multicubic/regular.rs::MulticubicRegular", "src/multicubic/rectilinear.rs::MulticubicRectilinear", "src/multicubic/regular_recursive.rs::MulticubicRegularRecursive", "src/multicubic/rectilinear_recursive.rs::MulticubicRectilinearRecursive", "src/nearest/regular.rs::NearestRegular", "src/nearest/rectilinear.rs::NearestRectilinear", "src/one_dim/linear.rs::Linear1D::eval_one", "src/one_dim/linear.rs::LinearHoldLast1D::eval_one", "src/one_dim/hold.rs::Nearest1D::eval_one", "src/one_dim/hold.rs::Left1D::eval_one", "src/one_dim/hold.rs::Right1D::eval_one"]}
{"id": "C52", "title": "Errors in the data are not amplified", "statement": "If the values of two interpolators on the same grid differ by at most e, then inside the grid their results differ by at most e (multilinear, nearest neighbour) or by at most e times the gain 1 + rho^2/(2(1+rho)) per axis (multicubic, neighbouring spacings differing at most by the factor rho; 5/4 on a regular grid, which is attained). The multicubic interpolant leaves the range of the values at most by the same factor. Exact arithmetic. LinearHoldLast1D at any point, and Linear1D inside the grid, differ by at most e.", "quantifier": "every dimension, grid, pair of value arrays, and point inside the grid (nearest neighbour: any point)", "why_tests_cant": "The worst perturbation depends on all values and on the point.", "anchors": ["src/multilinear/regular.rs::MultilinearRegular", "src/multilinear/regular_recursive.rs::MultilinearRegularRecursive", "src/multilinear/rectilinear.rs::MultilinearRectilinear", "src/multilinear/rectilinear_recursive.rs::MultilinearRectilinearRecursive", "src/multicubic/regular.rs::MulticubicRegular", "src/multicubic/rectilinear.rs::MulticubicRectilinear", "src/multicubic/regular_recursive.rs::MulticubicRegularRecursive", "src/multicubic/rectilinear_recursive.rs::MulticubicRectilinearRecursive", "src/nearest/regular.rs::NearestRegular", "src/nearest/rectilinear.rs::NearestRectilinear", "src/one_dim/linear.rs", "src/one_dim/mod.rs"]}
{"id": "C53", "title": "Monotone data gives a monotone interpolant", "statement": "If the values never decrease along an axis, then the multilinear interpolant never decreases when the point moves up along that axis, with the other coordinates inside the grid, also outside the grid along that axis; the nearest neighbour interpolant never decreases at any point. The multicubic interpolants do not have this property. Exact arithmetic. The five one-dimensional interpolators never decrease on values that never decrease, inside or outside the grid.", "quantifier": "every dimension, grid, axis, value array monotone along the axis, and pair of points differing along it", "why_tests_cant": "Concerns every pair of points.", "anchors": ["src/multilinear/regular.rs::MultilinearRegular", "src/multilinear/regular_recursive.rs::MultilinearRegularRecursive", "src/multilinear/rectilinear.rs::MultilinearRectilinear", "src/multilinear/rectilinear_recursive.rs::MultilinearRectilinearRecursive", "src/multicubic/regular.rs::MulticubicRegular", "src/multicubic/rectilinear.rs::MulticubicRectilinear", "src/multicubic/regular_recursive.rs::MulticubicRegularRecursive", "src/multicubic/rectilinear_recursive.rs::MulticubicRectilinearRecursive", "src/nearest/regular.rs::NearestRegular", "src/nearest/rectilinear.rs::NearestRectilinear", "src/one_dim/mod.rs", "src/one_dim/linear.rs", "src/one_dim/hold.rs"]}
{"id": "C54", "title": "The multilinear interpolant is no steeper than the data", "statement": "If the values change along axis k by at most L_k times the distance from each node to the next, then the multilinear interpolant changes by at most L_k |t - s| when coordinate k moves from s to t (other coordinates inside the grid), and by at most the sum of L_k |x_k - y_k| between any two points inside the grid. Exact arithmetic.", "quantifier": "every dimension, grid, value array, and pair of points", "why_tests_cant": "Concerns every pair of points.", "anchors": ["src/multilinear/regular.rs::MultilinearRegular", "src/multilinear/regular_recursive.rs::MultilinearRegularRecursive", "src/multilinear/rectilinear.rs::MultilinearRectilinear", "src/multilinear/rectilinear_recursive.rs::MultilinearRectilinearRecursive"]}
{"id": "C55", "title": "Floating-point multilinear interpolation of a smooth function", "statement": "Inside the grid, the result computed in floating point from samples of a function f that are accurate to e is finite and differs from f at the observation point by at most the rounding error bound of C45, plus e, plus the sum over the axes of M h^2 / 8, where M bounds the second partial derivative and h the spacing.", "quantifier": "every IEEE format, dimension, accepted grid away from overflow, function with bounded second partial derivatives, and finite point inside the grid", "why_tests_cant": "Combines rounding, sampling and interpolation error for every function and grid.", "anchors": ["src/multilinear/regular.rs::MultilinearRegular", "src/multilinear/regular_recursive.rs::MultilinearRegularRecursive", "src/multilinear/rectilinear.rs::MultilinearRectilinear", "src/multilinear/rectilinear_recursive.rs::MultilinearRectilinearRecursive"]}
{"id": "C56", "title": "The nearest node is chosen in floating point, up to rounding", "statement": "On f32/f64 the nearest interpolators return the value of a node that along every axis is as near to the observation as any other node of that axis: up to the factor 1 + 8u on a rectilinear grid (any finite observation, inside or outside the grid), up to 16 u kappa steps on a regular grid whose coordinates are at most kappa steps away from zero (observation inside the grid, or outside and at most kappa steps away from zero). A node that is nearer than all others by more than the factor is the one chosen. Without an allowance the claim is false: on the grid -1, 1 the value of node -1 is returned at 2^-54.", "quantifier": "every IEEE format, dimension, accepted grid away from overflow, value array and finite observation", "why_tests_cant": "Concerns observations next to every midpoint of every grid, where rounding decides.", "anchors": ["src/nearest/regular.rs::NearestRegular", "src/nearest/rectilinear.rs::NearestRectilinear"]}
{"id": "C57", "title": "Accuracy of floating-point nearest interpolation", "statement": "Inside the grid, the result computed in floating point by the nearest interpolators from samples accurate to e of a function whose slope along axis k is at most L_k differs from the function at the observation point by at most e plus the sum of L_k h_k (1/2 + 4u) on a rectilinear grid, L_k h_k (1/2 + 16 u kappa) on a regular grid, where h_k is the spacing.", "quantifier": "every IEEE format, dimension, accepted grid away from overflow, function with bounded slopes, and finite point inside the grid", "why_tests_cant": "Combines rounding, sampling and interpolation error for every function and grid.", "anchors": ["src/nearest/regular.rs::NearestRegular", "src/nearest/rectilinear.rs::NearestRectilinear"]}
{"id": "C58", "title": "Rounding error of multicubic interpolation", "statement": "Inside the grid, the result computed in floating point is finite and differs from the result of the same interpolator run in exact arithmetic on the same data by at most n (g + gamma)^(n-1) (gamma A + 16000 eta), for n axes, values of size at most A and underflow threshold eta: g = 5/4 and gamma = 1272 u kappa on a regular grid at most kappa steps away from zero; g = 1 + rho^2 / (2 (1 + rho)) and gamma = 8400 u rho on a rectilinear grid whose neighbouring spacings differ at most by the factor rho. At a grid node it is that close to the stored value.", "quantifier": "every IEEE format (at most 64 bits of precision on regular grids), dimension, accepted grid and values away from overflow, both extrapolation settings, with and without fused multiply-add, and every finite point inside the grid", "why_tests_cant": "A bound on the accumulated rounding error over all data and all points; the worst case is not found by sampling.", "anchors": ["src/multicubic/regular.rs::MulticubicRegular", "src/multicubic/regular_recursive.rs::MulticubicRegularRecursive", "src/multicubic/rectilinear.rs::MulticubicRectilinear", "src/multicubic/rectilinear_recursive.rs::MulticubicRectilinearRecursive"]}
{"id": "C59", "title": "Floating-point multicubic interpolation of a smooth function", "statement": "Inside the grid, the result computed in floating point from samples of a function f that are accurate to e is finite and differs from f at the observation point by at most the rounding error bound of C58, plus g^n e, plus the sum over the axes k of g^k (7/48) M h^3, where M bounds the third partial derivative and h the spacing along axis k.", "quantifier": "every IEEE format, dimension, accepted grid away from overflow, function with bounded third partial derivatives, and finite point inside the grid", "why_tests_cant": "Combines rounding, sampling and interpolation error for every function and grid.", "anchors": ["src/multicubic/regular.rs::MulticubicRegular", "src/multicubic/regular_recursive.rs::MulticubicRegularRecursive", "src/multicubic/rectilinear.rs::MulticubicRectilinear", "src/multicubic/rectilinear_recursive.rs::MulticubicRectilinearRecursive"]}
{"id": "C60", "title": "Errors in the data outside the grid", "statement": "If the values of two interpolators on the same grid differ by at most e, then at every accepted point, also outside the grid, their results differ by at most e times one factor per axis. With d the distance from the grid along the axis in widths of the outermost cell (0 inside), the factor is 1 + 2d for multilinear (attained), 1 + rho^2/(2(1+rho)) + (2 + 2 rho) d for multicubic with linearised extrapolation, and 2 rho d^2 more without it. The size of a result is bounded by the size of the values with the same factors. Exact arithmetic.", "quantifier": "every dimension, grid, pair of value arrays, and accepted point inside or outside the grid", "why_tests_cant": "The worst perturbation depends on all values, on the grid and on the point; extrapolation has no reference value.", "anchors": ["src/multilinear/regular.rs::MultilinearRegular", "src/multilinear/regular_recursive.rs::MultilinearRegularRecursive", "src/multilinear/rectilinear.rs::MultilinearRectilinear", "src/multilinear/rectilinear_recursive.rs::MultilinearRectilinearRecursive", "src/multicubic/regular.rs::MulticubicRegular", "src/multicubic/rectilinear.rs::MulticubicRectilinear", "src/multicubic/regular_recursive.rs::MulticubicRegularRecursive", "src/multicubic/rectilinear_recursive.rs::MulticubicRectilinearRecursive"]}
{"id": "C61", "title": "Extrapolation error of a smooth function", "statement": "With exact arithmetic and values sampled from a function f, at every accepted point, the result differs from f by at most the sum over the axes of a per-axis error, times the factors of C60 of the earlier axes. With d the distance from the grid along the axis in cell widths, h the largest spacing, and M2, M3 bounds on the second and third partial derivative in the box around the grid and the point, the per-axis error is M2 h^2 (1/8 + d(1+d)/2) for multilinear, M3 h^3 (7/48 + d/3 + d^2/2 + d^3/6) for multicubic with cubic extrapolation, and M3 h^3 (7/48 + d/3) + M2 h^2 d^2/2 for multicubic with linearised extrapolation. Linear1D: M2 h^2 (1/8 + d(1+d)/2).", "quantifier": "every dimension, grid, function with the stated derivative bounds, and accepted point inside or outside the grid", "why_tests_cant": "A test compares against a few functions at a few points with a chosen tolerance.", "anchors": ["src/multilinear/regular.rs::MultilinearRegular", "src/multilinear/regular_recursive.rs::MultilinearRegularRecursive", "src/multilinear/rectilinear.rs::MultilinearRectilinear", "src/multilinear/rectilinear_recursive.rs::MultilinearRectilinearRecursive", "src/multicubic/regular.rs::MulticubicRegular", "src/multicubic/rectilinear.rs::MulticubicRectilinear", "src/multicubic/regular_recursive.rs::MulticubicRegularRecursive", "src/multicubic/rectilinear_recursive.rs::MulticubicRectilinearRecursive", "src/one_dim/linear.rs::Linear1D::eval_one"]}
{"id": "C62", "title": "Rounding error of multilinear extrapolation", "statement": "Over IEEE floats (any format with enough precision, f32 and f64 included), at every finite point inside or outside the grid, multilinear evaluation succeeds with a finite result, which differs from the multilinear formula evaluated exactly on the same data by at most P * n * (18 u A + 3 eta) on a rectilinear grid and P * n * (64 u kappa A + 3 eta) on a regular one. n is the number of axes, u the unit roundoff, eta the underflow unit, A bounds the values, kappa bounds the distance of grid and point from zero in steps, and P is the product over the axes of 1 + 2d with d the distance from the grid in cell widths. The same distance separates it from the same code run in exact arithmetic.", "quantifier": "every format, dimension, grid, values, FMA setting and point, with P and P*A below 1/16 of the overflow threshold", "why_tests_cant": "Rounding errors depend on every bit of the inputs; outside the grid they grow with the distance, and no finite set of points shows the worst case.", "anchors": ["src/multilinear/regular.rs::MultilinearRegular", "src/multilinear/regular_recursive.rs::MultilinearRegularRecursive", "src/multilinear/rectilinear.rs::MultilinearRectilinear", "src/multilinear/rectilinear_recursive.rs::MultilinearRectilinearRecursive"]}
{"id": "C63", "title": "Floating-point extrapolation of a smooth function", "statement": "If the values are samples of a smooth function f, each accurate to e, then at every finite point inside or outside the grid the result computed in floating point differs from f by at most the rounding error of C62, plus P e, plus the extrapolation error of C61.", "quantifier": "every format, dimension, grid, function with bounded second derivatives on the box around grid and point, and point", "why_tests_cant": "The error combines rounding, data errors and curvature; a test sees one combination per case.", "anchors": ["src/multilinear/regular.rs::MultilinearRegular", "src/multilinear/regular_recursive.rs::MultilinearRegularRecursive", "src/multilinear/rectilinear.rs::MultilinearRectilinear", "src/multilinear/rectilinear_recursive.rs::MultilinearRectilinearRecursive"]}
{"id": "C64", "title": "Separable data", "statement": "In exact arithmetic: if the values on a grid with axes (a1, a2) are products u(i) v(j) of values u on the axes a1 and v on the axes a2, then the result at (x1, x2) is the product of the results of the interpolator of u at x1 and of v at x2. If they are sums u(i) + v(j), it is the sum. This holds for the multilinear, multicubic and nearest-neighbour interpolators, inside and outside the grid.", "quantifier": "every split of the axes into two groups, every grid, data and point, regular and rectilinear, iterative and recursive", "why_tests_cant": "The claim relates three interpolators for every number of axes in each group, every grid and every real point.", "anchors": ["src/multilinear/regular.rs::MultilinearRegular", "src/multilinear/rectilinear.rs::MultilinearRectilinear", "src/multilinear/regular_recursive.rs::MultilinearRegularRecursive", "src/multilinear/rectilinear_recursive.rs::MultilinearRectilinearRecursive", "src/multicubic/regular.rs::MulticubicRegular", "src/multicubic/rectilinear.rs::MulticubicRectilinear", "src/multicubic/regular_recursive.rs::MulticubicRegularRecursive", "src/multicubic/rectilinear_recursive.rs::MulticubicRectilinearRecursive", "src/nearest/regular.rs::NearestRegular", "src/nearest/rectilinear.rs::NearestRectilinear"]}
{"id": "C65", "title": "Slices and nested interpolation", "statement": "In exact arithmetic: with one coordinate at a grid node, the result equals that of the interpolator of the slice of the data at that node, whatever the other coordinates. Interpolating along some of the axes first, once for every node of the other axes, and then along the others gives the same result as interpolating along all axes together.", "quantifier": "every position of the axis, node, split of the axes, grid, data and point; multilinear, multicubic and nearest", "why_tests_cant": "It relates interpolators of different dimension for all data and all points.", "anchors": ["src/multilinear/regular.rs::MultilinearRegular", "src/multilinear/rectilinear.rs::MultilinearRectilinear", "src/multilinear/regular_recursive.rs::MultilinearRegularRecursive", "src/multilinear/rectilinear_recursive.rs::MultilinearRectilinearRecursive", "src/multicubic/regular.rs::MulticubicRegular", "src/multicubic/rectilinear.rs::MulticubicRectilinear", "src/multicubic/regular_recursive.rs::MulticubicRegularRecursive", "src/multicubic/rectilinear_recursive.rs::MulticubicRectilinearRecursive", "src/nearest/regular.rs::NearestRegular", "src/nearest/rectilinear.rs::NearestRectilinear"]}
{"id": "C66", "title": "Refining a multilinear grid changes nothing", "statement": "In exact arithmetic: if a finer grid contains all inner nodes of a coarser one as inner nodes, and its values are the results of a multilinear interpolator on the coarser grid, then the multilinear interpolator on the finer grid is the same function, inside and outside the grid. So it is for Linear1D, and for LinearHoldLast1D on grids with the same ends.", "quantifier": "every dimension, pair of grids (of either kind), data and point", "why_tests_cant": "Equality of two functions on all of R^n, for every refinement.", "anchors": ["src/multilinear/regular.rs::MultilinearRegular", "src/multilinear/rectilinear.rs::MultilinearRectilinear", "src/multilinear/regular_recursive.rs::MultilinearRegularRecursive", "src/multilinear/rectilinear_recursive.rs::MultilinearRectilinearRecursive", "src/one_dim/mod.rs", "src/one_dim/linear.rs", "src/one_dim/hold.rs"]}
{"id": "C67", "title": "Interpolation is local: cropping the grid", "statement": "In exact arithmetic: an interpolator on a sub-box of the grid with the corresponding part of the data gives the results of the interpolator on the whole grid, at every point inside the sub-box (multilinear, nearest), or at every point at least one cell away from the planes where the grid was cut (multicubic). Along a side where nothing was cut off the point may be outside the grid. So it is for the one-dimensional interpolators (Left1D and Right1D: at points that are no grid points).", "quantifier": "every dimension, grid, sub-box, data and point", "why_tests_cant": "A dependence on a far value shows only for the data and points that expose it.", "anchors": ["src/multilinear/regular.rs::MultilinearRegular", "src/multilinear/rectilinear.rs::MultilinearRectilinear", "src/multilinear/regular_recursive.rs::MultilinearRegularRecursive", "src/multilinear/rectilinear_recursive.rs::MultilinearRectilinearRecursive", "src/multicubic/regular.rs::MulticubicRegular", "src/multicubic/rectilinear.rs::MulticubicRectilinear", "src/multicubic/regular_recursive.rs::MulticubicRegularRecursive", "src/multicubic/rectilinear_recursive.rs::MulticubicRectilinearRecursive", "src/nearest/regular.rs::NearestRegular", "src/nearest/rectilinear.rs::NearestRectilinear", "src/one_dim/mod.rs", "src/one_dim/linear.rs", "src/one_dim/hold.rs"]}
{"id": "C68", "title": "Rounding error of one-dimensional linear interpolation", "statement": "In IEEE floating point of any format, Linear1D returns a finite result that differs from the same code run in exact arithmetic by at most a small multiple of the unit roundoff times the largest value: on rectilinear grids inside the grid and at any bounded distance outside it (where the slope times the distance counts as well), on regular grids inside the grid and outside it (where the bound grows with the number of steps the point is outside). LinearHoldLast1D has the same error inside the grid; outside a regular grid it returns the first value itself below the grid and the last value up to that error above it. The slopes of the data must not overflow: without that the result can be NaN at a node.", "quantifier": "every format, compile-time configuration, grid, data with bounded slopes, and point", "why_tests_cant": "Rounding errors depend on every bit of every input; the bound must hold for all of them.", "anchors": ["src/one_dim/linear.rs::Linear1D", "src/one_dim/linear.rs::LinearHoldLast1D", "src/one_dim/mod.rs::RegularGrid1D", "src/one_dim/mod.rs::RectilinearGrid1D"]}
{"id": "C69", "title": "Which stored value the one-dimensional step interpolators return in floating point", "statement": "In IEEE floating point, Nearest1D returns the value of a node whose distance from the point is the smallest up to a relative error of three unit roundoffs on a rectilinear grid, and up to a small part of a step on a regular grid. On a regular grid Left1D and Right1D return the value of the node on the named side up to such a part of a step. At magnitudes where distances overflow Nearest1D can return the farther node.", "quantifier": "every format, compile-time configuration, grid, data and point inside the grid (rectilinear nearest: also outside)", "why_tests_cant": "Near a tie or a node the choice depends on the rounding of the last bit, for any of 2^64 points.", "anchors": ["src/one_dim/hold.rs::Nearest1D", "src/one_dim/hold.rs::Left1D", "src/one_dim/hold.rs::Right1D", "src/one_dim/mod.rs::RegularGrid1D", "src/one_dim/mod.rs::RectilinearGrid1D"]}
{"id": "C70", "title": "One-dimensional linear interpolation of smooth functions, end to end", "statement": "In IEEE floating point, when the values are samples (up to an error e) of a function with second derivative at most M, the computed result of Linear1D and LinearHoldLast1D inside the grid differs from the function by at most the rounding error of C68 + e + M W^2 / 8, where W is the largest cell width. At points outside the grid Linear1D misses the function by at most its rounding error there, e times 1 + 2 s, and M W^2 (1/8 + s (1 + s) / 2), where s is the distance from the grid in widths of the outermost cell and M bounds the second derivative up to the point.", "quantifier": "every format, grid, function with bounded second derivative, sample error and point", "why_tests_cant": "It ranges over all functions of a class and all points.", "anchors": ["src/one_dim/linear.rs::Linear1D", "src/one_dim/linear.rs::LinearHoldLast1D", "src/one_dim/mod.rs::RegularGrid1D", "src/one_dim/mod.rs::RectilinearGrid1D"]}
{"id": "C71", "title": "Changing the unit of an axis by a power of two changes no bit of the result", "statement": "In IEEE floating point, multiplying every coordinate of an axis (grid and point) exactly by a power of two, another one for each axis, leaves the result of every N-dimensional method, flat or recursive, inside or outside the grid, bit for bit the same, including failures, and the new grid is accepted if the old one was; provided that no coordinate is rounded by the change and neither grid nor point is near overflow. So it is for the one-dimensional interpolators; for Linear1D and LinearHoldLast1D no slope of the data may overflow or be subnormal in either unit.", "quantifier": "every format, compile-time configuration, method, number of axes, grid, data, exponents and point", "why_tests_cant": "A single multiplication by a dimensional constant or an absolute tolerance anywhere would show only for some units and some points.", "anchors": ["src/multilinear/regular.rs::MultilinearRegular", "src/multilinear/rectilinear.rs::MultilinearRectilinear", "src/multicubic/regular.rs::MulticubicRegular", "src/multicubic/rectilinear.rs::MulticubicRectilinear", "src/nearest/regular.rs", "src/nearest/rectilinear.rs", "src/one_dim/linear.rs::Linear1D", "src/one_dim/linear.rs::LinearHoldLast1D", "src/one_dim/hold.rs::Nearest1D"]}
{"id": "C72", "title": "Negated data give the negated result", "statement": "In IEEE floating point, when all the data are negated, every N-dimensional method, flat or recursive, and each of the five one-dimensional interpolators returns the negated result at every point (including NaN and points outside the grid), and fails exactly where it failed.", "quantifier": "every IEEE format, number of axes, grid, data and point; all N-dimensional and one-dimensional methods", "why_tests_cant": "It relates two runs on all data; an asymmetric branch would show only for particular signs.", "anchors": ["src/multilinear/regular.rs::MultilinearRegular", "src/multilinear/rectilinear.rs::MultilinearRectilinear", "src/multicubic/regular.rs::MulticubicRegular", "src/multicubic/rectilinear.rs::MulticubicRectilinear", "src/nearest/regular.rs", "src/nearest/rectilinear.rs", "src/one_dim/linear.rs::Linear1D::eval_one", "src/one_dim/linear.rs::LinearHoldLast1D::eval_one", "src/one_dim/hold.rs"]}
{"id": "C73", "title": "Implementations and number formats agree up to rounding", "statement": "Two evaluations of the same grid data, by any two implementations (regular or rectilinear, flattened or recursive, with or without fused multiply-add) in any two number formats (f32, f64, exact), both return a finite number, and the numbers differ by at most the sum of the stated rounding bounds. If the two sets of values differ by up to d, or (multilinear, inside the grid) the two points differ, the difference grows by at most d times the magnification of the method, and by the slope of the data times the distance of the points. The same holds for two evaluations of Linear1D or LinearHoldLast1D at the same point inside the same one-dimensional grid, and of either of them at the same point outside it, with their rounding errors from C68.", "quantifier": "every pair of implementations and formats, every number of axes, grid, data and point within the stated range conditions", "why_tests_cant": "It relates all pairs of implementations and formats on all inputs; tests compare a few with a tolerance chosen by hand.", "anchors": ["src/multilinear/regular.rs::MultilinearRegular", "src/multilinear/rectilinear.rs::MultilinearRectilinear", "src/multilinear/regular_recursive.rs", "src/multilinear/rectilinear_recursive.rs", "src/multicubic/regular.rs::MulticubicRegular", "src/multicubic/rectilinear.rs::MulticubicRectilinear", "src/one_dim/linear.rs::Linear1D::eval_one", "src/one_dim/linear.rs::LinearHoldLast1D::eval_one"]}
{"id": "C74", "title": "In floating point the multilinear interpolant is monotone, and no steeper than the data, up to rounding", "statement": "If the data never decreases along an axis, moving the point up along that axis never decreases the computed result by more than the sum of the rounding bounds of the two evaluations; and if the data is nowhere steeper than L along the axis, the result changes by at most L times the distance plus those bounds. Both hold for any implementation and format, also when the point leaves the grid along that axis. For Linear1D and LinearHoldLast1D inside the grid: when all slopes of the data lie between m and M, the computed result rises between two points by at least m and at most M times their distance, up to the two rounding errors. For Linear1D this also holds when one or both points are outside the grid, and for LinearHoldLast1D too, with the distance of the nearest points of the grid interval.", "quantifier": "every format, implementation, number of axes, grid, data, axis, point and displacement within the stated range conditions", "why_tests_cant": "It compares the results at all pairs of points; violations would show only at particular cell boundaries.", "anchors": ["src/multilinear/regular.rs::MultilinearRegular", "src/multilinear/rectilinear.rs::MultilinearRectilinear", "src/multilinear/regular_recursive.rs", "src/multilinear/rectilinear_recursive.rs", "src/one_dim/linear.rs::Linear1D::eval_one", "src/one_dim/linear.rs::LinearHoldLast1D::eval_one"]}
{"id": "C75", "title": "Multicubic extrapolation in floating point is close to the exact result", "statement": "At a point at most D cell widths outside the grid along every axis, the multicubic interpolators run in floating point return a finite number that differs from the result of the same code run in exact arithmetic on the same data by at most a stated multiple of the unit roundoff times the largest value. The bound grows like 1 + D if the extrapolation is linearised and like (1 + D)^3 otherwise.", "quantifier": "every IEEE format, number of axes, grid, data and point within the stated range conditions, regular and rectilinear, flattened and recursive, fused or not, both settings of linearize_extrapolation", "why_tests_cant": "The bound must hold at every point inside and outside the grid; tests sample a few points with a tolerance chosen by hand.", "anchors": ["src/multicubic/regular.rs::MulticubicRegular", "src/multicubic/rectilinear.rs::MulticubicRectilinear", "src/multicubic/regular_recursive.rs", "src/multicubic/rectilinear_recursive.rs", "src/multicubic/mod.rs::normalized_hermite_spline"]}
{"id": "C76", "title": "Accuracy of multicubic extrapolation of a smooth function in floating point", "statement": "If the stored values are samples of a smooth function accurate to e, then at a point at most D cell widths outside the grid the computed result differs from the function by at most the rounding error of C75, plus e times the magnification of the method at that distance, plus the extrapolation error: third derivative times spacing cubed times a cubic polynomial in the distance; with linearised extrapolation, a multiple of the second derivative times the squared distance takes the place of the higher terms.", "quantifier": "every IEEE format, number of axes, grid, smooth function, sample error and point within the stated range conditions", "why_tests_cant": "It ranges over all smooth functions, grids and points.", "anchors": ["src/multicubic/regular.rs::MulticubicRegular", "src/multicubic/rectilinear.rs::MulticubicRectilinear", "src/multicubic/regular_recursive.rs", "src/multicubic/rectilinear_recursive.rs", "src/multicubic/mod.rs::normalized_hermite_spline"]}
{"id": "C77", "title": "linspace in floating point is close to evenly spaced and ordered", "statement": "In floating point, linspace(a, b, n) with n >= 2 and moderate ends returns n finite points; the first is a, each differs from the evenly spaced point by at most eight unit roundoffs of the larger end (plus an underflow term), the points never decrease if a <= b, and if the spacing exceeds twice that bound they increase strictly, so the rectilinear constructors accept a grid made of such axes.", "quantifier": "every IEEE format with roundoff at most 1/64, all moderate finite ends, every n up to the largest exact integer of the format", "why_tests_cant": "Rounding depends on every bit of a, b and n; a test cannot try all triples.", "anchors": ["src/utils.rs::linspace", "src/multilinear/rectilinear.rs::MultilinearRectilinear::new", "src/multicubic/rectilinear.rs::MulticubicRectilinear::new"]}
{"id": "C78", "title": "Small changes of the grid coordinates change the result little", "statement": "If two multilinear interpolators hold the same values on grids whose nodes differ by at most d_k along axis k, and the data changes by at most L_k per unit length along axis k, their results at the same point differ in exact arithmetic by at most the sum of the L_k d_k when the point lies inside both grids, and by that times a factor that grows with the distance from the grids when it lies outside. If the points differ as well, each inside its own grid, the distance of the points along axis k is added to d_k. For multicubic interpolation inside the grids the same holds with a factor that depends only on how uneven the spacings of the grids are. In floating point the rounding errors of the two evaluations are added; grid, values and point may then all differ, as when all arguments are rounded to a shorter format. A nearest interpolator on the moved grid returns the value of a node that is nearest in the first grid up to 2 d_k. In one dimension Linear1D inside the two grids differs by at most L (|x - x'| + d), and LinearHoldLast1D at any two accepted points by at most L (max(|x - x'|, d) + d). In floating point the rounding errors and the difference of the values are added. Nearest1D on the moved grid returns the value of a node that is nearest in the first grid up to 2 d.", "quantifier": "all pairs of grids of any dimension and size (regular or rectilinear, any implementation), all values, all points including points outside (multilinear, exact), exact arithmetic and any two IEEE formats", "why_tests_cant": "The bound must hold for every perturbation, every value array and every point at once.", "anchors": ["src/multilinear/rectilinear.rs::MultilinearRectilinear::interp_one", "src/multilinear/regular.rs::MultilinearRegular::interp_one", "src/multilinear/rectilinear_recursive.rs", "src/multilinear/regular_recursive.rs", "src/nearest/rectilinear.rs::NearestRectilinear::interp_one", "src/multicubic/rectilinear.rs::interp_one", "src/multicubic/regular.rs::interp_one", "src/multicubic/rectilinear_recursive.rs::interp_one", "src/multicubic/regular_recursive.rs::interp_one", "src/one_dim/linear.rs::Linear1D::eval_one", "src/one_dim/linear.rs::LinearHoldLast1D::eval_one", "src/one_dim/hold.rs::Nearest1D::eval_one"]}
{"id": "C79", "title": "Python interpn in floating point is close to the exact interpolant of the arrays given", "statement": "The Python function interpn with method linear, called in floating point with well-formed arrays, increasing grids and points inside the grids, returns an array of the shape of the first observation array whose every element is finite and within an explicit rounding bound of the exact multilinear interpolant of the grids and values as given. This holds both when the grid is not evenly spaced (rectilinear code runs) and when the computed differences of the grid points are all equal, so that the call switches to the regular code and drops all grid points but the first two of each axis.", "quantifier": "every IEEE format with at most 64 bits of precision, 1 to 8 dimensions, any grid sizes, any number of observation points, any values within the bound, all feature flags and all settings of linearize_extrapolation, assume_regular and atol", "why_tests_cant": "Whether the grid is replaced by a regular one depends on the rounding of every difference of its points; the accuracy of the replacement must hold for all of them.", "anchors": ["src/interpn/__init__.py::interpn", "src/interpn/__init__.py::_check_regular", "src/python.rs", "src/multilinear/regular.rs", "src/multilinear/rectilinear.rs"]}
{"id": "C80", "title": "Python interpn in floating point approximates the sampled function", "statement": "Under the conditions of C79, if the values are samples of a function with bounded second derivatives up to an error e, every element returned is within rounding bound + e + the sum of M_k h_k^2 / 8 of the function at its point.", "quantifier": "every such function, format, array and point, as in C79", "why_tests_cant": "Error bounds over all smooth functions, grids and points cannot be settled by examples.", "anchors": ["src/interpn/__init__.py::interpn", "src/multilinear/regular.rs", "src/multilinear/rectilinear.rs"]}
{"id": "C81", "title": "Results do not depend on the memory layout of the NumPy arrays", "statement": "The Python function interpn gives the same result for arrays of the same shape and elements, whatever their layout in memory: transposed, in Fortran order, sliced with a stride, reversed or broadcast. Element number k of the result in C order belongs to element number k of the observation arrays. So does check_bounds of the classes. eval of the classes accepts one-dimensional contiguous arrays, at any position of a larger buffer, and raises TypeError without evaluating if an array has another shape or is not contiguous. With more than 8 arrays the bindings of eval panic, unless an array is not one-dimensional or one of the first nine is not contiguous: then it is a TypeError.", "quantifier": "all shapes, strides (also zero or negative), offsets and buffers, all methods, flags and number types", "why_tests_cant": "There are infinitely many layouts of the same array; a wrong order of elements shows only for particular shapes and strides.", "anchors": ["src/interpn/__init__.py::interpn", "src/python.rs::unpack_vec_of_arr", "src/interpn/multilinear_rectilinear.py::MultilinearRectilinear.eval", "src/interpn/multilinear_rectilinear.py::MultilinearRectilinear.check_bounds"]}
{"id": "C82", "title": "Python interpn with method cubic in floating point is close to the exact multicubic interpolant", "statement": "The Python function interpn with method cubic, called in floating point with well-formed arrays, increasing grids with at least four points each and points inside the grids, returns an array of the shape of the first observation array whose every element is finite and within an explicit rounding bound of an exact multicubic interpolant of the values: that of the grids as given if their computed differences are not all equal, otherwise that of the regular grids first + i * step (whose nodes are within 3 u kappa steps of the points given).", "quantifier": "every IEEE format with at most 64 bits of precision, 1 to 8 dimensions, any grid sizes, any number of observation points, any values within the bound, all feature flags, linearize_extrapolation, assume_regular (false for uneven grids) and atol", "why_tests_cant": "Which code runs depends on the rounding of every difference of the grid points; the accuracy must hold for all of them, including points that fall slightly outside the regular grid that replaces the one given.", "anchors": ["src/interpn/__init__.py::interpn", "src/interpn/__init__.py::_check_regular", "src/python.rs", "src/multicubic/regular.rs", "src/multicubic/rectilinear.rs"]}
{"id": "C83", "title": "Python interpn with method cubic in floating point approximates the sampled function", "statement": "Under the conditions of C82, if the values are samples at the grid points given, up to an error e, of a function with bounded third derivatives (and, for evenly spaced grids, bounded slopes and second derivatives in a box slightly larger than the grid), every element returned is within an explicit bound of the function at its point: rounding error, plus the error of the samples and of the node positions magnified by the gain of each axis, plus the cubic interpolation error M_k h_k^3 7/48 of each axis.", "quantifier": "every such function, format, array and point, as in C82", "why_tests_cant": "Error bounds over all smooth functions, grids and points cannot be settled by examples.", "anchors": ["src/interpn/__init__.py::interpn", "src/interpn/__init__.py::_check_regular", "src/python.rs", "src/multicubic/regular.rs", "src/multicubic/rectilinear.rs"]}
{"id": "C84", "title": "Python interpn with method nearest in floating point returns the value of a nearest grid point", "statement": "The Python function interpn with method nearest, called in floating point with well-formed arrays and increasing grids, returns an array of the shape of the first observation array. Every element is the value of a grid point that along every axis is as near to its observation point as any other point of the grid as given: up to 23 u kappa steps if the computed differences of each grid are equal (observation points at most kappa steps from zero, inside the grid or not), otherwise up to the factor 1 + 8u (any finite observation points).", "quantifier": "every IEEE format with at most 64 bits of precision, 1 to 6 dimensions, any grid sizes, any number of observation points, any values, all feature flags, assume_regular (false for uneven grids) and atol", "why_tests_cant": "Which code runs depends on the rounding of every difference of the grid points, and the regular code replaces the grid points given by first + i * step; the node chosen must be nearest for all of them.", "anchors": ["src/interpn/__init__.py::interpn", "src/interpn/__init__.py::_check_regular", "src/python.rs", "src/nearest/regular.rs", "src/nearest/rectilinear.rs"]}
{"id": "C85", "title": "Python interpn with method nearest in floating point approximates the sampled function", "statement": "Under the conditions of C84, if the observation points are inside the grids and the values are samples at the grid points given, up to an error e, of a function whose slope along axis k is at most L_k, every element returned is within e plus the sum over the axes of L_k times half the largest spacing (plus 23 u kappa steps, or a factor 1 + 8u for uneven grids) of the function at its point.", "quantifier": "every such function, format, array and point, as in C84", "why_tests_cant": "Error bounds over all functions, grids and points cannot be settled by examples.", "anchors": ["src/interpn/__init__.py::interpn", "src/interpn/__init__.py::_check_regular", "src/python.rs", "src/nearest/regular.rs", "src/nearest/rectilinear.rs"]}
{"id": "C86", "title": "Multilinear interpolation in floating point never leaves the interval from 0 to a power of two, on rectilinear grids and on regular grids starting at 0 with power-of-two steps", "statement": "For an observation point inside a rectilinear grid with increasing coordinates below a quarter of the overflow threshold, multilinear interpolation in floating point (flat or recursive, with or without fused multiply-add) of values all between 0 and 2^e returns a finite number between 0 and 2^e, exactly: non-negative values never give a negative result and probabilities never give a result above 1. Values all between -2^e and 2^e give a result between -2^e and 2^e. The same holds for every element returned by the Python function interpn with method linear if the grids are not all evenly spaced. The same holds on regular grids that start at 0, with at most 2^prec points per axis and steps that are normal powers of two (such as the pixels of an image), and for the Python function on such grids. (It does not hold for all regular grids nor for the one-dimensional linear interpolator: see the _refuted theorems.)", "quantifier": "every IEEE format with at least 2 bits of precision, any number of dimensions, grids, values, points inside the grid, every exponent e for which 2^e is a normal number (below the largest), all feature flags", "why_tests_cant": "The result does leave the range of the values for other ranges (C36), by one rounding error at a few points among 2^64: that it never leaves these ranges depends on the tie-breaking of every rounding.", "anchors": ["src/multilinear/regular.rs::interp_one", "src/multilinear/regular_recursive.rs::interp_one", "src/multilinear/rectilinear.rs::interp_one", "src/multilinear/rectilinear_recursive.rs::interp_one", "src/interpn/__init__.py::interpn"]}
{"id": "C87", "title": "Evaluating points in chunks, in another order or repeatedly gives the same results", "statement": "If a batch of observation points is evaluated successfully, any batch made of points of it (a part of it, a permutation, with repetitions) is evaluated successfully, whatever the output array held before, and every point gets the same result, bit for bit. If two batches are evaluated successfully, so is the batch of all their points, with the results of the two. This holds for the ten methods interp and the ten functions interpn of the Rust library, the one-dimensional evaluator, and the Python function interpn with any method and any array shapes.", "quantifier": "every number type, method, grid, values, batch, choice of points, previous output contents, all feature flags", "why_tests_cant": "Splitting a batch over threads or calls must not change any bit for any batch and any split.", "anchors": ["src/multilinear/regular.rs::interpn", "src/multilinear/rectilinear.rs::interpn", "src/nearest/regular.rs::interpn", "src/multicubic/regular.rs::interpn", "src/one_dim/mod.rs::Interp1D::eval", "src/interpn/__init__.py::interpn"]}
{"id": "C88", "title": "The Python function interpn and the Python classes give identical results", "statement": "interpn(obs, grids, vals, method) returns or raises exactly what eval(obs) of the wrapper class of that method does on the same data, bit for bit: the class for regular grids, constructed from the first point and the first difference of each grid, if assume_regular is set or all computed differences of every grid are equal; otherwise the class for rectilinear grids.", "quantifier": "every number type, at most 8 axes, every grid with at least two points per axis, values, observation arrays, methods linear, nearest and cubic, all feature flags", "why_tests_cant": "The two entry points reach the library through different code; they must agree for all data, including the calls that raise.", "anchors": ["src/interpn/__init__.py::interpn", "src/interpn/multilinear_regular.py", "src/interpn/multilinear_rectilinear.py", "src/interpn/multicubic_regular.py", "src/interpn/multicubic_rectilinear.py", "src/interpn/nearest_regular.py", "src/interpn/nearest_rectilinear.py", "src/python.rs"]}
{"id": "C89", "title": "Multilinear interpolation of dyadic data is exact in floating point", "statement": "If the values are whole multiples of 2^g and at most 2^(g+a) in absolute value, the grid spacings are powers of two, and the observation point (inside the grid) and the grid coordinates are whole multiples of 2^-b times the spacing, then multilinear interpolation over n axes makes no rounding error at all as long as a + 1 + n*b is at most the precision: the result is finite and equal to the result of the same library code run in exact arithmetic. For example, 8-bit images can be resampled exactly in double precision at all multiples of 2^-22 of a pixel. This holds for regular and rectilinear grids, flat and recursive evaluators, with or without fused multiply-add, and for the Python function interpn with method linear. Outside the grid the same holds with more digits: if the point lies at most (2^m - 1)/2 cell widths outside along every axis, a + 1 + n*(b + m) binary digits are enough. Linear1D and LinearHoldLast1D are exact under the same conditions with n = 1, inside the grid, if the slopes of the data neither overflow nor underflow.", "quantifier": "every IEEE format (precision 2 to 62 for regular grids), any number of dimensions, all dyadic grids, values and points inside or outside the grid within the exponent range, all feature flags", "why_tests_cant": "Exactness must hold for every combination of data and position in a set of astronomically many; a single intermediate rounding anywhere breaks it.", "anchors": ["src/multilinear/regular.rs::interp_one", "src/multilinear/regular_recursive.rs::interp_one", "src/multilinear/rectilinear.rs::interp_one", "src/multilinear/rectilinear_recursive.rs::interp_one", "src/interpn/__init__.py::interpn", "src/one_dim/linear.rs::Linear1D", "src/one_dim/linear.rs::LinearHoldLast1D"]}
{"id": "C90", "title": "Within a cell, linear interpolation does not turn back along the last axis", "statement": "Take three points that differ only in their last coordinate, with the last coordinates in order and in the same cell of the last axis (the first and the last cell extend outwards without limit). Whatever the grid and the values, if the floating-point results of multilinear interpolation at the three points are finite, they are in rising or in falling order: rounding never makes the result go up and down between two neighbouring grid points. For Linear1D the direction is that of the two stored values of the cell. This holds on rectilinear grids, on regular grids for the cells as computed, with or without fused multiply-add, flat or recursive, and for the Python function on unevenly spaced grids. It does not extend to neighbouring cells or to the other axes: counterexamples are given in which the results turn back by one unit in the last place.", "quantifier": "every IEEE format, any number of dimensions, all grids increasing along the last axis, all values and triples of points with finite results, all feature flags", "why_tests_cant": "The order must survive rounding for every triple of points; a failure would be one unit in the last place at isolated points.", "anchors": ["src/multilinear/regular.rs::interp_one", "src/multilinear/regular_recursive.rs::interp_one", "src/multilinear/rectilinear.rs::interp_one", "src/multilinear/rectilinear_recursive.rs::interp_one", "src/one_dim/linear.rs::Linear1D::eval_one", "src/interpn/__init__.py::interpn"]}
{"id": "C91", "title": "A missing or infinite stored value is never hidden", "statement": "For multilinear interpolation every stored value at a corner of the cell of the point counts, for multicubic interpolation every stored value at a corner of the cell or at a grid point next to the cell along any axes. If the floating-point result is finite, all these values are finite; if one of them is NaN, the result is NaN. This holds inside the grid and when extrapolating, with or without linearized extrapolation and fused multiply-add, flat or recursive, on rectilinear grids and, for the cell as computed, on regular ones, for Linear1D, and for the linear and cubic Python function on unevenly spaced grids. A weight of zero does not hide a value: at a grid point the result is NaN if another corner of the cell is, so the stored value itself is then not returned (counterexample given).", "quantifier": "every IEEE format, any number of dimensions, all increasing grids, all values including NaN and infinities, all points and feature flags", "why_tests_cant": "It must hold for every position of the bad value, every cell and saturation case, and every number of dimensions.", "anchors": ["src/multilinear/regular.rs::interp_one", "src/multilinear/regular_recursive.rs::interp_one", "src/multilinear/rectilinear.rs::interp_one", "src/multilinear/rectilinear_recursive.rs::interp_one", "src/multicubic/regular.rs::interp_one", "src/multicubic/regular_recursive.rs::interp_one", "src/multicubic/rectilinear.rs::interp_one", "src/multicubic/rectilinear_recursive.rs::interp_one", "src/multicubic/mod.rs::normalized_hermite_spline", "src/multicubic/mod.rs::centered_difference_nonuniform", "src/one_dim/linear.rs::Linear1D::eval_one", "src/interpn/__init__.py::interpn"]}
{"id": "C92", "title": "Exactly the values around the cell matter", "statement": "The values named in C91 are the only ones that matter: two interpolators of the same kind on the same grid whose values agree at the corners of the cell of a point (linear), or at the grid points of the cell and next to it (cubic), give the same result there, bit for bit, or fail alike. At the edge of the grid the cubic methods load a fourth point per axis; its value has no influence, not even if it is NaN.", "quantifier": "every IEEE format, any number of dimensions, all increasing grids, all points, all pairs of value arrays agreeing at the named points, all feature flags", "why_tests_cant": "Quantifies over pairs of inputs and over every value that should not matter, including NaN.", "anchors": ["src/multilinear/regular.rs::interp_one", "src/multilinear/regular_recursive.rs::interp_one", "src/multilinear/rectilinear.rs::interp_one", "src/multilinear/rectilinear_recursive.rs::interp_one", "src/multicubic/regular.rs::interp_one", "src/multicubic/regular_recursive.rs::interp_one", "src/multicubic/rectilinear.rs::interp_one", "src/multicubic/rectilinear_recursive.rs::interp_one"]}
{"id": "C93", "title": "Rearranging the data changes results by rounding only", "statement": "Two floating-point evaluations that describe the same thing in different arrangements both give a number, and the numbers differ by at most the sum of the two error bounds: with the axes in another order and the data transposed, with axes reversed, with the axes in other units or with other origins, with one coordinate at a grid point and the slice of the data there on one axis less, and on a part of the grid (cubic: away from the cut by one cell). The two may use different implementations and number formats.", "quantifier": "every pair of IEEE formats or exact arithmetic, any number of dimensions, all orders and sets of axes, all grids, values and points inside or outside the grid within the conditions of C45, C58, C62 and C75, all feature flags", "why_tests_cant": "The exact identities fail in floating point, and the bound has to hold for every rounding of every evaluation.", "anchors": ["src/multilinear/regular.rs::interp_one", "src/multilinear/regular_recursive.rs::interp_one", "src/multilinear/rectilinear.rs::interp_one", "src/multilinear/rectilinear_recursive.rs::interp_one", "src/multicubic/regular.rs::interp_one", "src/multicubic/regular_recursive.rs::interp_one", "src/multicubic/rectilinear.rs::interp_one", "src/multicubic/rectilinear_recursive.rs::interp_one"]}
{"id": "C94", "title": "Superposition, nesting and resampling up to rounding", "statement": "In floating point, too: the result for data w close to a*u+b*v is a times the result for u plus b times that for v, up to the rounding errors of the three evaluations and the deviation of w, magnified only outside the grid (linear) or by the cubic gain; interpolating along some axes first, storing the computed results on the grid of the others and interpolating those gives the result of the joint interpolation up to the rounding errors; and filling a finer grid with computed results of a multilinear interpolator gives an interpolator with the same results up to the rounding errors.", "quantifier": "every IEEE format or exact arithmetic for each evaluation, any number of dimensions, all grids, values, coefficients, splits of the axes, refinements and points within the conditions of C45, C58, C62 and C75, all feature flags", "why_tests_cant": "Involves three or more evaluations whose rounding errors add up in every combination.", "anchors": ["src/multilinear/regular.rs::interp_one", "src/multilinear/regular_recursive.rs::interp_one", "src/multilinear/rectilinear.rs::interp_one", "src/multilinear/rectilinear_recursive.rs::interp_one", "src/multicubic/regular.rs::interp_one", "src/multicubic/regular_recursive.rs::interp_one", "src/multicubic/rectilinear.rs::interp_one", "src/multicubic/rectilinear_recursive.rs::interp_one"]}
{"id": "C95", "title": "The one-dimensional interpolators never panic", "statement": "A one-dimensional grid that its constructor accepts can be evaluated by every method (linear, linear with hold-last, left, right, nearest) at every observation without a panic: on rectilinear grids, accepted exactly when there are at least two coordinates and as many values, every evaluation returns a number; on regular grids it returns a number or, when the number of steps from the start does not fit in isize, an error. The same holds for batches.", "quantifier": "every number type, all bit patterns of coordinates, steps, values and observations (NaN, infinities, unsorted grids, zero steps included), all build configurations", "why_tests_cant": "Panics come from index arithmetic at extreme lengths and from unordered or non-finite numbers.", "anchors": ["src/one_dim/mod.rs::RegularGrid1D", "src/one_dim/mod.rs::RectilinearGrid1D", "src/one_dim/mod.rs::Interp1D", "src/one_dim/linear.rs", "src/one_dim/hold.rs"]}
{"id": "C96", "title": "A whole interpn call succeeds exactly on valid arguments, and otherwise returns an error", "statement": "One call of interpn, for every method and grid kind, does one of the following and nothing else. On invalid arguments (wrong number of axes or arrays, unequal lengths, too few nodes, a wrong number of values, a step that is not positive, first two coordinates that do not increase) it returns an error and leaves the output unchanged. On valid arguments over a rectilinear grid it succeeds whatever the numbers are. On valid arguments over a regular grid it succeeds if the number of whole steps from the start to every observation fits in isize, and otherwise returns the error 'Unrepresentable coordinate value'. It never panics, apart from the two cases recorded in C13 and C16 and the allocating variants called without observation arrays.", "quantifier": "every number type, all dimensions, grids, values, observations and output buffers, all build configurations", "why_tests_cant": "The claim covers all bit patterns, all combinations of wrong lengths and all axis counts at once.", "anchors": ["src/multilinear/regular.rs::interpn", "src/multilinear/rectilinear.rs::interpn", "src/multicubic/regular.rs::interpn", "src/multicubic/rectilinear.rs::interpn", "src/nearest/regular.rs::interpn", "src/nearest/rectilinear.rs::interpn"]}
{"id": "C97", "title": "Which calls of Python interpn return, and what the others raise", "statement": "A call interpn(obs, grids, vals, method) of the Python package without output array and bounds check behaves as follows. On valid arguments (one observation array per grid, equal lengths, enough coordinates per grid, a value for each grid point, increasing first two coordinates, allowed number of axes) it returns a new array shaped like the first observation array: always if the grids are unevenly spaced, and if the number of steps to every observation fits in isize if they are evenly spaced. Otherwise it raises AssertionError, or IndexError for a grid with fewer than two coordinates or no observation arrays. It raises PanicException (a Rust panic) with more than eight observation arrays, and in the cubic cases C13 and C16.", "quantifier": "every element type, all arrays, methods, flags and build configurations", "why_tests_cant": "The claim covers all lengths, axis counts and bit patterns.", "anchors": ["src/interpn/__init__.py::interpn", "src/interpn/__init__.py::_check_regular", "src/python.rs"]}
{"id": "C98", "title": "Multicubic interpolation of dyadic data is exact in floating point", "statement": "If the values are whole multiples of 2^g and at most 2^(g+a) in absolute value, the grid on every axis is evenly spaced by a power of two, and the observation point (inside the grid) and the grid coordinates are whole multiples of 2^-b times the spacing, then multicubic interpolation over n axes makes no rounding error at all as long as a + 3 + n*(3b+2) is at most the precision: the result is finite and equal to the result of the same library code run in exact arithmetic. For example, 8-bit images can be resampled exactly in double precision at all multiples of 1/64 of a pixel. This holds for regular interpolators, for rectilinear interpolators on evenly spaced coordinates, flat and recursive, with or without fused multiply-add, and for the Python function interpn with method cubic on grids it treats as evenly spaced. At points up to (2^m - 1)/2 cell widths outside the grid the same holds, with linear and with cubic continuation, as long as a + n*(3b+3m+6) is at most the precision.", "quantifier": "every IEEE format (precision 2 to 62 for regular grids), any number of dimensions, all evenly spaced dyadic grids, values and points inside or outside the grid within the exponent range, all feature flags", "why_tests_cant": "Exactness must hold for every combination of data and position in a set of astronomically many; a single intermediate rounding anywhere breaks it.", "anchors": ["src/multicubic/regular.rs::interp_one", "src/multicubic/regular_recursive.rs::interp_one", "src/multicubic/rectilinear.rs::interp_one", "src/multicubic/rectilinear_recursive.rs::interp_one", "src/interpn/__init__.py::interpn"]}
{"id": "C99", "title": "Accuracy of Python interpn at any point, inside or outside the grid, with detected or assumed regular grids", "statement": "For methods linear and cubic, every number that interpn returns is finite and within a stated small distance of the number the interpolator over the same axes returns in exact arithmetic, and within a stated distance of a smooth function the values were sampled from, at observation points inside and outside the grid. If assume_regular is set (whatever the later coordinates are) or the grids are evenly spaced, the axes are those given by the first two coordinates and the length of each grid; otherwise by all coordinates. The distances grow with the distance from the grid as in C61, C62 and C75.", "quantifier": "every IEEE format (precision up to 64 for regular grids), 1 to 8 axes, all grids, values, observation points of bounded magnitude, all feature flags, smooth functions with the stated derivative bounds", "why_tests_cant": "The bound must hold for every call; tests compare a few calls with a reference that itself rounds.", "anchors": ["src/interpn/__init__.py::interpn", "src/python.rs", "src/multilinear/regular.rs::interp_one", "src/multicubic/rectilinear.rs::interp_one"]}
{"id": "C100", "title": "Ranges that floating-point multilinear interpolation never leaves", "statement": "Inside the grid, on rectilinear grids and on regular grids that start at 0 with power-of-two steps, if the values at the corners of the cell that contains the point lie between lo and hi, then so does the computed result, with no allowance for rounding, provided that one end of the range is 0 and the other has one significant bit less than the number format (for f64 every integer below 2^52 and every f32 number), or that both ends have the same sign and the one is at most twice the other. Values elsewhere, even missing ones, do not matter. If the corners all have the same value the result is that value. If all values are in a range of the second kind, every grid point gets exactly its stored value. Python interpn inherits this. Without the condition it is false (C36).", "quantifier": "every IEEE format, dimension, grid of moderate magnitude, value array, point inside the grid, all feature flags", "why_tests_cant": "It depends on the rounding of every combination of values and positions; a clamped quantity may leave its range for a single input in billions.", "anchors": ["src/multilinear/rectilinear.rs::interp_one", "src/multilinear/rectilinear_recursive.rs::interp_one", "src/multilinear/regular.rs::interp_one", "src/multilinear/regular_recursive.rs::interp_one", "src/interpn/__init__.py::interpn"]}
{"id": "C101", "title": "The multicubic interpolant is at most a stated factor steeper than the data", "statement": "Moving the point along one axis changes the result of multicubic interpolation by at most the distance times the steepest slope of the data along that axis, times (1 + 3 rho) / (1 + rho) for that axis and the gain of C52 for each other axis, where each grid cell is at most rho times as wide as its neighbours. The first factor is 2 on evenly spaced grids, where it cannot be lowered, and below 3 on every grid. This holds inside the grid, and with linear extrapolation also outside it along the axis of the movement. For two points inside the grid the contributions of the axes add up. In floating point the rounding errors of the two evaluations are added, and the values may differ, too.", "quantifier": "every dimension, grid, value array, pair of points, all four multicubic interpolators, exact and every IEEE format, all feature flags", "why_tests_cant": "A slope bound is about all pairs of points and all data; an interpolant that is too steep for one arrangement of values looks fine on smooth test data.", "anchors": ["src/multicubic/rectilinear.rs::interp_one", "src/multicubic/regular.rs::interp_one", "src/multicubic/rectilinear_recursive.rs::interp_one", "src/multicubic/regular_recursive.rs::interp_one", "src/multicubic/mod.rs::normalized_hermite_spline"]}
{"id": "C102", "title": "How far results leave the range of the data around them", "statement": "Only the values around the cell of the point matter for the range of the result. With lo and hi the smallest and largest value at the corners of the cell, multilinear interpolation stays between lo and hi inside the grid, and outside it leaves that range by at most (F - 1) / 2 times hi - lo, where F is the product over the axes of 1 plus 2 for each cell width the point lies outside. With lo and hi over the grid points at most one point away from the cell, multicubic interpolation leaves the range by at most (g^n - 1) / 2 times hi - lo, where g is the gain of C52: 1/8 of the range for one evenly spaced axis, which is reached. Outside the grid the factors of C60 replace g. In floating point the rounding error is added.", "quantifier": "every dimension, grid, value array, point inside or outside the grid, all multilinear and multicubic interpolators, exact arithmetic and every IEEE format, all feature flags", "why_tests_cant": "Overshoot depends on the arrangement of the values around the point; a bound has to hold for all of them.", "anchors": ["src/multilinear/rectilinear.rs::interp_one", "src/multilinear/regular.rs::interp_one", "src/multicubic/rectilinear.rs::interp_one", "src/multicubic/regular.rs::interp_one", "src/multicubic/mod.rs::normalized_hermite_spline"]}
{"id": "C103", "title": "Nearest and step interpolation never compute with the values", "statement": "The nearest-neighbour functions and the 1-D left, right and nearest interpolators only hand on values of the data. Replacing every value v by g v, for any function g at all (negation, a table lookup, not-a-number for some of them), replaces every result r by g r. The outcome of the call, its error, the point at which it stops and the node chosen are unchanged. The Python classes NearestRegular and NearestRectilinear, and interpn with method nearest, behave the same way. This holds for all arguments, valid or not, so the values may be labels, codes or packed bits.", "quantifier": "every number type with any operations, every function on it, every dimension, grid, value array and list of points, valid or not, all feature flags", "why_tests_cant": "A computation on the values, such as adding zero, goes unnoticed for most values and labels; the claim is about every possible relabelling.", "anchors": ["src/nearest/regular.rs::interpn", "src/nearest/rectilinear.rs::interpn", "src/nearest/regular.rs::interp_one", "src/nearest/rectilinear.rs::interp_one", "src/one_dim/hold.rs::eval_one", "src/one_dim/mod.rs::eval", "src/interpn/__init__.py::interpn", "src/interpn/nearest_regular.py::NearestRegular", "src/interpn/nearest_rectilinear.py::NearestRectilinear"]}
{"id": "C104", "title": "Which inputs the Python classes accept", "statement": "The six Python interpolator classes accept exactly: 1 to 8 axes (1 to 6 for nearest), one start and one step per axis, as many values as the product of the sizes, steps greater than zero, strictly increasing grids, steps or grids of the element type of the values (for the nearest class also starts), and the linearize_extrapolation flag for the multicubic classes only. Everything else raises ValidationError. The constructor, new() and loading JSON apply the same rule, so an object with other fields does not exist. Testing the sign of the rounded differences of grid points is the same as comparing the points, for all floating-point numbers including subnormal ones, infinities and NaN.", "quantifier": "every choice of fields of either element type, every way to obtain an object; the last claim for every pair of numbers of every IEEE format", "why_tests_cant": "Tests try a few bad inputs; the claim is an equivalence over all arrays of floating-point numbers, including differences that underflow or overflow.", "anchors": ["src/interpn/multilinear_regular.py::MultilinearRegular", "src/interpn/multilinear_rectilinear.py::MultilinearRectilinear", "src/interpn/multicubic_regular.py::MulticubicRegular", "src/interpn/multicubic_rectilinear.py::MulticubicRectilinear", "src/interpn/nearest_regular.py::NearestRegular", "src/interpn/nearest_rectilinear.py::NearestRectilinear", "src/interpn/serialization.py"]}
{"id": "C105", "title": "Which evaluations of a Python object return, and what the others raise", "statement": "Evaluating an interpolator object of the Python package on arrays of its element type returns exactly when there is one observation array per axis, all as long as the output (the array given as out, or the first observation array), and every axis has at least 2 points (4 for multicubic); on regular grids the number of steps to each observation must also fit in isize. The result has the length of the output and is what the array given as out holds. Otherwise AssertionError is raised and out is unchanged (for a step count that does not fit: out may be partly written). Without observations and out it is an IndexError, with a negative size an OverflowError. For multicubic objects of up to 4 axes the number of observation arrays must be right, otherwise the call panics. More than 8 observation arrays panic. check_bounds returns one flag per axis exactly when there is one observation array per axis and no grid is empty; otherwise it raises AssertionError. A regular object with an axis of size 0 makes check_bounds panic in builds with overflow checks.", "quantifier": "every object of the six classes in either element type, every list of observation arrays (for check_bounds at most 8), every output, all feature flags; for regular multicubic objects in builds with overflow checks, observations not 2^63 steps below the grid (C13)", "why_tests_cant": "Tests call eval with a few mistakes; the claim says for all arguments which calls return and that no other call does.", "anchors": ["src/interpn/multilinear_regular.py::MultilinearRegular", "src/interpn/multilinear_rectilinear.py::MultilinearRectilinear", "src/interpn/multicubic_regular.py::MulticubicRegular", "src/interpn/multicubic_rectilinear.py::MulticubicRectilinear", "src/interpn/nearest_regular.py::NearestRegular", "src/interpn/nearest_rectilinear.py::NearestRectilinear", "src/python.rs"]}
{"id": "C106", "title": "One-dimensional linear interpolation is exactly as steep as the data", "statement": "In exact arithmetic, inside and outside the grid: all difference quotients of Linear1D lie between m and M if and only if all slopes between neighbouring data points do, so it is monotone, strictly increasing or Lipschitz exactly when the data are. LinearHoldLast1D at a point is Linear1D at the nearest point of the grid interval; it never returns a value outside the range of the data. Every value between two data values is the result at some point between their grid points, and on increasing data at one point only.", "quantifier": "every regular and rectilinear one-dimensional grid, values, slope bounds, pairs of points", "why_tests_cant": "Pairs of points in different cells and on both sides of the grid ends; infinitely many.", "anchors": ["src/one_dim/linear.rs::Linear1D", "src/one_dim/linear.rs::LinearHoldLast1D", "src/one_dim/mod.rs::RegularGrid1D", "src/one_dim/mod.rs::RectilinearGrid1D"]}
{"id": "C107", "title": "Regular one-dimensional grids whose step is not positive", "statement": "RegularGrid1D::new does not check the step. With a negative step, in exact arithmetic, Linear1D returns what it returns on the increasing grid with the values reversed, and so does Nearest1D except halfway between grid points. LinearHoldLast1D, Left1D and Right1D do not: all three return the stored value at the next lower grid point, above the grid the second value and at or below its lower end the last but one. With a step that is zero or NaN every evaluation returns an error.", "quantifier": "every start, step, values and observation; exact arithmetic for negative steps, every IEEE format for zero and NaN", "why_tests_cant": "The flags for points outside the grid are computed from start and stop whatever their order; all points and grids must be covered.", "anchors": ["src/one_dim/mod.rs::RegularGrid1D::new", "src/one_dim/mod.rs::RegularGrid1D::index", "src/one_dim/linear.rs", "src/one_dim/hold.rs"]}
