# Formal model of interpn in Rocq (Coq 8.16.1)

`/repo` (jlogan03/interpn, Rust crate plus Python wrappers) is modelled function by function in
`rocq/theories/`; the properties of `properties.jsonl` are proved about that model.

## 1. What the model is

**Number types.** All Rust code is generic in `T: Float`. The model is generic in a record
`Ops F` of operations (`+ - * /`, negation, `floor`, `mul_add`, `<`, `<=`, `min`, `max`, conversion
from `usize`, conversion to `isize`). It is instantiated at
* `R` (Coq's reals: "exact arithmetic"), and
* IEEE-754 binary32 and binary64 (Flocq's `BinarySingleNaN.binary_float`, round to nearest even),
  used for NaN/infinity behaviour, exactness results and refutation witnesses.
A theorem that is stated for every `Ops F`, with no hypothesis on the operations, holds bit for bit
for f32 and f64.

**Machine integers.** `usize`/`isize` are 64 bit, carried as `Z`. Every `+ - *` of the code that can
overflow goes through `usize_add`, `usize_sub`, `usize_mul`, `isize_sub`, which either panic
(`overflow-checks = true`, as in the crate's own release profile, Cargo.toml) or wrap modulo 2^64
(the default for a crate used as a dependency). A `cfg` record holds the two build choices:
`use_fma` (cargo feature `fma`) and `ovf_checks`.

**Results.** `outcome A = Ok a | Err msg | Panic`. `Result::Err` is data with the message of the code.
Index out of range, slice out of range, `unwrap` of an error, subtraction underflow and
`copy_from_slice` mismatch are `Panic`. There are no default values that could hide a panic.
Functions writing through `&mut out` return the pair (outcome, final contents of `out`).

**Files.**

| file | contents |
|---|---|
| `Base.v` | outcome monad, monadic loops, machine integers, checked array access |
| `Ops.v` | the `Ops` record, build configuration |
| `ModelCore.v` | `index_arr`, slice `partition_point` (std's bisection), the flattened-loop and recursion skeletons |
| `ModelUtils.v` | `linspace`, `meshgrid` |
| `ModelLinear.v` | multilinear, regular and rectilinear, flattened and recursive, `interpn`, `check_bounds` |
| `ModelNearest.v` | nearest neighbour |
| `ModelCubic.v` | multicubic, four variants |
| `ModelOneDim.v` | the `one_dim` module |
| `ModelPython.v` | `src/python.rs` bindings, the Python function `interpn`, `_check_regular`, validators and methods of the wrapper classes |
| `ModelSerial.v` | element types (f32, f64, other) of the Python arrays, `serialization.py`, JSON load and dump, `new`, typed `eval` and `interpn` |
| `RInst.v`, `FInst.v` | instances of `Ops` at R and at IEEE binary formats |
| `Spec.v`, `SpecReal.v`, `SpecOrder.v`, `Spec1D.v`, `SpecIEEE.v`, `SpecPython.v`, `SpecSerial.v`, `SpecError.v`, `SpecApprox.v` | small specifications the theorems are stated with (C-order index, corner sums, grid functions, sortedness, ...) |
| `CoreLemmas.v`, `TensorLemmas.v`, `MethodLemmas.v`, `SearchLemmas.v`, `MethodChar.v`, `GenLemmas.v`, `GenProofs.v`, `GenProofs2.v`, `GenProofs3.v` | proofs for every number type: flattened loop = recursion = tensor recursion, panic freedom, footprints |
| `RTensor.v`, `RPoly.v`, `R1D.v`, `RChar.v`, `RCont.v`, `REval.v`, `RProofs.v`, `RProofs2.v`, `RProofs3.v`, `Interpolators.v` | proofs over R; `Interpolators.v` has the predicates `multilinear`, `multicubic`, `nearest_nd` that gather the variants |
| `OrderLemmas.v`, `OrderProofs.v`, `OneDimProofs.v`, `UtilProofs.v` | cell search, 1-D module, bounds checks, `meshgrid`, `linspace` |
| `FLemmas.v`, `FProofs.v`, `FProofs2.v` | IEEE proofs |
| `PropertiesGeneric.v`, `PropertiesUtils.v`, `PropertiesOneDim.v`, `PropertiesApprox.v`, `PropertiesPython.v`, `PropertiesSerial.v` | theorems on every number type, bounds checks and `utils`, the cell search and the `one_dim` module, approximation, the Python package, element types and JSON |
| `SpecError.v`, `FError.v`, `FError2.v`, `PropertiesError.v`, `FApprox.v`, `PropertiesAccuracy.v`, `FNearest.v`, `PropertiesNearest.v` | rounding error bounds of multilinear and nearest interpolation |
| `SpecCubicError.v`, `FCubic.v`, `FCubicReg.v`, `FCubicRect.v`, `FCubicApprox.v`, `PropertiesCubicError.v` | rounding error bounds of multicubic interpolation |
| `SpecCubicReach.v`, `FCubicFar.v`, `FCubicExtrap.v`, `FCubicExtrap2.v`, `FCubicExtrap3.v`, `PropertiesCubicReach.v` | rounding error and accuracy of multicubic extrapolation |
| `Conformance.v` | the repository's own unit tests replayed in the model with binary64 numbers (a check of the model, no theorems) |
| `SpecLinspace.v`, `FLinspace.v`, `PropertiesLinspace.v` | linspace in floating point |
| `SpecMoved.v`, `Moved.v`, `PropertiesMoved.v` | small changes of the grid coordinates |
| `SpecDetect.v`, `FDetect.v`, `FPython.v`, `PropertiesDetect.v` | the Python function interpn in floating point |
| `ModelLayout.v`, `SpecLayout.v`, `LayoutProofs.v`, `PropertiesLayout.v` | memory layout of NumPy arrays |
| `SpecPyCubic.v`, `FPyCubic.v`, `PropertiesPyCubic.v` | accuracy of the Python function with method cubic |
| `FNearestAny.v`, `FPyNearest.v`, `PropertiesPyNearest.v` | nearest interpolation outside regular grids in floating point; accuracy of the Python function with method nearest |
| `SpecPixel.v`, `FSign.v`, `PropertiesSign.v` | sign and power-of-two bounds of multilinear results in floating point |
| `SpecBatch.v`, `BatchProofs.v`, `PropertiesBatch.v` | choosing and joining observation points; function and classes of the Python package agree |
| `SpecExact.v`, `FExact.v`, `PropertiesDyadic.v` | exact results on dyadic data |
| `SpecCubicExact.v`, `FCubicExact.v`, `FCubicExact2.v`, `PropertiesCubicExact.v` | the same for multicubic interpolation |
| `SpecMonotone.v`, `FMono.v`, `PropertiesMonotone.v` | results in order along the last axis |
| `SpecMissing.v`, `FMissing.v`, `PropertiesMissing.v` | the stored values that matter, and missing ones |
| `FSymmetry.v`, `PropertiesSymmetry.v` | rearranged data, superposition, nesting and resampling in floating point |
| `SpecTotal1D.v`, `Total1D.v`, `PropertiesTotal1D.v` | constructors and panics of the one-dimensional interpolators |
| `SpecCalls.v`, `CallProofs.v`, `PropertiesCalls.v` | whole calls of interpn: success, refusal, stop |
| `SpecPyCalls.v`, `PyCalls.v`, `PropertiesPyCalls.v` | whole calls of the Python function interpn |
| `SpecInts.v`, `IntGrids.v`, `PropertiesInts.v` | integer arrays as grids of the Python `interpn` |
| `SpecExactOut.v`, `FExactOut.v`, `PropertiesExactOut.v` | C89 outside the grid |
| `FCubicExactOut.v`, `FCubicExactOut2.v`, `PropertiesCubicExactOut.v` | C98 outside the grid |
| `SpecIntStore.v`, `IntStore.v`, `PropertiesIntStore.v` | integers given to `new` and in JSON documents are rounded to nearest |
| `SpecPyObjects.v`, `PyObjects.v`, `PropertiesPyObjects.v` | which inputs the Python classes accept |
| `SpecPyEval.v`, `PyEval.v`, `PropertiesPyEval.v` | which evaluations of a Python object return |
| `SpecRelabel.v`, `Relabel.v`, `PropertiesRelabel.v` | nearest and step interpolation only hand on values |
| `SpecOvershoot.v`, `Overshoot.v`, `PropertiesOvershoot.v` | how far results leave the range of the data |
| `SpecSlope.v`, `CubicSlope.v`, `FSlope.v`, `PropertiesSlope.v` | slopes of cubic interpolants |
| `CubicMoved.v`, `FMoved.v`, `PropertiesMoved2.v` | moved grids: cubic and floating point |
| `SpecRange.v`, `FRange.v`, `PropertiesRange.v` | ranges that are not left in floating point |
| `FPyReach.v`, `PropertiesPyReach.v` | the Python function at points outside the grid |
| `BatchTotal.v`, `PropertiesInstances.v`, `PropertiesInstances2.v`, `PropertiesInstances3.v` | batches on rectilinear grids always succeed; concrete instances of theorems that had no example of their own |
| `OneDimMore.v`, `BoundsMore.v`, `PropertiesMore.v` | further theorems on the one-dimensional methods, the bounds checks and the fma feature |
| `SpecExtrap.v`, `Extrap1D.v`, `Extrap.v`, `PropertiesExtrap.v` | stability and accuracy of extrapolation, exact arithmetic |
| `SpecReach.v`, `FExtrap.v`, `FExtrap2.v`, `PropertiesReach.v` | multilinear extrapolation over the IEEE instances: rounding error and accuracy |
| `SpecSplit.v`, `Split.v`, `SplitProofs.v`, `PropertiesSplit.v` | separable data, slices, nesting, refinement, cropping (exact arithmetic) |
| `SpecFloat1D.v`, `F1D.v`, `F1D2.v`, `PropertiesFloat1D.v`, `F1DOut.v`, `PropertiesFloat1DOut.v` | one-dimensional interpolators in floating point |
| `SpecUnits.v`, `UnitProofs.v`, `UnitProofs2.v`, `NegProofs.v`, `RelProofs.v`, `PropertiesUnits.v` | change of units and of the sign of the data |
| `SpecUnitOneDim.v`, `UnitOneDim.v`, `PropertiesUnitOneDim.v` | change of units of one-dimensional grids |
| `Spec1DMaps.v`, `OneDimMaps.v`, `Properties1DMaps.v` | one-dimensional interpolators under rescaling and reflection of the axis, and linear combination of the values |
| `Spec1DShape.v`, `OneDimShape.v`, `Properties1DShape.v` | slopes, range and values taken by the one-dimensional linear interpolants |
| `Spec1DLocal.v`, `OneDimLocal.v`, `Properties1DLocal.v` | the one-dimensional interpolators read two neighbouring values |
| `SpecConst1D.v`, `FConst1D.v`, `PropertiesConst1D.v` | constant data in one dimension, in floating point |
| `OneDimDown.v`, `Properties1DDown.v` | regular one-dimensional grids whose step is not positive |
| `OneDimAgree.v`, `Properties1DAgree.v` | C03, C10 and C52 for the one-dimensional interpolators |
| `OneDimOrder.v`, `Properties1DOrder.v` | C53, C66 and C67 for the one-dimensional interpolators |
| `FExact1D.v`, `PropertiesExact1D.v` | C89 for the one-dimensional linear interpolators |
| `OneDimBridge.v`, `OneDimSmooth.v`, `OneDimSteps.v`, `Properties1DSmooth.v` | every one-dimensional grid as the only axis of a multilinear interpolator; C29, C51, C61 and C78 from that |
| `OneDimBasic.v`, `Properties1DBasic.v` | C01, C02, C04 and C05 for the one-dimensional linear interpolators |
| `Spec1DReach.v`, `OneDimReach.v`, `Properties1DReach.v` | C70, C73 and C74 for Linear1D inside or outside the grid |
| `Spec1DHold.v`, `OneDimHold.v`, `Properties1DHold.v` | C73, C74 and C78 for LinearHoldLast1D inside or outside the grid |
| `Spec1DRun.v`, `OneDimRun.v`, `Properties1DRun.v` | evaluations of the one-dimensional linear interpolators in any number format; C73, C74 and C78 for them |
| `SpecAgree.v`, `AgreeProofs.v`, `PropertiesAgree.v` | agreement of implementations and number formats, monotonicity up to rounding |
| `SpecDocument.v`, `SerialProofs3.v`, `PropertiesDocument.v` | what a JSON document says; bounds checks of the Python classes with element types |
| `PyBounds.v`, `PropertiesPyBounds.v`, `SizeProofs.v` | Python bounds checks on IEEE floats; size checks in every build |
| `Approx1D.v`, `Approx.v`, `Shape.v` | error of the interpolants of a smooth function, stability, monotonicity, slopes |
| `PyProofs.v`, `PyProofs2.v`, `SerialProofs.v`, `SerialProofs2.v` | Python package |
| `ExampleData.v`, `ExampleReal.v` | concrete grids for the examples beside the theorems |
| `Properties*.v` | the theorems of the manifest, one `exact` each, examples, and `Print Assumptions` |

## 2. Simplifications (also stated at each definition)

* 64-bit `usize`. NaN payload and sign are not modelled (one NaN). `f32`/`f64` arithmetic is
  IEEE round-to-nearest-even; `mul_add` is the correctly rounded fused operation; `floor` exact.
* `partition_point` is the Rust standard library's; it is not in `/repo`. The model is the bisection
  loop of the std release the crate's edition requires (1.85+).
* Arrays `[T; N]` are lists whose length is the number of dimensions. The compile-time assertions on
  `N` are hypotheses of theorems where they matter; most theorems hold for every `N`.
* Per-axis arrays filled by the same loop (`origin`, `dts`, `sat`, ...) are one list of tuples.
* `crunchy::unroll!` is an ordinary loop. Inlining, allocation, performance are not modelled.
* PyO3 conversions and NumPy element types are modelled as `ModelSerial.v` says. Arrays are contiguous, except in `ModelLayout.v`, which models NumPy's strides, `ravel` and `as_slice`; these are NumPy's and rust-numpy's rules, not code of the repository.
  JSON is modelled as a tree: that the text form of a number is read back as the same number is trusted. Benchmarks, plotting, examples, `.pyi` and packaging files are not modelled.

## 3. Plan per property

| id | modelled as | proof |
|---|---|---|
| C01 | `interp_one` at R equals `corner_sum` of `Spec.v` | flat loop = tensor recursion (block invariant, induction on levels); closed form by induction on axes |
| C02 | values sampled from `f`, `f` affine in each coordinate; result = `f x` | 1-D rule reproduces affine; tensor induction |
| C03 | at node `idx`, result = `V idx` | 1-D rule is interpolatory; tensor induction |
| C04 | inside grid, lower/upper bounds transfer | 1-D rule is a convex combination; tensor induction |
| C05 | epsilon-delta continuity on coordinate lists | 1-D continuity across cells; finite combination of continuous weights |
| C06 | as C02 with quadratics | field identities for the five saturation cases, tensor induction |
| C07 | as C05 | as C05 |
| C08 | partial derivative exists and is jointly continuous | explicit derivative of the 1-D rule, matching one-sided derivatives at nodes |
| C09 | 1-D rule restricted to edge cells/outside is a polynomial of the right degree; flag irrelevant inside | case analysis |
| C10 | two models agree at every real point | uniqueness of cell up to nodes; at nodes both adjacent rules agree |
| C11 | equality of outcomes for every `Ops` | flat loop = tensor = recursion |
| C12 | `interp_one <> Panic` for every `Ops` | index bounds, stride bounds |
| C13 | refuted: witness with cell number -2^63; proved for all other cell numbers | computation in the model with a binary64 instance |
| C14 | decision procedure = spec | case analysis |
| C15 | refuted in wrapping builds; proved with overflow checks | witness; induction |
| C16 | refuted for cubic (panic); proved for linear and nearest | witness; case analysis |
| C17, C18 | batch loop = map of pointwise results / prefix | induction on the batch |
| C19 | two value arrays agreeing on the footprint give the same outcome, any `Ops` | tensor recursion reads only the footprint; one-dimensional grids: the cell number does not depend on the values |
| C20 | linearity | tensor induction; one-dimensional grids: both evaluations use the same cell |
| C21 | grid, starts, steps and point mapped by `a*x+b`, a>0 | normalised coordinates are invariant; one-dimensional grids: same cell by uniqueness of the bracketing cell |
| C22 | transposed array and permuted axes | Fubini for finite linear functionals, adjacent transpositions |
| C23 | reversed axis | 1-D rule reflection, tensor induction; one-dimensional grids: mirrored cell |
| C24 | membership in `vals`; distance minimality per axis | case analysis on offset |
| C25 | exact characterisation of flags | induction over axes |
| C26 | refuted (boundary with atol = 0 flagged; NaN not flagged) | witnesses |
| C27 | result of bisection = number of elements below; iteration count bound | loop invariant; log2 |
| C28 | `nth` of meshgrid at C-order index | induction over axes |
| C29 | Linear1D = multilinear with N=1 | cell-independent formula; the interpolator with the grid's points as its only axis exists |
| C30, C31 | 1-D semantics | case analysis on cell |
| C32 | refuted | witnesses |
| C33 | IEEE instance with NaN/inf | Flocq lemmas, propagation of NaN |
| C34 | IEEE instance | x-x = 0, t*0 = 0, y+0 = y |
| C35 | IEEE instance; refuted; proved when differences of values (and coordinates) are exact, and up to the error bound of C45 otherwise | witness; exactness at t = 0 and t = 1; C45 |
| C36 | refuted with a binary64 witness; proved up to the error bound of C45 | vm_compute; C45 and C04 |
| C37 | equality of functions | unfolding, case analysis on lengths |
| C38, C39 | linspace; refuted for n = 0, 1 | induction; witnesses |
| C40 | monotonicity of IEEE subtraction/division/floor | Flocq rounding monotonicity |
| C41 | two configs, same result at R | congruence |
| C42, C43 | Python function model | case analysis; refutation witness |
| C44 | IEEE instance of the cubic cell search | monotonicity as C40; witness for the wrapping build |
| C45 | multilinear over IEEE against the corner sum over the reals | relative error of each operation (absolute below the subnormal threshold), error of the cell number and of the position, induction over the axes |
| C46, C47 | Python `out` argument, wrapper classes | case analysis; reduction to the Rust theorems |
| C48 | `load (dump m) = m` | f32 -> f64 is exact and f64 -> f32 of a f32 number is the identity (Flocq); case analysis on fields |
| C49 | typed evaluation = library call of that type, or TypeError | case analysis on element types |
| C50 | stored arrays = converted inputs; refuted for integers and for the type of `starts` | Flocq rounding; witnesses |
| C51 | distance of the result and f x against derivative bounds of f over the reals; convergence | Taylor bounds for the 1-D rules, then replacing one axis at a time; one-dimensional interpolators through the interpolator with one axis |
| C52 | two interpolators on one grid | linearity, sum of absolute weights of the 1-D rules |
| C53, C54 | two points differing along one axis | the tensor along one axis is a 1-D rule on interpolated values; between nodes it is a sum of positive parts of the increments; one-dimensional grids: the cell number never decreases with the point |
| C55 | C45, C52 and C51 together | triangle inequality |
| C56 | nodes chosen by the floating-point nearest interpolators, distances as real numbers | one half is exact; the computed and the exact position lie on the same side of 1/2 up to rounding (differences of floats have small relative error); other nodes are further away than the ends of the cell; a witness shows that an allowance is needed |
| C57 | C56 for samples of a function with bounded slopes | slope bound along one axis after the other |
| C58 | float model against the real-number model of multicubic, inside the grid | error of a value carried through the slopes and the Hermite formula of one axis (value, bound and error in one invariant), then induction over the axes |
| C59 | C58, C52 and C51 together | triangle inequality |
| C60 | multilinear and multicubic at any accepted point; d = distance in outermost cells | norm of the one-axis operator outside the axis (line or parabola through the end), induction over the axes |
| C61 | the same against samples of a smooth function | Taylor bounds on the box around grid and point for one axis, induction over the axes; one-dimensional interpolators through the interpolator with one axis |
| C62 | C45 without the restriction to the grid: IEEE instance against the exact formula at any point | error of one interpolation step at any position, cell choice outside the grid, induction over the axes with a growing factor |
| C63 | IEEE instance against samples of a smooth function, at any point | C62 + C60 + C61 by the triangle inequality |
| C64 | exact instance, three interpolators related by the shape of their data | the result is a tensor product of one-axis functionals; it splits over concatenated axes |
| C65 | exact instance, interpolators of different dimension | one-axis functionals select at nodes; functionals on different axes commute |
| C66 | exact instance, two multilinear interpolators on a grid and a refinement | on each fine cell the coarse interpolant is affine; induction over the axes; one-dimensional grids: the same on one axis |
| C67 | exact instance, interpolators on a grid and a sub-box | cell and stencil of a point are the shifted ones; induction over the axes; one-dimensional grids: the same on one axis |
| C68 | the one-dimensional code over Flocq's IEEE floats against the same code over R | forward error analysis of slope, product and sum; the cell chosen by the float search may be a neighbour on a regular grid; outside a regular grid the outermost cell is always found |
| C69 | the same | the float search picks the cell up to rounding; distances are compared with relative error |
| C70 | the same, with an abstract smooth function | C68 and the mean value form of the linear interpolation error; outside the grid C61 and the size of the two weights |
| C71 | all N-dimensional and one-dimensional methods over Flocq's IEEE floats, two runs on grids related by exact scaling | only ratios of lengths reach the values: the relation is pushed through search, cell choice, local coordinates and spacings |
| C72 | the same, two runs on data related by negation | relational parametricity of the interpolators in the operations applied to the data; each operation commutes with negation |
| C73 | all multilinear and multicubic evaluators over R and over every Flocq format, two runs at a time | each run is within its bound (C45, C58, C62, C75) of the same exact tensor product; stability in values and points (C52, C54, C60); one-dimensional: through the exact evaluation and C68 |
| C74 | the multilinear evaluators over every Flocq format, runs at two points | the same, with C53 and C54 for the exact tensor product; one-dimensional: through the exact evaluation and C68 |
| C75 | the multicubic evaluators over every Flocq format, at any point | forward error analysis of the four-point formula in units that grow with the distance to the grid, one axis at a time; the exact tensor product as reference |
| C76 | the same, on samples of a smooth function | C75, stability of the exact tensor product (C60), extrapolation error (C61) |
| C77 | linspace over every Flocq format | four roundings per point; monotonicity of rounding for the order; the constructor checks (C15) for acceptance |
| C78 | every multilinear and multicubic interpolator as the tensor formula on its axes (Interpolators) | one-dimensional bound for moved nodes, then axis by axis with the bound on the weights outside the grid; cubic: at equal positions in the cell only the node slopes differ, the rest is C101; C73 for rounding; one-dimensional interpolators through the interpolator with one axis |
| C79 | py_interpn over every Flocq format | the path taken by _check_regular (C42); rounding error of the regular code (C62) plus C78 for the drift between the points given and first + i * step |
| C80 | py_interpn over every Flocq format | C79 plus the interpolation error C51 |
| C81 | arrays as shape, strides, offset and buffer; ravel, flatten, as_slice; the calls of ModelPython on what these give | position of element k by div and mod of the shape; a contiguous array is the consecutive memory |
| C82 | py_interpn over every Flocq format | the path taken by _check_regular (C42); points inside the grids given are at most 3 u kappa steps outside the regular grid, so the extrapolation bounds C75 apply; C58 for uneven grids |
| C83 | py_interpn over every Flocq format | C82 plus C76 with the samples moved to the regular nodes at the cost of the slopes; C59 for uneven grids |
| C84 | py_interpn over every Flocq format | the path taken by _check_regular (C42); C56 without the restriction to the inside of the grid; the regular nodes are within 3 u kappa steps of the points given |
| C85 | py_interpn over every Flocq format | C84 and the slope bound along one axis after the other (C57) |
| C86 | mlc, mlcr, mlr, mlrr and py_interpn over every Flocq format | one linear step keeps an interval [m, M] if y + (M - y) and y + (m - y), each rounded twice, stay in it; for M a power of two the two errors of half an ulp tie to even at M; then the induction over the axes of C34; on a regular axis starting at 0 with step 2^k the quotient is exact or below 1/2, so the right cell is found and the position is in [0, 1] |
| C87 | all interp methods and interpn functions, eval1, py_interpn over any number type | for a fixed number of observation arrays each is a constant failure or one loop over the points (C17); points of the new batch are points of the old |
| C88 | py_interpn, class_eval over any number type | the dispatch of C42 unfolded on one side, the binding on the other |
| C89 | mlr, mlrr, mlc, mlcr, linear1, hold_last1 and py_interpn over every Flocq format, against the same code over R | every intermediate number is a whole multiple of a power of two with at most prec digits, so no operation rounds; induction over the axes as in C45, with error 0 |
| C90 | mlr, mlrr, mlc, mlcr, linear1 over both one-dimensional grids, py_interpn, over every Flocq format | a finite result has finite operands; the partial results before the last axis do not depend on the last coordinate; rounding is monotone in each of the remaining operations. Counterexamples across cells and along other axes by computation |
| C91 | mlr, mlrr, mlc, mlcr, mcr, mcrr, mcc, mccr, linear1 over both one-dimensional grids, py_interpn, over every Flocq format | being finite and not being NaN both pass from the result of an operation to its operands; induction over the axes; case analysis of the saturation cases against the cell named by the grid points. The cell number of a regular axis must not be the lowest integer (it would wrap) unless overflow checks are on |
| C92 | as C91 | the same induction for two value arrays; the point of the four that is loaded but not used in a saturated case is the one outside the neighbourhood of the cell |
| C93 | as C73: any multilinear or multicubic evaluation with its error bound | the exact identities behind C21, C22, C23, C65 and C67 hold for the exact values that the two results are close to; triangle inequality |
| C94 | as C73 | the exact identities behind C20, C65 and C66 with the operator norm of the interpolation (C60) for the deviation of stored values |
| C95 | the one-dimensional grids and the five methods as one family | case analysis on the index arithmetic; partial: a regular grid with fewer than two values is accepted and every evaluation panics |
| C96 | interpn as a whole: constructor, batch checks, dispatch, loop | the constructor and evaluation totality lemmas composed through the dispatch; NaN and infinities included |
| C97 | the Python function interpn as a whole | C42 composed with C96; the search for short grids by induction over the grids |
| C98 | mcr, mcrr, mcc, mccr and py_interpn over every Flocq format, against the same code over R | as C89: the slopes are half differences and the cubic has at most 3b+1 more binary digits per axis, so no operation rounds; on rectilinear grids the division factors are 1/2 and 1; outside the grid the position is at most 2^m and each axis adds at most 3b+3m+6 binary digits |
| C99 | py_interpn over every Flocq format | the call evaluates the interpolator chosen (as in C79, C82); C62, C63, C75, C76 for it |
| C100 | mlc, mlcr, mlr, mlrr evaluation, py_interpn over every Flocq format | induction over the axes: one linear interpolation at a position in [0, 1] stays in the range, because the difference is exact (Sterbenz) or its rounding error is a tie that rounds back to the end |
| C101 | mcc, mccr, mcr, mcrr evaluation over R and every Flocq format | the slopes at the nodes are weighted means of neighbouring secants, or twice a secant less such a mean at the ends; the derivative of each piece follows; mean value theorem along the axis, C52 for the other axes, C73 for rounding |
| C102 | every multilinear and multicubic interpolator as the tensor formula on its axes; linear_run, cubic_run | the result less the middle of the range is the interpolant of the values less the middle; norm bounds of C52 and C60, restricted to the values near the cell by locality of the one-dimensional formulas |
| C103 | nearest interpn, interpn_alloc, interp_one and the 1-D left, right, nearest over any number type | equation between the two calls: each step of the code commutes with the relabelling; a successful batch leaves nothing of the array it fills |
| C104 | constructors, `new` and the JSON loader of the Python classes over f32 and f64 | equivalence with a list of conditions; a difference of two numbers of a format with gradual underflow rounds to zero only if they are equal |
| C105 | `eval` of the Python classes over f32 and f64 | C49 (which library call is made), C96 (which library calls succeed) and C104 (what every object satisfies) |
| C106 | slopes, range and intermediate values of Linear1D and LinearHoldLast1D | induction on the number of cells between two points; hold-last as linear at the clamped point |
| C107 | RegularGrid1D with any step | mirrored grid has the same cell numbers; C23 for one dimension; the flags evaluated for stop < start |

## 4. Trusted base

* Coq 8.16.1's kernel (including `vm_compute`'s conversion, used for concrete witnesses), `coqchk`.
* The axioms `Print Assumptions` lists. `ASSUMPTIONS.md` has the list for each theorem of the manifest
  (written by `tools/assumptions.py`; the commands are also in `Properties*.v`). Theorems quantified
  over every number type are closed. The others use only axioms of Coq's standard library:
  `ClassicalDedekindReals.sig_forall_dec`, `ClassicalDedekindReals.sig_not_dec`,
  `FunctionalExtensionality.functional_extensionality_dep`, `Classical_Prop.classic`. No axiom is added.
* The fidelity of the hand-written model to `/repo` (each definition cites lines), and of the Rust
  standard library / num-traits behaviour stated in section 2.

## 5. Behaviour found while modelling that a user may not expect

Each is a theorem with suffix `_refuted` (or the one named).

* Cubic on a regular grid panics (overflow checks) or extrapolates from the wrong side (no checks) when
  the cell number is -2^63: C13, C44.
* Rectilinear constructors only compare the first two points of each axis; sizes are multiplied with
  wrapping in builds without overflow checks: C15.
* Multicubic `interpn` panics on mismatched lengths instead of returning `Err`: C16.
* `check_bounds` flags an observation exactly on the bound when `atol` is 0, and never flags NaN: C26.
* `linspace` gives NaN for one point, panics for zero points with overflow checks: C39.
* In floating point the value at a node need not be the stored one, and a value between two nodes can
  leave the range of the data: C35, C36.
* The multicubic interpolants overshoot: between equal values they can leave the range of the data, and
  they need not be monotone on monotone data: C52, C53.
* The 1-D hold interpolators do not all return the stored value at the nodes: C32.
* A regular 1-D grid with a single value is accepted and panics at every evaluation: C95.
* A regular 1-D grid with a negative step is accepted; hold-last, left and right then return wrong values: C107.
* A regular 1-D grid with a step below the resolution of its coordinates is accepted and gives NaN: C34.
* Python `interpn(check_bounds=True)` raises AssertionError for every grid with two or more axes: C43.
* Python `interpn(out=buf)` raises for every buffer with two or more elements and ignores a buffer `[0.]`: C46.
* The Python classes accept grids that are too short to be evaluated: C47.
* The Python `new` stores integer data as f32, and two classes accept a `starts` array of another
  element type, after which no evaluation succeeds: C50.
