# Formal model of python-geotiepoints: design

The code in `/repo/geotiepoints` is modelled in Rocq (Coq 8.16.1) under
`/verif/rocq/theories`. The properties are in `properties.jsonl`, the map from
property to theorem in `MANIFEST.json`, the mutation log in `seeded/LOG.jsonl`.

## 1. Trusted base

* Coq's kernel (and `coqchk`, run by the gate).
* Axioms: none of our own. Theorems about real arithmetic depend on the axioms of
  the standard library's classical reals, as printed by `Print Assumptions` under every
  theorem in the `Props*.v` files:
  `ClassicalDedekindReals.sig_forall_dec`, `ClassicalDedekindReals.sig_not_dec`,
  `FunctionalExtensionality.functional_extensionality_dep`, and (for a few theorems that
  use trigonometric lemmas of the library) `Classical_Prop.classic`.
  Theorems that only concern integers, lists, memory accesses, schedules or an
  arbitrary arithmetic are closed under the global context.
* The correspondence of the model with the Python/Cython text. Every model definition
  cites the file and lines it follows. Simplifications are listed in section 3.

## 2. How the code is represented

* **Numbers.** `Num.v` has a class `NumOps T` of the operations the code uses (literals,
  `+ - * /`, `sqrt cos sin acos asin pi`, comparisons, C cast to int, floor, and `nst`, the
  rounding done when a value is stored in an array of the working precision). No law
  is assumed of it.
  Model code is written once, over any `NumOps T`. *Structural* theorems (which cells are
  read and written, what depends on what, shapes, errors) hold for every `NumOps`, hence in
  particular for the IEEE float/double operations of the real program.
  *Analytic* theorems (exact reproduction, bounds, round trips) use an instance:
  - `RT` : real numbers (Coq's `R`), total;
  - `RN` : `option R`, where `None` stands for a result that is not a finite number
    (0/0, acos of 1.2, missing data), propagated by arithmetic; comparisons with `None` are false;
  - `FN f s c m` (`Float.v`): IEEE arithmetic on `option R`. Every operation rounds its exact result to nearest-even in the
    format `f` (Flocq's `round radix2 (FLT_exp emin prec) ZnearestE`: gradual underflow included); overflow, invalid
    operations and division by zero give `None`. `c` is the constant pi, `s` the format of stored arrays, `m` the mathematical
    library (`cos sin acos asin` as arbitrary functions, whose results are rounded). `F64 m`: doubles; `F32 m`: numpy on float
    arrays (Python constants are rounded to float first, as numpy does for scalars); `F64_32 m`: compiled code on float arrays,
    computing in double and storing floats.
    Theorems that need something of `m` have it as a premise: `in_range` (acos and asin do not leave the range of their
    rounded exact values) and `accurate` (within 2 resp. 8 units in the last place); both are proved of a correctly rounding
    library. Flocq adds no axiom. Signed zeros, infinities as values distinct from NaN, and payloads are not modelled.
  - `QN` : `option Q`, only to run the model on concrete inputs (tests, not proofs).
* **Errors.** `res A := Ok a | Err e`, with one constructor of `exn` per Python exception, plus
  `OutOfBounds` for a memory access outside an array in code compiled without bounds checks.
* **numpy arrays** are lists of rows (`mat T := list (list T)`).
* **Cython memory** (`Mem.v`): a buffer is a size and contents by offset, a memoryview is an offset, a row stride and a
  shape. An access is `Err OutOfBounds` exactly when its offset is outside the buffer (undefined behaviour in the
  real program); an index outside a view but inside the buffer hits another element, as in C. `np.empty` is a buffer with
  arbitrary contents (a parameter of the model), so "does not depend on uninitialised memory" is a theorem.
* **Loops** are `for_range`; nested loops that write arrays are reasoned about with one lemma about
  consistent writes.
* **dask** is modelled by its chunk structure, a list of tasks and an arbitrary execution order.

## 3. What is modelled, what is not

`Spec.v` has the specification-side definitions shared by several property files; the `*Proofs.v` files, `GeoAgree.v`,
`LegacyInst.v`, `LegacyTie.v`, `BorderProofs.v`, `ModisOob.v`, `ModisAngles.v`, `SimpleModisOob.v`, `SimpleModisReal.v`,
`LegacyRows.v`, `PiBound.v`, `FloatGeo.v`, `FloatAcc.v`, `FloatTrip.v`,
`FloatNear.v`, `FloatModis.v`, `FloatPixel.v`, `FloatSimple.v`, `FloatSimple64.v`, `FloatMultilinear.v`, `FloatVii.v`, `FloatGrid.v`, `CubicProofs.v` and `LegacyCubic.v` only have lemmas. The theorems of the properties are in `Props*.v`. Concrete cases stand beside them, some in `Cases*.v`.

| file | modelled in | not modelled / simplified |
|---|---|---|
| `__init__.py` | `Splits.v`, `Legacy.v` | process pool: tasks run in an arbitrary order and deliver their result or exception; pickling, process start not modelled |
| `interpolator.py` `Interpolator` | `Interp.v` | scipy `splrep/splev` along a row: an arbitrary function of (positions, row, order, x), the theorems that need it assume that it interpolates. `RectBivariateSpline` with `s=0`: its argument checks, and tensor-product spline = spline across the rows of the row splines; a spline of order 1 is the piecewise linear interpolant (arguments clamped to the grid), one of a higher order again an arbitrary function that interpolates; `dfitpack.error` (degree or number of points refused) is not distinguished from ValueError. Exact real arithmetic; tie data are float64 (`_interp1d` stores with the dtype of the tie data: see `InterpObj.v`). Arrays without rows have no width |
| `Interpolator` and `GeoInterpolator` as objects | `InterpObj.v` | dtypes int64 and float64 of the tie data (no overflow, no float32); the list handed out by `interpolate()` is shared; the argument of `GeoInterpolator` is a swath object, an object with `lons` and `lats` only, or a sequence |
| `interpolator.py` grid/spline classes | `Chunks.v` | scipy's interpolator = arbitrary function of the coordinates of one point, or a failure; `normalize_chunks` = any chunks with the right sums; `tokenize` = injective |
| scipy's `RegularGridInterpolator`, as used by the grid classes | `GridLinear.v`, `GridSingle.v` (float32 values), instances of the evaluator of `Chunks.v` | method 'linear' on two axes; float32 values are evaluated by scipy's numpy code (product of the weights first), others by its compiled code; the interval is found by a scan instead of a bisection; axes have at least two points; coordinates are not NaN; casts to an integer dtype as to 32 bits |
| FITPACK's interpolating splines of degree 3, as used by `Interpolator` | `Cubic.v`, an instance of the evaluators of `Interp.v` | computed from the second derivatives at the positions instead of B-spline coefficients, in exact arithmetic; degrees 2, 4 and 5 remain arbitrary functions |
| scipy's `RectBivariateSpline`, as used by the spline classes | `SplineGrid.v`, an instance of the evaluator of `Chunks.v` | tensor product of the splines of `Interp.v` and `Cubic.v` in exact arithmetic on finite values; degrees 2, 4 and 5 remain arbitrary functions; `bbox` is the default |
| `geointerpolator.py` | `Geo.v`, `Legacy.v`, `InterpObj.v` | pyresample's `get_cartesian_coords`: arbitrary |
| `multilinear.py`, `multilinear_cython.pyx` | `Multilinear.v`, `MultilinearClass.v` (class MultilinearInterpolator as a state machine) | positions of nodes and numbers of points wrap around as 32 bit C ints (signed overflow is undefined in C; gcc's two's complement is assumed); the unreachable 5-d routine is modelled and shown equal to the generic recursion, but is never called |
| `viiinterpolator.py` | `Vii.v`, `ViiCoords.v`, `ViiSingle.v` | xarray `interp` = scipy `interp1d` linear on each line (searchsorted, clip, slope; NaN outside); dimension names are numbers, arithmetic aligns by them; index coordinates attached by the caller in `ViiCoords.v` (integer labels; xarray's inner join of arithmetic; other coordinates not modelled); float32 arrays in `ViiSingle.v` (which operations numpy and scipy do in float32 is read off their promotion rules; longitude float32 and latitude double, or the reverse, not modelled) |
| `_modis_utils.pyx` | `Geo.v`, `Mapblocks.v` (proofs `MapblocksProofs.v`) | dask `rechunk`, `map_blocks` |
| `_modis_interpolator.pyx`, `modisinterpolator.py` | `Modis.v` | 32 bit wrap-around of sizes |
| `_simple_modis_interpolator.pyx`, `simple_modis_interpolator.py` | `SimpleModis.v` (closed form `SimpleModisProofs.v`, bounds `SimpleModisOob.v`, real semantics `SimpleModisReal.v`) | scipy `map_coordinates(order=1, mode='nearest')`: clamp, floor, two weights per axis |
| `basic_interpolator.py` | `Basic.v` | pandas `reindex`, `Series.interpolate` (linear) |
| `version.py` | `Version.v`, `VersionFile.v` | characters with code points 0-255; git is an arbitrary function from command lines to outcomes; int() without limit on the number of digits; messages of verbose=True and Windows branches left out |
| tests | not modelled | |

Rounding errors are modelled for the conversions between longitude/latitude and cartesian coordinates (C71, C72, C73) and for the satellite-angle
MODIS interpolation on float arrays (C74, C75) and of the simple one (C77; C135 on double arrays), those of the multilinear interpolation (C78 to C80) and of the VII interpolation on double arrays (C86 to C89), the linear grid interpolators (C97, C131) and the border filling (C136) on double arrays. The other analytic theorems are about exact arithmetic.

### Agreement with the project's own tests

`Conformance.v` and `ConformanceTests.v` run the model (with `vm_compute`) on inputs of `geotiepoints/tests` and compare with the
results expected there. They are tests of the model, not proofs of properties.
- `Conformance.v`: two real MODIS scans of `testdata/modis_test_data.h5`, for the functions with and without satellite angles. The
  500 m and 250 m values of that file were computed by the program. The model agrees within the distances of the tests
  (5 m, 8.3 m, 25 m, 110 m; 16 m, 27.35 m without angles), in fact mostly within the resolution of float32.
- `ConformanceTests.v`: `Interpolator`, `GeoInterpolator`, `GeoGridInterpolator`, `GeoSplineInterpolator`, the bicubic spline, VII,
  `MultilinearInterpolator`, `get_scene_splits`, with the tolerances of the tests.

`Approx.v` has the arithmetic: fixed-point numbers with series for the elementary functions. No theorem of `Props*.v` depends on it.
`ConformanceData.v` is written by `tools/gen_conformance.py`.

## 4. Plan per property

| id | model | how |
|---|---|---|
| C01, C02 | `get_scene_splits`, `vsplit` | Z division facts, induction over the range |
| C03 | `_multi`, legacy functions | from C10: homomorphism over scans, plus the error cases |
| C04 | `_linear_extrapolate` | field arithmetic |
| C05, C06, C07 | `fill_borders`, `_fill_col_borders` | case analysis on first/last |
| C08, C09 | `_fill_row_borders` | window selection on an arithmetic progression, by lists |
| C10, C11 | legacy functions | concatenated knots: evaluation in one block is evaluation on that block; translation invariance |
| C12 | legacy + Geo | evaluation at a knot, then C16 |
| C13 | `generic_modis5kmto1km` | expected false: prove that it always raises |
| C14 | `interpolate` | state unchanged, induction over calls |
| C15-C20 | Geo | trigonometry over R; C18 expected false at the antimeridian |
| C21 | `to_xyz` | cases |
| C22-C26 | Chunks | sums of prefixes; permutation of tasks; C24, C25 expected false |
| C27-C32 | Multilinear | dimension-generic recursion; C30 expected false for order 1 |
| C33-C40 | Vii | `searchsorted` on an arithmetic progression; C36 expected false |
| C41-C46, C67 | PropsMapblocks, PropsMixed | arithmetic of chunk lists; C41 false for small first chunks, C44 for other widths, C46 for numpy-backed DataArrays, C67 for mixed arguments |
| C47-C54 | Modis | consistent-writes lemma, pixel-wise specification for any arithmetic; analysis over R for C52, C53; C49, C50, C51 (5km to 500m/250m) expected false |
| C55 | Modis | dtype flag; expected false |
| C56-C58 | PropsSimple | as Modis; C58 false for other factors, exact condition proved |
| C59, C60, C68 | PropsBasic | position lists, nearest values before and after a cell; C60 (no `as_matrix` in current pandas) and C68 (order of the results) false |
| C61, C62 | Chunks, Geo | C23 per component, then C16 |
| C63, C64 | Multilinear | found while modelling; both false as stated |
| C65 | Vii, Geo | from C39 and C18; false where C18 is |
| C66 | Modis | every failure is an access outside a buffer; false as stated |
| C69 | PropsModisValues | law of sines as a relation; closed form of the coefficients, then of every pixel (found missing by seeded bug o004) |
| C70 | PropsLegacyRows | piecewise linear through filled rows = through tie rows; splines evaluated at knots (seeded bugs m031, m032) |
| C71, C72 | PropsFloat, PropsFloatAcc | Flocq: rounding of sums of squares, square roots and quotients; acos and asin are Hoelder continuous with exponent 1/2, hence errors of the order of the square root of the unit roundoff |
| C73 | PropsFloatTrip | relative errors of x and y keep the direction; no double is close to a zero of sine or cosine except as pi/2 and pi are; false on float arrays |
| C74 | PropsFloatModis | one lemma per operation bounding the error of `Some v` against a real; the coefficients divide by a difference of nearby angles, so their error is bounded relative to that difference |
| C75 | PropsFloatTie | weights 0 and 1 are exact in floats, then C73 |
| C76 | PropsReach | bounds of the coefficients from C74; the alignment coefficient divides by the difference of the arcs, which vanishes for nearly symmetric tie points |
| C77 | FloatSimple, PropsFloatSimple | row and column numbers are exact in float; one forward error bound per stage (map_coordinates, right columns, first and last rows); rounding errors of the two rows an extrapolation starts from are kept as exact numbers so that they are amplified by at most 3 |
| C78-C80 | FloatMultilinear, PropsFloatMultilinear | specification: sums of hat functions; the computed cell and weight are exactly those of the rounded grid coordinate (Sterbenz), which lies in the grid by monotonicity of rounding; the interpolant is Lipschitz |
| C81 | Multilinear | the reads of the four vertices of the last cell, indices modulo 2^32; no list of that length is computed |
| C82, C83 | MultilinearClass | any sequence of uses of one object against a function of the constructor arguments and the values set last; concrete misfits |
| C84 | Interp | inversion of the chunk loop: which tie rows the windows select; exact rational run for the refutation |
| C85 | Interp | inversion of both border fillings, then the interpolation property of the splines; evaluator that interpolates: PropsLegacy |
| C86 | Vii, Float | FloatVii: errors of one line, then of two nested ones, by convexity |
| C87, C88 | Vii, Float | expected false: a tie point is computed from its left neighbour; exact for fixed-point data (FloatVii) |
| C89 | Vii, Geo, Float | mode from exact comparisons; C86, the errors of the conversion of the tie points, C72 |
| C90-C92 | GridLinear | the scan finds the cell; weights add to 1; instance of the abstract evaluator of C23, C62 |
| C93, C94 | GridLinear | expected false: cast to the dtype of the tie values, 0 * NaN |
| C95 | PropsSag | asin is Lipschitz away from 1; convex combinations of points of a cap |
| C96 | PropsBilinear | closed form of the order 1 spline with clamped arguments (seeded bug t015) |
| C97, C98 | PropsFloatGrid, FloatGrid | error propagation through `near` for the four terms; corner terms exact because 0 * v and v * 1 are exact; an explicit rounding refutes constancy |
| C99 | Cubic | splines as sums of truncated cubes: by linearity their second derivatives solve a tridiagonal system, diagonally dominant after elimination of the ends; elimination solves it |
| C100 | Cubic, Interp | C99 along both axes |
| C101 | Cubic | diagonal dominance bounds the second derivatives; convexity of K x^2 / 2 + f and K x^2 / 2 - f |
| C102 | Legacy, Interp, Cubic | the spline is linear in its data, so the extrapolated rows can be taken before it; C99, C101 on the extended columns |
| C103, C104, C106 | SplineGrid, Cubic, Geo | C99 along both axes; a linear functional is the sum of its values at unit vectors, so the axes can be exchanged; C101 along both axes |
| C105 | SplineGrid | C103 and a cubic polynomial; C104 |
| C107 | Chunks, SplineGrid | induction over the target points |
| C108 | Cubic | Taylor expansions by comparison of derivatives: the errors of the second derivatives solve the system of C99 with a small right-hand side; in each cell the difference vanishes at both ends and has a bounded second derivative |
| C109 | LegacyTie, Legacy, Cubic | C99 and C108 on the columns of metop20kmto1km |
| C110 | SplineGrid, Cubic | C108 along both axes; a spline through values of at most d is at most (1 + 4 edge) d |
| C111 | GridLinear | difference from a chord (C101) along both axes |
| C112 | Geo | law of cosines and the direction of the computed point; Lipschitz bounds on both latitude branches |
| C113 | LegacyTie, SplineGrid, GridLinear, Geo | C112 with C109, C110 and C111 |
| C114-C116 | Version | strings as lists of characters; splitting at the last dash; injectivity by length of digit and hexadecimal runs |
| C117 | Version | expected false: the tags are sorted alphabetically |
| C118 | Version | case analysis of the outcomes of the commands; expected false where the answer None is not checked |
| C119 | Version | C114; uniqueness of the separator .post |
| C120 | all interpolators that work on cartesian positions | positions move by a linear map; the interpolators are linear in the positions (uniqueness of splines); a moved position has moved longitude and latitude |
| C121 | Vii | C39 and the proof of C120 when both runs use the same mode; expected false otherwise |
| C122 | Basic | nearest values before and after a cell; the specification determines the values |
| C123 | Interp | case analysis of the failing step; expected false for several dimensions and arrays of different widths |
| C124 | Vii | C38 and the alignment of names; expected false for swapped names |
| C125 | SimpleModis, Legacy, Vii | error of straight lines and of their continuation from the bound on the second derivative, rows and columns combined |
| C126 | SimpleModis, Legacy, Vii, Geo | C125 for x, y, z, then C112 |
| C127 | Modis | the mid-angle parabola agrees with the arc at three scan angles, so four uses of Rolle give the third-order error; chord of the circle, then C69 and C112 |
| C128 | InterpObj | the stored value is the truncated spline value (Flocq's Ztrunc); fill_borders makes floating-point arrays; counterexample by computation |
| C129 | InterpObj | every list handed out is new_data of the present state; fill_borders does not touch it; counterexample by computation |
| C130 | InterpObj, Legacy | constructor by cases, C85 for x, y, z, then C16 |
| C131 | PropsFloatGeoGrid, FloatGrid, FloatTrip, FloatAcc | C73 for the corners, C91 for the cell, C72 for the way back; place_ball: the bilinear position is inside the sphere |
| C132 | PropsBorderOrder | extrapolation is linear in each row, so extending the rows commutes with it; windows do not depend on the columns |
| C133 | PropsBorderOrder | the last row of the first piece is found by the second call and added again; counterexample by computation |
| C134 | VersionFile, PropsVersionFile | lines by induction over the text; first equals sign, last quote; the last matching line decides |
| C135 | FloatSimple64, PropsFloatSimple64 | the development of C77 with the double format for storage: stored values are rounded twice, which is counted twice |
| C136 | Borders (any arithmetic), FloatBorders, PropsFloatBorders | the border filling is written out once for any arithmetic, given the windows; the windows are computed exactly in doubles; then a forward error analysis row by row and column by column against the same formula in exact arithmetic |
| C137 | PropsFloatGround | the rounding errors of C74, C89, C131 and C135 and the errors of the methods in exact arithmetic (C112, C125 to C127) are added: both bound the cartesian position before the conversion to longitude and latitude; the conversion with the rounded threshold is C112's for thresholds near 0.8 |
| C138 | ViiCoords, PropsViiCoords | the latitudes and longitudes of `cos(lats_rad) * cos(lons_rad)` are aligned by label (xarray's inner join); agreeing labels leave both untouched, otherwise a missing label makes x and y smaller than z, which is refused, and a reordering pairs by label |
| C139 | PropsMixed | refused by da.map_blocks when the latitudes have several blocks and not as many as the longitudes; false for a single block, which every block of longitudes gets, and for equal numbers of blocks |
| C140 | PropsFloatVii32 | near (float32 where numpy and scipy compute in float32, double elsewhere); errors as for doubles |
| C141 | PropsFloatVii32 | when no tie point is more than twice the one above or below it (or one of them is 0): the difference is exact (Sterbenz); refuted in general |
| C142 | PropsFloatGrid32 | the double sum is monotone in the values; for equal values it is within 2^-28 of them, less than half the gap of float32 |
| C143 | PropsFloatGeoGrid32 | C131 with C142 for the interpolation and the float32 parts of C72 and C73 for the conversions |
| C144 | PropsFloatGround32 | C137 with the float32 results of C140 and C143 |
| C145 | PropsAngleHeights | refused by da.map_blocks when the angles have several blocks and not as many as the longitudes; false otherwise: a single block of angles is used for every block of longitudes, and the result has as many rows as the blocks of angles |
| C146 | PropsFloatGridInt | integer tie values on doubles. False: 27 everywhere gives 26 (one rounding below 27, then cut off). Proved: within one unit and 20 roundings of the exact value, the exact value cut off when that is not next to an integer; between the corners or one nearer to zero; tie points come back |
| C147 | PropsFloatBasic | basic interpolator on double arrays: np.interp along both axes rounds seven times each; constant tie values come back exactly |
| C148 | PropsBasicAcc | basic interpolator on samples of smooth fields: second order in the distance of the tie points, in the reals and on doubles |
| C149 | PropsBasicAcc | basic interpolator across the date line. False: tie longitudes 179 and -179 give 0 between them, 179 and 181 give 180. Proved: a cell whose tie points are all turned by the same angle is turned by it; mirrored tie points give mirrored pixels |
| C150 | PropsScales | VII: factor f g, every g-th pixel, against factor f; simple MODIS: 500 m positions are midpoints of 250 m positions |
| C151 | PropsBasicInput | malformed indices of the basic interpolator. False: indices that are not increasing are accepted and tie rows are lost. Proved: the other cases are refused; everything else is accepted |
| C152 | PropsViiPieces | some scans of a VII granule alone against the whole granule. False for longitudes and latitudes: the mode is chosen for a whole call. Proved: plain data, and positions where both calls use the same mode |
| C153 | PropsLinear | linearity in the tie values, for every interpolator of plain values |
| C154 | PropsOrientation | swaths upside down (both MODIS interpolations), transposed tie values (grid and basic interpolators) |
| C155 | PropsChunksKept | layout of the blocks of lazy MODIS results; chunks of whole scans kept (partial, refuted) |
| C156 | PropsStable | errors of tie values: not amplified by linear interpolation inside the grid, by at most 31 by cubic splines on even grids; refuted for default splines and extrapolated grids |
| C157 | PropsNear | pixels within 4 d of every place that has the surrounding tie points within d: grid interpolators, simple MODIS, VII |
| C158 | PropsTwoSteps | interpolating in two steps, by way of axes that contain the tie points, is interpolating at once: grids, splines of degrees 1 and 3 |
| C159 | PropsFiveDim | the five-dimensional multilinear routine (never called): affine functions, nodes, reads, bounds |
| C160 | PropsMonotone | tie values that do not fall along an axis: grids, Interpolator of order 1, splines of degree 1; refuted for cubic splines |
| C161 | PropsUnits | another origin and unit for each axis: grid and spline interpolators and their geographic versions, Interpolator of orders 1 and 3, multilinear interpolation |
| C162 | PropsCrop | parts of the tie points: grid and geographic grid interpolators, splines of degree 1; refuted for cubic splines |

Properties that turn out false are kept, refuted by a `_refuted` theorem with a witness, and
the part that does hold is proved as a `_partial` theorem.

## 5. Mutation log

`seeded/LOG.jsonl` lists edits of the model (in a scratch copy) that change it as a realistic bug would. `theorems_failed` are
the theorems of the `Props*.v` files that no longer compile, either because their own proof fails or because a lemma they
use fails; a failure can therefore also be one of the proof script. An edit that no theorem noticed led to a
tighter theorem, named in `theorems_tightened`, or to a note why the claim still holds.
