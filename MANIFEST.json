{
 "claims": [
  {
   "property": "C01",
   "status": "proved",
   "theorems": [
    "C01_splits_tile"
   ],
   "note": ""
  },
  {
   "property": "C02",
   "status": "proved",
   "theorems": [
    "C02_splits_count"
   ],
   "note": ""
  },
  {
   "property": "C03",
   "status": "proved",
   "theorems": [
    "C03_modis500m_cores",
    "C03_modis250m_cores"
   ],
   "note": "Exact real arithmetic; the spline evaluators along a row are arbitrary functions."
  },
  {
   "property": "C04",
   "status": "proved",
   "theorems": [
    "C04_linear_extrapolate",
    "C04_at_first_tie",
    "C04_at_second_tie",
    "C04_wrong_number",
    "C04_line_unique"
   ],
   "note": ""
  },
  {
   "property": "C05",
   "status": "proved",
   "theorems": [
    "C05_fill_x"
   ],
   "note": ""
  },
  {
   "property": "C06",
   "status": "proved",
   "theorems": [
    "C06_fill_x_idempotent"
   ],
   "note": ""
  },
  {
   "property": "C07",
   "status": "proved",
   "theorems": [
    "C07_unknown_dimension"
   ],
   "note": ""
  },
  {
   "property": "C08",
   "status": "proved",
   "theorems": [
    "C08_fill_y_chunkwise"
   ],
   "note": ""
  },
  {
   "property": "C09",
   "status": "proved",
   "theorems": [
    "C09_rows_modis5km",
    "C09_rows_modis500m",
    "C09_rows_modis250m"
   ],
   "note": ""
  },
  {
   "property": "C10",
   "status": "proved",
   "theorems": [
    "C10_modis5km_scanwise",
    "C10_modis500m_scanwise",
    "C10_modis250m_scanwise"
   ],
   "note": ""
  },
  {
   "property": "C11",
   "status": "proved",
   "theorems": [
    "C11_modis5km",
    "C11_modis500m",
    "C11_modis250m"
   ],
   "note": ""
  },
  {
   "property": "C12",
   "status": "proved",
   "theorems": [
    "C12_modis5km_tie_points",
    "C12_metop_tie_points",
    "C12_metop_shape"
   ],
   "note": ""
  },
  {
   "property": "C13",
   "status": "partial",
   "theorems": [
    "C13_generic_always_raises",
    "C13_generic_refuted"
   ],
   "note": "False as stated: the function raises for every 5km input (C13_generic_always_raises), refuted by C13_generic_refuted."
  },
  {
   "property": "C14",
   "status": "proved",
   "theorems": [
    "C14_interpolate_repeatable",
    "C14_depends_on_inputs_only",
    "C14_well_formed"
   ],
   "note": ""
  },
  {
   "property": "C15",
   "status": "proved",
   "theorems": [
    "C15_sphere",
    "C15_sphere_cython",
    "C15_sphere_vii"
   ],
   "note": ""
  },
  {
   "property": "C16",
   "status": "proved",
   "theorems": [
    "C16_round_trip"
   ],
   "note": ""
  },
  {
   "property": "C17",
   "status": "proved",
   "theorems": [
    "C17_normalise"
   ],
   "note": ""
  },
  {
   "property": "C18",
   "status": "partial",
   "theorems": [
    "C18_direction_partial",
    "C18_antimeridian_refuted",
    "C18_antimeridian_value"
   ],
   "note": "False on the half-plane y = 0, x < 0, where the longitude is 0 (C18_antimeridian_refuted, _value); proved for all other points and all three versions."
  },
  {
   "property": "C19",
   "status": "proved",
   "theorems": [
    "C19_latitude"
   ],
   "note": ""
  },
  {
   "property": "C20",
   "status": "partial",
   "theorems": [
    "C20_lonlat2xyz",
    "C20_vii",
    "C20_cython_partial",
    "C20_missing_refuted",
    "C20_missing_z"
   ],
   "note": "lonlat2xyz and the VII version agree on all inputs; the Cython version agrees whenever z is present, and gives latitude 0 for a missing z (C20_missing_refuted)."
  },
  {
   "property": "C21",
   "status": "proved",
   "theorems": [
    "C21_one_object",
    "C21_two_arrays",
    "C21_other_number",
    "C21_accepts_only"
   ],
   "note": ""
  },
  {
   "property": "C22",
   "status": "proved",
   "theorems": [
    "C22_cover",
    "C22_sizes"
   ],
   "note": ""
  },
  {
   "property": "C23",
   "status": "proved",
   "theorems": [
    "C23_single",
    "C23_multiple",
    "C23_accepted"
   ],
   "note": "The underlying scipy evaluator is an arbitrary pointwise function; several arrays together need a collision-free tokenize."
  },
  {
   "property": "C24",
   "status": "partial",
   "theorems": [
    "C24_index_points_partial",
    "C24_refuted"
   ],
   "note": "False as stated (C24_refuted): the chunked call evaluates at indices 0, 1, ... whatever fine_points are. Proved for fine_points that are these indices."
  },
  {
   "property": "C25",
   "status": "partial",
   "theorems": [
    "C25_same_class_partial",
    "C25_together_partial",
    "C25_refuted"
   ],
   "note": "False as stated (C25_refuted): the token leaves out class and constructor keywords. Proved for interpolators of the same class and keywords, any number of arrays and any order."
  },
  {
   "property": "C26",
   "status": "proved",
   "theorems": [
    "C26_independent",
    "C26_failure",
    "C26_independent_chunked"
   ],
   "note": ""
  },
  {
   "property": "C27",
   "status": "proved",
   "theorems": [
    "C27_nodes",
    "C27_own_grid"
   ],
   "note": "Exact real arithmetic, orders below 2^31."
  },
  {
   "property": "C28",
   "status": "proved",
   "theorems": [
    "C28_multi_affine"
   ],
   "note": "Exact real arithmetic; all points, also where the cell index overflows a C int."
  },
  {
   "property": "C29",
   "status": "proved",
   "theorems": [
    "C29_between"
   ],
   "note": ""
  },
  {
   "property": "C30",
   "status": "partial",
   "theorems": [
    "C30_memory_safe_partial",
    "C30_single_node",
    "C30_refuted"
   ],
   "note": "Proved for any arithmetic with at least two nodes per dimension; false for a single node, accepted by the constructor (C30_single_node, C30_refuted)."
  },
  {
   "property": "C31",
   "status": "proved",
   "theorems": [
    "C31_schedule"
   ],
   "note": ""
  },
  {
   "property": "C32",
   "status": "proved",
   "theorems": [
    "C32_more_than_four"
   ],
   "note": ""
  },
  {
   "property": "C33",
   "status": "proved",
   "theorems": [
    "C33_shape",
    "C33_only"
   ],
   "note": ""
  },
  {
   "property": "C34",
   "status": "proved",
   "theorems": [
    "C34_tie_points"
   ],
   "note": "Exact real arithmetic."
  },
  {
   "property": "C35",
   "status": "proved",
   "theorems": [
    "C35_own_scan"
   ],
   "note": "Exact real arithmetic, finite data; missing values do leak, see C36."
  },
  {
   "property": "C36",
   "status": "partial",
   "theorems": [
    "C36_missing_partial",
    "C36_leak",
    "C36_refuted"
   ],
   "note": "False (C36_refuted, C36_leak): a missing tie point in the last row of a scan makes pixels of the first row of the next scan missing. Proved for all other pixel rows."
  },
  {
   "property": "C37",
   "status": "proved",
   "theorems": [
    "C37_bilinear",
    "C37_between",
    "C37_affine"
   ],
   "note": "Exact real arithmetic."
  },
  {
   "property": "C38",
   "status": "proved",
   "theorems": [
    "C38_rows",
    "C38_shapes",
    "C38_geo",
    "C38_geo_rows"
   ],
   "note": ""
  },
  {
   "property": "C39",
   "status": "proved",
   "theorems": [
    "C39_geodetic_when_safe",
    "C39_cartesian_when_unsafe"
   ],
   "note": ""
  },
  {
   "property": "C40",
   "status": "proved",
   "theorems": [
    "C40_cartesian_tie_points"
   ],
   "note": "Exact real arithmetic."
  },
  {
   "property": "C41",
   "status": "partial",
   "theorems": [
    "C41_modis_partial",
    "C41_simple_partial",
    "C41_small_first_chunk",
    "C41_refuted"
   ],
   "note": "Holds when the first chunk of rows holds a scan (C41_modis_partial, C41_simple_partial, any chunks of the other arrays); otherwise ZeroDivisionError (C41_small_first_chunk, C41_refuted)."
  },
  {
   "property": "C42",
   "status": "proved",
   "theorems": [
    "C42_modis",
    "C42_simple"
   ],
   "note": ""
  },
  {
   "property": "C43",
   "status": "proved",
   "theorems": [
    "C43_modis",
    "C43_simple"
   ],
   "note": ""
  },
  {
   "property": "C44",
   "status": "partial",
   "theorems": [
    "C44_modis",
    "C44_simple_partial",
    "C44_simple_width",
    "C44_refuted"
   ],
   "note": "Satellite-angle functions: proved. Simple functions: holds for 1354 columns (C44_simple_partial), false for every other width they accept (C44_simple_width, C44_refuted)."
  },
  {
   "property": "C45",
   "status": "partial",
   "theorems": [
    "C45_keywords",
    "C45_dimensions",
    "C45_5km_refuted"
   ],
   "note": "Proved for the decorated functions; the 5km functions raise IndexError for one-dimensional arrays because they look at lon1.shape[1] first (C45_5km_refuted)."
  },
  {
   "property": "C46",
   "status": "partial",
   "theorems": [
    "C46_chunked_partial",
    "C46_modis",
    "C46_simple",
    "C46_refuted"
   ],
   "note": "DataArrays of dask arrays: proved (C46_chunked_partial). False for DataArrays of numpy arrays: AttributeError (C46_modis, C46_simple, C46_refuted)."
  },
  {
   "property": "C47",
   "status": "proved",
   "theorems": [
    "C47_scanwise"
   ],
   "note": ""
  },
  {
   "property": "C48",
   "status": "proved",
   "theorems": [
    "C48_memory_safe"
   ],
   "note": ""
  },
  {
   "property": "C49",
   "status": "partial",
   "theorems": [
    "C49_wide",
    "C49_narrow",
    "C49_refuted"
   ],
   "note": "False (C49_refuted): 1km arrays with more than 1354 columns are written beyond the work arrays (C49_wide, any arithmetic), narrower ones (and 5km arrays without columns) give results made of uninitialised memory (C49_narrow). Unsupported 5km widths other than 0 are refused: C54."
  },
  {
   "property": "C50",
   "status": "partial",
   "theorems": [
    "C50_computed_partial",
    "C50_leftover",
    "C50_refuted",
    "C50_simple_partial",
    "C50_simple_leftover"
   ],
   "note": "Holds for whole scans (C50_computed_partial, C50_simple_partial); otherwise the last rows are uninitialised memory (C50_leftover, C50_refuted, C50_simple_leftover)."
  },
  {
   "property": "C51",
   "status": "partial",
   "theorems": [
    "C51_positions_partial",
    "C51_5km_refuted"
   ],
   "note": "Proved for 1km->500m, 1km->250m and 5km->1km; false for 5km->500m and 5km->250m (C51_5km_refuted), whose coordinates are those of 1km pixels."
  },
  {
   "property": "C52",
   "status": "proved",
   "theorems": [
    "C52_tie_points"
   ],
   "note": "Exact real arithmetic; zenith angles as in C53."
  },
  {
   "property": "C53",
   "status": "proved",
   "theorems": [
    "C53_finite",
    "C53_widths",
    "C53_both_zero"
   ],
   "note": "Exact real arithmetic. C53_both_zero shows that the excluded case is not finite."
  },
  {
   "property": "C54",
   "status": "proved",
   "theorems": [
    "C54_refused"
   ],
   "note": ""
  },
  {
   "property": "C55",
   "status": "partial",
   "theorems": [
    "C55_float64",
    "C55_refuted"
   ],
   "note": "False: every float64 input of supported shape raises ValueError (C55_float64, C55_refuted)."
  },
  {
   "property": "C56",
   "status": "proved",
   "theorems": [
    "C56_bilinear",
    "C56_direction"
   ],
   "note": ""
  },
  {
   "property": "C57",
   "status": "proved",
   "theorems": [
    "C57_scanwise"
   ],
   "note": ""
  },
  {
   "property": "C58",
   "status": "partial",
   "theorems": [
    "C58_safe_partial",
    "C58_exact",
    "C58_narrow",
    "C58_refuted"
   ],
   "note": "Holds for 1km->500m and 1km->250m (C58_safe_partial). C58_exact says for every accepted pair of resolutions when it holds; false e.g. for 5km->1km (C58_refuted) and for fewer than two columns (C58_narrow)."
  },
  {
   "property": "C59",
   "status": "proved",
   "theorems": [
    "C59_tie_points",
    "C59_bilinear"
   ],
   "note": ""
  },
  {
   "property": "C60",
   "status": "partial",
   "theorems": [
    "C60_no_result",
    "C60_attribute_error",
    "C60_refuted",
    "C60_partial"
   ],
   "note": "False: without DataFrame.as_matrix (removed in pandas 1.0) there is never a result, and AttributeError for all valid inputs (C60_no_result, C60_attribute_error, C60_refuted). Holds with as_matrix (C60_partial)."
  },
  {
   "property": "C61",
   "status": "proved",
   "theorems": [
    "C61_geo_chunked"
   ],
   "note": ""
  },
  {
   "property": "C62",
   "status": "proved",
   "theorems": [
    "C62_geo_tie_points"
   ],
   "note": ""
  },
  {
   "property": "C63",
   "status": "partial",
   "theorems": [
    "C63_more_coordinates",
    "C63_fewer_coordinates",
    "C63_no_coordinates",
    "C63_refuted"
   ],
   "note": "False (C63_refuted): too many coordinates read the orders out of bounds, too few are interpolated on a smaller grid, none return the uninitialised buffer."
  },
  {
   "property": "C64",
   "status": "partial",
   "theorems": [
    "C64_grid_partial",
    "C64_refuted",
    "C64_one_dimension"
   ],
   "note": "Proved for every number of dimensions other than 1; false for 1 (TypeError for all bounds and orders)."
  },
  {
   "property": "C65",
   "status": "partial",
   "theorems": [
    "C65_direction_partial",
    "C65_antimeridian",
    "C65_refuted"
   ],
   "note": "False exactly opposite to the prime meridian: C65_antimeridian, C65_refuted. Proved for all other positions."
  },
  {
   "property": "C66",
   "status": "partial",
   "theorems": [
    "C66_shapes",
    "C66_refuted",
    "C66_simple_shapes"
   ],
   "note": "False (C66_refuted): a latitude array with fewer rows is read beyond its end (C66_shapes, C66_simple_shapes)."
  },
  {
   "property": "C67",
   "status": "partial",
   "theorems": [
    "C67_mixed",
    "C67_mixed_modis",
    "C67_refuted",
    "C67_plain_first_modis",
    "C67_plain_first_simple",
    "C67_plain_angles"
   ],
   "note": "False when a plain array follows a chunked one (C67_refuted): C67_mixed and C67_mixed_modis say exactly what is computed with plain latitudes, C67_plain_angles what becomes of plain angles: every block is as tall as the whole result. All arrays chunked: see C41, C42."
  },
  {
   "property": "C68",
   "status": "partial",
   "theorems": [
    "C68_order",
    "C68_refuted"
   ],
   "note": "False: the latitudes come first for all inputs (C68_order, C68_refuted)."
  },
  {
   "property": "C69",
   "status": "proved",
   "theorems": [
    "C69_coefficients",
    "C69_pixels"
   ],
   "note": ""
  },
  {
   "property": "C70",
   "status": "proved",
   "theorems": [
    "C70_rows"
   ],
   "note": ""
  },
  {
   "property": "C71",
   "status": "proved",
   "theorems": [
    "C71_numpy",
    "C71_cython",
    "C71_vii",
    "C71_exact_libm",
    "C71_underflow"
   ],
   "note": ""
  },
  {
   "property": "C72",
   "status": "proved",
   "theorems": [
    "C72_numpy",
    "C72_cython",
    "C72_vii",
    "C72_exact_libm",
    "C72_float_meridian"
   ],
   "note": ""
  },
  {
   "property": "C73",
   "status": "partial",
   "theorems": [
    "C73_double",
    "C73_compiled_floats_partial",
    "C73_numpy_floats_partial",
    "C73_antimeridian",
    "C73_refuted"
   ],
   "note": "Proved for double arrays in all three versions (C73_double). On float arrays the compiled version comes back up to 1e-4 degrees off the poles and modulo 360 degrees (C73_compiled_floats_partial); longitude 180 comes back as -180 (C73_antimeridian). The numpy version is only good to 0.1 degrees on float arrays (C73_numpy_floats_partial): 1/128 degree comes back as 0 (C73_refuted)."
  },
  {
   "property": "C74",
   "status": "proved",
   "theorems": [
    "C74_pixels",
    "C74_apart",
    "C74_coefficients"
   ],
   "note": ""
  },
  {
   "property": "C75",
   "status": "proved",
   "theorems": [
    "C75_tie_points"
   ],
   "note": ""
  },
  {
   "property": "C76",
   "status": "partial",
   "theorems": [
    "C76_reach_partial",
    "C76_unbounded",
    "C76_refuted"
   ],
   "note": "Proved when neighbouring angles differ by at least 0.006 degrees or are equal and at least 0.003 degrees (C76_reach_partial). False for nearly equal angles, e.g. of tie points on both sides of nadir: the coefficient is unbounded (C76_unbounded) and a pixel between tie points at 0 and 1/64 degrees east lands beyond 45 degrees east (C76_refuted)."
  },
  {
   "property": "C77",
   "status": "proved",
   "theorems": [
    "C77_pixels"
   ],
   "note": ""
  },
  {
   "property": "C78",
   "status": "proved",
   "theorems": [
    "C78_rounding"
   ],
   "note": ""
  },
  {
   "property": "C79",
   "status": "partial",
   "theorems": [
    "C79_corners_partial",
    "C79_refuted"
   ],
   "note": "exactness proved for the corners of the grid; refuted for other nodes: node 1 of 50 nodes at 0, 1, ..., 49 returns 1 - 2^-53 instead of 1 in double arithmetic"
  },
  {
   "property": "C80",
   "status": "partial",
   "theorems": [
    "C80_between_partial",
    "C80_refuted"
   ],
   "note": "holds up to the rounding errors bounded in C78; refuted exactly: the constant 5 is interpolated as 5 - 2^-50 in double arithmetic"
  },
  {
   "property": "C81",
   "status": "partial",
   "theorems": [
    "C81_many_points",
    "C81_large_grid",
    "C81_refuted"
   ],
   "note": "false as stated; C81_many_points and C81_large_grid describe what happens beyond 2^31; below it C27 to C31 hold"
  },
  {
   "property": "C82",
   "status": "proved",
   "theorems": [
    "C82_history",
    "C82_grid"
   ],
   "note": ""
  },
  {
   "property": "C83",
   "status": "partial",
   "theorems": [
    "C83_too_many_values",
    "C83_too_few_bounds",
    "C83_too_few_values",
    "C83_refuted"
   ],
   "note": "false as stated (C83_refuted); C83_too_many_values, C83_too_few_bounds and C83_too_few_values say what happens"
  },
  {
   "property": "C84",
   "status": "partial",
   "theorems": [
    "C84_kept_partial",
    "C84_only",
    "C84_refuted"
   ],
   "note": "false as stated (C84_refuted); C84_kept_partial proves it for rows at positions in [0, number of tie rows), C84_only that no other row survives"
  },
  {
   "property": "C85",
   "status": "proved",
   "theorems": [
    "C85_tie_points",
    "C85_filled"
   ],
   "note": ""
  },
  {
   "property": "C86",
   "status": "proved",
   "theorems": [
    "C86_pixels"
   ],
   "note": ""
  },
  {
   "property": "C87",
   "status": "partial",
   "theorems": [
    "C87_tie_points_partial",
    "C87_exact_partial",
    "C87_refuted"
   ],
   "note": "false as stated (C87_refuted); C87_tie_points_partial proves it for power-of-two factors and fixed-point tie points of 52 bits, C87_exact_partial exact pixels with bits to spare"
  },
  {
   "property": "C88",
   "status": "partial",
   "theorems": [
    "C88_own_scan_partial",
    "C88_refuted"
   ],
   "note": "false as stated (C88_refuted: a pixel of the second scan depends on the first scan); C88_own_scan_partial proves it for all other pixel rows, in any arithmetic"
  },
  {
   "property": "C89",
   "status": "proved",
   "theorems": [
    "C89_geodetic",
    "C89_cartesian"
   ],
   "note": ""
  },
  {
   "property": "C90",
   "status": "proved",
   "theorems": [
    "C90_accepted",
    "C90_bilinear",
    "C90_cells",
    "C90_tie_points",
    "C90_between",
    "C90_exact",
    "C90_bounds",
    "C90_fill"
   ],
   "note": ""
  },
  {
   "property": "C91",
   "status": "proved",
   "theorems": [
    "C91_position",
    "C91_tie_points"
   ],
   "note": ""
  },
  {
   "property": "C92",
   "status": "proved",
   "theorems": [
    "C92_rows",
    "C92_columns"
   ],
   "note": ""
  },
  {
   "property": "C93",
   "status": "partial",
   "theorems": [
    "C93_truncated_partial",
    "C93_refuted"
   ],
   "note": "false as stated (C93_refuted: a bilinear value of 3/4 becomes 0, although 1 is nearer); C93_truncated_partial: the result is the bilinear value truncated towards zero"
  },
  {
   "property": "C94",
   "status": "partial",
   "theorems": [
    "C94_holes_partial",
    "C94_refuted"
   ],
   "note": "false as stated (C94_refuted: one missing value spoils a finite tie point of the cell to its upper left); C94_holes_partial proves it for cells without a missing value"
  },
  {
   "property": "C95",
   "status": "proved",
   "theorems": [
    "C95_latitude",
    "C95_cell"
   ],
   "note": ""
  },
  {
   "property": "C96",
   "status": "proved",
   "theorems": [
    "C96_bilinear",
    "C96_constant_outside",
    "C96_succeeds"
   ],
   "note": ""
  },
  {
   "property": "C97",
   "status": "proved",
   "theorems": [
    "C97_double",
    "C97_tie_points"
   ],
   "note": ""
  },
  {
   "property": "C98",
   "status": "partial",
   "theorems": [
    "C98_between_partial",
    "C98_refuted"
   ],
   "note": "false as stated (C98_refuted: constant data 5 give 5 + 2^-50); C98_between_partial proves it up to the rounding error 20 * 2^-53 * B"
  },
  {
   "property": "C99",
   "status": "proved",
   "theorems": [
    "C99_spline",
    "C99_smooth",
    "C99_cubic",
    "C99_interpolates"
   ],
   "note": ""
  },
  {
   "property": "C100",
   "status": "proved",
   "theorems": [
    "C100_exact",
    "C100_one_dimension"
   ],
   "note": ""
  },
  {
   "property": "C101",
   "status": "proved",
   "theorems": [
    "C101_lines",
    "C101_function"
   ],
   "note": ""
  },
  {
   "property": "C102",
   "status": "proved",
   "theorems": [
    "C102_spline",
    "C102_pixel",
    "C102_near",
    "C102_close"
   ],
   "note": ""
  },
  {
   "property": "C103",
   "status": "proved",
   "theorems": [
    "C103_accepted",
    "C103_constructor",
    "C103_spline",
    "C103_exists",
    "C103_transposed",
    "C103_tie_points",
    "C103_polynomials",
    "C103_integers"
   ],
   "note": ""
  },
  {
   "property": "C104",
   "status": "proved",
   "theorems": [
    "C104_near",
    "C104_inner"
   ],
   "note": ""
  },
  {
   "property": "C105",
   "status": "partial",
   "theorems": [
    "C105_range_refuted",
    "C105_linear_partial",
    "C105_excess_partial"
   ],
   "note": "false as stated (C105_range_refuted: tie values 0, 0, 1, 1 give -1/4 with the default degrees); C105_linear_partial proves it for degrees 1, C105_excess_partial bounds the excess on evenly spaced tie points"
  },
  {
   "property": "C106",
   "status": "proved",
   "theorems": [
    "C106_position",
    "C106_exists",
    "C106_near",
    "C106_tie_points"
   ],
   "note": ""
  },
  {
   "property": "C107",
   "status": "partial",
   "theorems": [
    "C107_grid",
    "C107_spline",
    "C107_any_order_refuted",
    "C107_empty"
   ],
   "note": "false for the spline interpolators (C107_any_order_refuted); C107_grid proves it for the grid interpolators, C107_spline says exactly which points the spline interpolators take"
  },
  {
   "property": "C108",
   "status": "proved",
   "theorems": [
    "C108_function",
    "C108_even"
   ],
   "note": ""
  },
  {
   "property": "C109",
   "status": "proved",
   "theorems": [
    "C109_spline",
    "C109_pixel",
    "C109_accuracy"
   ],
   "note": ""
  },
  {
   "property": "C110",
   "status": "proved",
   "theorems": [
    "C110_value",
    "C110_everywhere",
    "C110_position"
   ],
   "note": ""
  },
  {
   "property": "C111",
   "status": "proved",
   "theorems": [
    "C111_position",
    "C111_value"
   ],
   "note": ""
  },
  {
   "property": "C112",
   "status": "proved",
   "theorems": [
    "C112_ground"
   ],
   "note": ""
  },
  {
   "property": "C113",
   "status": "proved",
   "theorems": [
    "C113_metop",
    "C113_spline",
    "C113_grid"
   ],
   "note": ""
  },
  {
   "property": "C114",
   "status": "proved",
   "theorems": [
    "C114_parse"
   ],
   "note": ""
  },
  {
   "property": "C115",
   "status": "proved",
   "theorems": [
    "C115_version",
    "C115_untagged",
    "C115_signed",
    "C115_date"
   ],
   "note": ""
  },
  {
   "property": "C116",
   "status": "proved",
   "theorems": [
    "C116_distinct",
    "C116_local"
   ],
   "note": ""
  },
  {
   "property": "C117",
   "status": "partial",
   "theorems": [
    "C117_archive",
    "C117_date",
    "C117_candidate",
    "C117_newest_refuted"
   ],
   "note": "false: tags are sorted alphabetically, so of v1.2 and v1.3 on one commit the older is picked (C117_newest_refuted); C117_archive proves which tag is picked, C117_candidate that a release is preferred to its candidates"
  },
  {
   "property": "C118",
   "status": "partial",
   "theorems": [
    "C118_returns",
    "C118_no_repository",
    "C118_failure",
    "C118_paths",
    "C118_refuted"
   ],
   "note": "false: a failing git show or git rev-list raises AttributeError on import (C118_refuted); C118_returns proves that these are the only commands that matter, C118_no_repository what happens without repository"
  },
  {
   "property": "C119",
   "status": "partial",
   "theorems": [
    "C119_describe_long",
    "C119_branch",
    "C119_styles",
    "C119_texts",
    "C119_pre",
    "C119_post",
    "C119_several_posts",
    "C119_number",
    "C119_pre_refuted"
   ],
   "note": "false for pep440-pre and tags such as 1.0.post1a (C119_pre_refuted); the rest is proved by the other theorems"
  },
  {
   "property": "C120",
   "status": "proved",
   "theorems": [
    "C120_grid",
    "C120_spline",
    "C120_simple",
    "C120_modis",
    "C120_metop",
    "C120_legacy"
   ],
   "note": ""
  },
  {
   "property": "C121",
   "status": "partial",
   "theorems": [
    "C121_cartesian_partial",
    "C121_geodetic_partial",
    "C121_refuted"
   ],
   "note": "false: the mode depends on the longitudes, so turning tie points by 180 degrees changes latitudes (C121_refuted); proved when both runs are in the cartesian mode (C121_cartesian_partial) or both in longitudes and latitudes (C121_geodetic_partial)"
  },
  {
   "property": "C122",
   "status": "proved",
   "theorems": [
    "C122_missing",
    "C122_determined",
    "C122_leading"
   ],
   "note": ""
  },
  {
   "property": "C123",
   "status": "partial",
   "theorems": [
    "C123_rows_partial",
    "C123_columns_partial",
    "C123_same_width_partial",
    "C123_refuted"
   ],
   "note": "false: rows stay filled when the columns fail afterwards, and arrays before a narrower one stay extended (C123_refuted); proved for rows, for columns of arrays of one width, and that a failure of the columns changes only a prefix of the arrays (C123_rows_partial, C123_same_width_partial, C123_columns_partial)"
  },
  {
   "property": "C124",
   "status": "partial",
   "theorems": [
    "C124_other_names_partial",
    "C124_not_square_partial",
    "C124_geodetic_partial",
    "C124_cartesian_partial",
    "C124_refuted"
   ],
   "note": "false: square arrays with swapped names are transposed in cartesian mode (C124_refuted, C124_cartesian_partial); proved for all other names, for arrays that are not square and in the mode of longitudes and latitudes (C124_other_names_partial, C124_not_square_partial, C124_geodetic_partial)"
  },
  {
   "property": "C125",
   "status": "proved",
   "theorems": [
    "C125_bilinear",
    "C125_constants"
   ],
   "note": ""
  },
  {
   "property": "C126",
   "status": "proved",
   "theorems": [
    "C126_simple",
    "C126_legacy",
    "C126_vii_direct",
    "C126_vii"
   ],
   "note": ""
  },
  {
   "property": "C127",
   "status": "proved",
   "theorems": [
    "C127_view"
   ],
   "note": ""
  },
  {
   "property": "C128",
   "status": "partial",
   "theorems": [
    "C128_floats_partial",
    "C128_rows_differ_partial",
    "C128_filled_partial",
    "C128_filled_columns_partial",
    "C128_integers_partial",
    "C128_tie_points_partial",
    "C128_refuted"
   ],
   "note": "Refuted (C128_refuted): integer tie data are truncated when the target rows are the tie rows. Proved: floats, other target rows and filled borders give the spline values; integers are the spline values cut towards zero; tie points are reproduced."
  },
  {
   "property": "C129",
   "status": "partial",
   "theorems": [
    "C129_kept_partial",
    "C129_shared",
    "C129_refuted"
   ],
   "note": "Refuted (C129_refuted): fill_borders followed by interpolate changes an earlier result. Proved: it is kept otherwise (C129_kept_partial), and always equals the latest result (C129_shared)."
  },
  {
   "property": "C130",
   "status": "partial",
   "theorems": [
    "C130_swath",
    "C130_attributes",
    "C130_too_few",
    "C130_accepts",
    "C130_extra_ignored",
    "C130_refuted",
    "C130_tie_points"
   ],
   "note": "Refuted (C130_refuted): three arrays are accepted. Proved: the other parts."
  },
  {
   "property": "C131",
   "status": "proved",
   "theorems": [
    "C131_pixels",
    "C131_tie_points"
   ],
   "note": ""
  },
  {
   "property": "C132",
   "status": "proved",
   "theorems": [
    "C132_order"
   ],
   "note": ""
  },
  {
   "property": "C133",
   "status": "partial",
   "theorems": [
    "C133_twice",
    "C133_refuted"
   ],
   "note": "Refuted (C133_refuted); C133_twice: interpolate() always fails with ValueError after the second call."
  },
  {
   "property": "C134",
   "status": "proved",
   "theorems": [
    "C134_found",
    "C134_absent",
    "C134_unreadable",
    "C134_imported"
   ],
   "note": ""
  },
  {
   "property": "C135",
   "status": "proved",
   "theorems": [
    "C135_pixels"
   ],
   "note": ""
  },
  {
   "property": "C136",
   "status": "proved",
   "theorems": [
    "C136_extrapolate",
    "C136_second",
    "C136_first_not_exact",
    "C136_modis5km",
    "C136_modis500m",
    "C136_modis250m"
   ],
   "note": ""
  },
  {
   "property": "C137",
   "status": "proved",
   "theorems": [
    "C137_grid",
    "C137_simple",
    "C137_vii_direct",
    "C137_vii",
    "C137_view"
   ],
   "note": ""
  },
  {
   "property": "C138",
   "status": "partial",
   "theorems": [
    "C138_agreeing_partial",
    "C138_geodetic_partial",
    "C138_missing_label_partial",
    "C138_repeated_label_partial",
    "C138_by_label_partial",
    "C138_refuted"
   ],
   "note": "false in cartesian mode: a label of the latitudes that the longitudes lack gives ValueError (C138_refuted, C138_missing_label_partial), repeated labels too (C138_repeated_label_partial), reordered labels pair each latitude with the longitude of the same label (C138_by_label_partial); proved when the labels agree or only one array has labels (C138_agreeing_partial) and in longitude/latitude mode (C138_geodetic_partial)"
  },
  {
   "property": "C139",
   "status": "partial",
   "theorems": [
    "C139_refused_partial",
    "C139_repeated_partial",
    "C139_short_partial",
    "C139_long_partial",
    "C139_cases",
    "C139_refuted"
   ],
   "note": "false when the latitudes make one block as tall as those of the longitudes: it is used again for every one of them (C139_refuted, C139_repeated_partial); and when they make as many blocks: surplus rows are not used (C139_long_partial), missing rows are read beyond the end of the array (C139_short_partial). Proved when they make several blocks and not as many as the longitudes (C139_refused_partial). The four theorems cover all heights (C139_cases)."
  },
  {
   "property": "C140",
   "status": "proved",
   "theorems": [
    "C140_pixels",
    "C140_geodetic",
    "C140_cartesian",
    "C140_errors"
   ],
   "note": ""
  },
  {
   "property": "C141",
   "status": "partial",
   "theorems": [
    "C141_similar_partial",
    "C141_refuted"
   ],
   "note": "false when a tie point and the one below it differ so that the float32 difference is rounded (C141_refuted); proved when neither is more than twice the other or one of them is 0 (C141_similar_partial). The error in general: C140."
  },
  {
   "property": "C142",
   "status": "proved",
   "theorems": [
    "C142_between",
    "C142_constant",
    "C142_near",
    "C142_tie_points"
   ],
   "note": ""
  },
  {
   "property": "C143",
   "status": "proved",
   "theorems": [
    "C143_pixels",
    "C143_tie_points"
   ],
   "note": ""
  },
  {
   "property": "C144",
   "status": "proved",
   "theorems": [
    "C144_vii_direct",
    "C144_vii",
    "C144_grid"
   ],
   "note": ""
  },
  {
   "property": "C145",
   "status": "partial",
   "theorems": [
    "C145_refused_partial",
    "C145_height_partial",
    "C145_refuted"
   ],
   "note": "Refused when the angles have several blocks, and not as many as the longitudes. False otherwise: the call is accepted, a single block of angles is used for every block of longitudes, and the computed result has as many rows as the blocks of angles, whatever was announced."
  },
  {
   "property": "C146",
   "status": "partial",
   "theorems": [
    "C146_cut_partial",
    "C146_between_partial",
    "C146_tie_points_partial",
    "C146_refuted"
   ],
   "note": "False: constant tie values 27 give 26 at 1/11 of a cell, because the double sum is just below 27 and astype cuts it off. Proved: the result is within one unit and 20 roundings of the exact value and is the exact value cut off unless that is next to an integer; it is between the corners or one nearer to zero; tie points come back."
  },
  {
   "property": "C147",
   "status": "proved",
   "theorems": [
    "C147_double",
    "C147_constant",
    "C147_between"
   ],
   "note": ""
  },
  {
   "property": "C148",
   "status": "proved",
   "theorems": [
    "C148_value",
    "C148_double",
    "C148_ground"
   ],
   "note": ""
  },
  {
   "property": "C149",
   "status": "partial",
   "theorems": [
    "C149_turn_partial",
    "C149_mirror",
    "C149_refuted"
   ],
   "note": "False across the date line (C149_refuted: 179 and -179 give 0 between them). Proved: turning all four tie points of a cell by the same angle, in particular by a multiple of 360 degrees, turns its pixels by that angle (C149_turn_partial); mirrored tie points give mirrored pixels (C149_mirror)."
  },
  {
   "property": "C150",
   "status": "proved",
   "theorems": [
    "C150_vii",
    "C150_vii_geo",
    "C150_simple"
   ],
   "note": ""
  },
  {
   "property": "C151",
   "status": "partial",
   "theorems": [
    "C151_rows_partial",
    "C151_cols_partial",
    "C151_longitudes_partial",
    "C151_accepted",
    "C151_refuted"
   ],
   "note": "False: distinct indices that are not increasing are accepted (C151_accepted), e.g. rows 0, 4, 2, of which the second is lost (C151_refuted). Proved: no indices, another number, repeated ones and longitudes of another shape are refused."
  },
  {
   "property": "C152",
   "status": "partial",
   "theorems": [
    "C152_direct_partial",
    "C152_geo_partial",
    "C152_refuted"
   ],
   "note": "False: tie_points_geo_interpolation chooses the mode from all tie points of the call, so that a scan far away changes the pixels of another (C152_refuted). Proved: exact for plain data (C152_direct_partial) and for positions whenever both calls choose the same mode (C152_geo_partial)."
  },
  {
   "property": "C153",
   "status": "proved",
   "theorems": [
    "C153_grid",
    "C153_spline",
    "C153_interpolator",
    "C153_one_dimension",
    "C153_multilinear",
    "C153_vii",
    "C153_basic"
   ],
   "note": ""
  },
  {
   "property": "C154",
   "status": "proved",
   "theorems": [
    "C154_simple",
    "C154_angles",
    "C154_grid",
    "C154_basic"
   ],
   "note": ""
  },
  {
   "property": "C155",
   "status": "partial",
   "theorems": [
    "C155_modis_layout",
    "C155_simple_layout",
    "C155_modis_kept_partial",
    "C155_simple_kept_partial",
    "C155_refuted"
   ],
   "note": "Proved for regular chunkings (all row chunks of the first array equal, the last possibly smaller), whatever the chunks of the other arrays; for any chunking C155_*_layout gives the layout. The full statement is false (C155_refuted): rechunk_if_needed always rechunks to the size of the first chunk, because its test of the column chunks never holds, so [20; 10; 10] is merged to [20; 20] and [10; 20] split to [10; 10; 10]."
  },
  {
   "property": "C156",
   "status": "partial",
   "theorems": [
    "C156_grid_partial",
    "C156_extrapolated_refuted",
    "C156_spline_partial",
    "C156_refuted",
    "C156_cubic_partial",
    "C156_interpolator_partial",
    "C156_multilinear_partial",
    "C156_vii_partial",
    "C156_basic_partial"
   ],
   "note": "Proved for the interpolations that are linear between neighbouring tie points: grid interpolators inside the grid (only the corners of the cell count), Interpolator of order 1, splines of degree 1, the multilinear interpolator inside its grid, VII, BasicSatelliteInterpolator. The full statement is false for cubic splines (C156_refuted; on evenly spaced tie points C156_cubic_partial bounds the factor by 31) and for grid interpolators that extrapolate (C156_extrapolated_refuted)."
  },
  {
   "property": "C157",
   "status": "proved",
   "theorems": [
    "C157_grid",
    "C157_simple",
    "C157_vii"
   ],
   "note": ""
  },
  {
   "property": "C158",
   "status": "proved",
   "theorems": [
    "C158_grid",
    "C158_spline"
   ],
   "note": ""
  },
  {
   "property": "C159",
   "status": "proved",
   "theorems": [
    "C159_multi_affine",
    "C159_nodes",
    "C159_between"
   ],
   "note": ""
  },
  {
   "property": "C160",
   "status": "partial",
   "theorems": [
    "C160_rows_partial",
    "C160_cols_partial",
    "C160_interpolator_partial",
    "C160_spline_partial",
    "C160_spline_cols_partial",
    "C160_refuted"
   ],
   "note": "False for cubic splines, the default of the spline interpolators (C160_refuted). Proved for grid interpolators, for Interpolator of order 1 and for splines of degree 1."
  },
  {
   "property": "C161",
   "status": "proved",
   "theorems": [
    "C161_grid",
    "C161_geo_grid",
    "C161_spline",
    "C161_geo_spline",
    "C161_interpolator",
    "C161_multilinear"
   ],
   "note": ""
  },
  {
   "property": "C162",
   "status": "partial",
   "theorems": [
    "C162_grid_partial",
    "C162_geo_grid_partial",
    "C162_spline_partial",
    "C162_refuted"
   ],
   "note": "False for cubic splines, the default of the spline interpolators (C162_refuted: a fifth row changes the values between the first two). Proved for grid interpolators, GeoGridInterpolator and splines of degree 1."
  }
 ]
}
