{
 "C03": [
  "proved",
  "Exact real arithmetic; the spline evaluators along a row are arbitrary functions."
 ],
 "C13": [
  "partial",
  "False as stated: the function raises for every 5km input (C13_generic_always_raises), refuted by C13_generic_refuted."
 ],
 "C18": [
  "partial",
  "False on the half-plane y = 0, x < 0, where the longitude is 0 (C18_antimeridian_refuted, _value); proved for all other points and all three versions."
 ],
 "C20": [
  "partial",
  "lonlat2xyz and the VII version agree on all inputs; the Cython version agrees whenever z is present, and gives latitude 0 for a missing z (C20_missing_refuted)."
 ],
 "C23": [
  "proved",
  "The underlying scipy evaluator is an arbitrary pointwise function; several arrays together need a collision-free tokenize."
 ],
 "C24": [
  "partial",
  "False as stated (C24_refuted): the chunked call evaluates at indices 0, 1, ... whatever fine_points are. Proved for fine_points that are these indices."
 ],
 "C25": [
  "partial",
  "False as stated (C25_refuted): the token leaves out class and constructor keywords. Proved for interpolators of the same class and keywords, any number of arrays and any order."
 ],
 "C27": [
  "proved",
  "Exact real arithmetic, orders below 2^31."
 ],
 "C28": [
  "proved",
  "Exact real arithmetic; all points, also where the cell index overflows a C int."
 ],
 "C30": [
  "partial",
  "Proved for any arithmetic with at least two nodes per dimension; false for a single node, accepted by the constructor (C30_single_node, C30_refuted)."
 ],
 "C34": [
  "proved",
  "Exact real arithmetic."
 ],
 "C35": [
  "proved",
  "Exact real arithmetic, finite data; missing values do leak, see C36."
 ],
 "C36": [
  "partial",
  "False (C36_refuted, C36_leak): a missing tie point in the last row of a scan makes pixels of the first row of the next scan missing. Proved for all other pixel rows."
 ],
 "C37": [
  "proved",
  "Exact real arithmetic."
 ],
 "C40": [
  "proved",
  "Exact real arithmetic."
 ],
 "C41": [
  "partial",
  "Holds when the first chunk of rows holds a scan (C41_modis_partial, C41_simple_partial, any chunks of the other arrays); otherwise ZeroDivisionError (C41_small_first_chunk, C41_refuted)."
 ],
 "C44": [
  "partial",
  "Satellite-angle functions: proved. Simple functions: holds for 1354 columns (C44_simple_partial), false for every other width they accept (C44_simple_width, C44_refuted)."
 ],
 "C45": [
  "partial",
  "Proved for the decorated functions; the 5km functions raise IndexError for one-dimensional arrays because they look at lon1.shape[1] first (C45_5km_refuted)."
 ],
 "C46": [
  "partial",
  "DataArrays of dask arrays: proved (C46_chunked_partial). False for DataArrays of numpy arrays: AttributeError (C46_modis, C46_simple, C46_refuted)."
 ],
 "C49": [
  "partial",
  "False (C49_refuted): 1km arrays with more than 1354 columns are written beyond the work arrays (C49_wide, any arithmetic), narrower ones (and 5km arrays without columns) give results made of uninitialised memory (C49_narrow). Unsupported 5km widths other than 0 are refused: C54."
 ],
 "C50": [
  "partial",
  "Holds for whole scans (C50_computed_partial, C50_simple_partial); otherwise the last rows are uninitialised memory (C50_leftover, C50_refuted, C50_simple_leftover)."
 ],
 "C51": [
  "partial",
  "Proved for 1km->500m, 1km->250m and 5km->1km; false for 5km->500m and 5km->250m (C51_5km_refuted), whose coordinates are those of 1km pixels."
 ],
 "C52": [
  "proved",
  "Exact real arithmetic; zenith angles as in C53."
 ],
 "C53": [
  "proved",
  "Exact real arithmetic. C53_both_zero shows that the excluded case is not finite."
 ],
 "C55": [
  "partial",
  "False: every float64 input of supported shape raises ValueError (C55_float64, C55_refuted)."
 ],
 "C58": [
  "partial",
  "Holds for 1km->500m and 1km->250m (C58_safe_partial). C58_exact says for every accepted pair of resolutions when it holds; false e.g. for 5km->1km (C58_refuted) and for fewer than two columns (C58_narrow)."
 ],
 "C63": [
  "partial",
  "False (C63_refuted): too many coordinates read the orders out of bounds, too few are interpolated on a smaller grid, none return the uninitialised buffer."
 ],
 "C64": [
  "partial",
  "Proved for every number of dimensions other than 1; false for 1 (TypeError for all bounds and orders)."
 ],
 "C65": [
  "partial",
  "False exactly opposite to the prime meridian: C65_antimeridian, C65_refuted. Proved for all other positions."
 ],
 "C66": [
  "partial",
  "False (C66_refuted): a latitude array with fewer rows is read beyond its end (C66_shapes, C66_simple_shapes)."
 ],
 "C67": [
  "partial",
  "False when a plain array follows a chunked one (C67_refuted): C67_mixed and C67_mixed_modis say exactly what is computed with plain latitudes, C67_plain_angles what becomes of plain angles: every block is as tall as the whole result. All arrays chunked: see C41, C42."
 ],
 "C60": [
  "partial",
  "False: without DataFrame.as_matrix (removed in pandas 1.0) there is never a result, and AttributeError for all valid inputs (C60_no_result, C60_attribute_error, C60_refuted). Holds with as_matrix (C60_partial)."
 ],
 "C68": [
  "partial",
  "False: the latitudes come first for all inputs (C68_order, C68_refuted)."
 ],
 "C73": [
  "partial",
  "Proved for double arrays in all three versions (C73_double). On float arrays the compiled version comes back up to 1e-4 degrees off the poles and modulo 360 degrees (C73_compiled_floats_partial); longitude 180 comes back as -180 (C73_antimeridian). The numpy version is only good to 0.1 degrees on float arrays (C73_numpy_floats_partial): 1/128 degree comes back as 0 (C73_refuted)."
 ],
 "C76": [
  "partial",
  "Proved when neighbouring angles differ by at least 0.006 degrees or are equal and at least 0.003 degrees (C76_reach_partial). False for nearly equal angles, e.g. of tie points on both sides of nadir: the coefficient is unbounded (C76_unbounded) and a pixel between tie points at 0 and 1/64 degrees east lands beyond 45 degrees east (C76_refuted)."
 ],
 "C79": [
  "partial",
  "exactness proved for the corners of the grid; refuted for other nodes: node 1 of 50 nodes at 0, 1, ..., 49 returns 1 - 2^-53 instead of 1 in double arithmetic"
 ],
 "C80": [
  "partial",
  "holds up to the rounding errors bounded in C78; refuted exactly: the constant 5 is interpolated as 5 - 2^-50 in double arithmetic"
 ],
 "C81": [
  "partial",
  "false as stated; C81_many_points and C81_large_grid describe what happens beyond 2^31; below it C27 to C31 hold"
 ],
 "C83": [
  "partial",
  "false as stated (C83_refuted); C83_too_many_values, C83_too_few_bounds and C83_too_few_values say what happens"
 ],
 "C84": [
  "partial",
  "false as stated (C84_refuted); C84_kept_partial proves it for rows at positions in [0, number of tie rows), C84_only that no other row survives"
 ],
 "C87": [
  "partial",
  "false as stated (C87_refuted); C87_tie_points_partial proves it for power-of-two factors and fixed-point tie points of 52 bits, C87_exact_partial exact pixels with bits to spare"
 ],
 "C88": [
  "partial",
  "false as stated (C88_refuted: a pixel of the second scan depends on the first scan); C88_own_scan_partial proves it for all other pixel rows, in any arithmetic"
 ],
 "C93": [
  "partial",
  "false as stated (C93_refuted: a bilinear value of 3/4 becomes 0, although 1 is nearer); C93_truncated_partial: the result is the bilinear value truncated towards zero"
 ],
 "C94": [
  "partial",
  "false as stated (C94_refuted: one missing value spoils a finite tie point of the cell to its upper left); C94_holes_partial proves it for cells without a missing value"
 ],
 "C98": [
  "partial",
  "false as stated (C98_refuted: constant data 5 give 5 + 2^-50); C98_between_partial proves it up to the rounding error 20 * 2^-53 * B"
 ],
 "C105": [
  "partial",
  "false as stated (C105_range_refuted: tie values 0, 0, 1, 1 give -1/4 with the default degrees); C105_linear_partial proves it for degrees 1, C105_excess_partial bounds the excess on evenly spaced tie points"
 ],
 "C107": [
  "partial",
  "false for the spline interpolators (C107_any_order_refuted); C107_grid proves it for the grid interpolators, C107_spline says exactly which points the spline interpolators take"
 ],
 "C117": [
  "partial",
  "false: tags are sorted alphabetically, so of v1.2 and v1.3 on one commit the older is picked (C117_newest_refuted); C117_archive proves which tag is picked, C117_candidate that a release is preferred to its candidates"
 ],
 "C118": [
  "partial",
  "false: a failing git show or git rev-list raises AttributeError on import (C118_refuted); C118_returns proves that these are the only commands that matter, C118_no_repository what happens without repository"
 ],
 "C119": [
  "partial",
  "false for pep440-pre and tags such as 1.0.post1a (C119_pre_refuted); the rest is proved by the other theorems"
 ],
 "C121": [
  "partial",
  "false: the mode depends on the longitudes, so turning tie points by 180 degrees changes latitudes (C121_refuted); proved when both runs are in the cartesian mode (C121_cartesian_partial) or both in longitudes and latitudes (C121_geodetic_partial)"
 ],
 "C123": [
  "partial",
  "false: rows stay filled when the columns fail afterwards, and arrays before a narrower one stay extended (C123_refuted); proved for rows, for columns of arrays of one width, and that a failure of the columns changes only a prefix of the arrays (C123_rows_partial, C123_same_width_partial, C123_columns_partial)"
 ],
 "C124": [
  "partial",
  "false: square arrays with swapped names are transposed in cartesian mode (C124_refuted, C124_cartesian_partial); proved for all other names, for arrays that are not square and in the mode of longitudes and latitudes (C124_other_names_partial, C124_not_square_partial, C124_geodetic_partial)"
 ],
 "C128": [
  "partial",
  "Refuted (C128_refuted): integer tie data are truncated when the target rows are the tie rows. Proved: floats, other target rows and filled borders give the spline values; integers are the spline values cut towards zero; tie points are reproduced."
 ],
 "C129": [
  "partial",
  "Refuted (C129_refuted): fill_borders followed by interpolate changes an earlier result. Proved: it is kept otherwise (C129_kept_partial), and always equals the latest result (C129_shared)."
 ],
 "C130": [
  "partial",
  "Refuted (C130_refuted): three arrays are accepted. Proved: the other parts."
 ],
 "C133": [
  "partial",
  "Refuted (C133_refuted); C133_twice: interpolate() always fails with ValueError after the second call."
 ],
 "C138": [
  "partial",
  "false in cartesian mode: a label of the latitudes that the longitudes lack gives ValueError (C138_refuted, C138_missing_label_partial), repeated labels too (C138_repeated_label_partial), reordered labels pair each latitude with the longitude of the same label (C138_by_label_partial); proved when the labels agree or only one array has labels (C138_agreeing_partial) and in longitude/latitude mode (C138_geodetic_partial)"
 ],
 "C139": [
  "partial",
  "false when the latitudes make one block as tall as those of the longitudes: it is used again for every one of them (C139_refuted, C139_repeated_partial); and when they make as many blocks: surplus rows are not used (C139_long_partial), missing rows are read beyond the end of the array (C139_short_partial). Proved when they make several blocks and not as many as the longitudes (C139_refused_partial). The four theorems cover all heights (C139_cases)."
 ],
 "C141": [
  "partial",
  "false when a tie point and the one below it differ so that the float32 difference is rounded (C141_refuted); proved when neither is more than twice the other or one of them is 0 (C141_similar_partial). The error in general: C140."
 ],
 "C145": [
  "partial",
  "Refused when the angles have several blocks, and not as many as the longitudes. False otherwise: the call is accepted, a single block of angles is used for every block of longitudes, and the computed result has as many rows as the blocks of angles, whatever was announced."
 ],
 "C146": [
  "partial",
  "False: constant tie values 27 give 26 at 1/11 of a cell, because the double sum is just below 27 and astype cuts it off. Proved: the result is within one unit and 20 roundings of the exact value and is the exact value cut off unless that is next to an integer; it is between the corners or one nearer to zero; tie points come back."
 ],
 "C149": [
  "partial",
  "False across the date line (C149_refuted: 179 and -179 give 0 between them). Proved: turning all four tie points of a cell by the same angle, in particular by a multiple of 360 degrees, turns its pixels by that angle (C149_turn_partial); mirrored tie points give mirrored pixels (C149_mirror)."
 ],
 "C151": [
  "partial",
  "False: distinct indices that are not increasing are accepted (C151_accepted), e.g. rows 0, 4, 2, of which the second is lost (C151_refuted). Proved: no indices, another number, repeated ones and longitudes of another shape are refused."
 ],
 "C152": [
  "partial",
  "False: tie_points_geo_interpolation chooses the mode from all tie points of the call, so that a scan far away changes the pixels of another (C152_refuted). Proved: exact for plain data (C152_direct_partial) and for positions whenever both calls choose the same mode (C152_geo_partial)."
 ],
 "C155": [
  "partial",
  "Proved for regular chunkings (all row chunks of the first array equal, the last possibly smaller), whatever the chunks of the other arrays; for any chunking C155_*_layout gives the layout. The full statement is false (C155_refuted): rechunk_if_needed always rechunks to the size of the first chunk, because its test of the column chunks never holds, so [20; 10; 10] is merged to [20; 20] and [10; 20] split to [10; 10; 10]."
 ],
 "C156": [
  "partial",
  "Proved for the interpolations that are linear between neighbouring tie points: grid interpolators inside the grid (only the corners of the cell count), Interpolator of order 1, splines of degree 1, the multilinear interpolator inside its grid, VII, BasicSatelliteInterpolator. The full statement is false for cubic splines (C156_refuted; on evenly spaced tie points C156_cubic_partial bounds the factor by 31) and for grid interpolators that extrapolate (C156_extrapolated_refuted)."
 ],
 "C160": [
  "partial",
  "False for cubic splines, the default of the spline interpolators (C160_refuted). Proved for grid interpolators, for Interpolator of order 1 and for splines of degree 1."
 ],
 "C162": [
  "partial",
  "False for cubic splines, the default of the spline interpolators (C162_refuted: a fifth row changes the values between the first two). Proved for grid interpolators, GeoGridInterpolator and splines of degree 1."
 ]
}