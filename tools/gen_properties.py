"""Generates /verif/properties.jsonl (one JSON object per line)."""
import json, os
P = []
def p(title, statement, quantifier, why, anchors):
    P.append(dict(id="C%02d" % (len(P) + 1), title=title, statement=statement, quantifier=quantifier,
                  why_tests_cant=why, anchors=anchors))

G = "geotiepoints/"
# ---- splitting and multi-core
p("Scene splits tile the swath with whole scans",
  "Cutting a swath at the line numbers returned by get_scene_splits gives consecutive parts that concatenate to the swath, none of them empty when the swath is not empty, and every part except possibly the last consists of the same whole number (at least one) of scans.",
  "every number of swath lines, every scan height >= 1, every number of cores >= 1",
  "the split depends on two floor divisions of unbounded integers; tests try one triple (1060, 10, 3)",
  [G + "__init__.py:get_scene_splits"])
p("Scene splits keep every core busy",
  "When a swath has at least as many scans as cores, get_scene_splits yields at least as many parts as cores and at most twice as many; otherwise every part but the last is exactly one scan.",
  "every number of swath lines, every scan height >= 1, every number of cores >= 1",
  "a bound over all integer triples cannot be established by sampling",
  [G + "__init__.py:get_scene_splits"])
p("Multi-core MODIS interpolation equals single-core",
  "modis1kmto500m(lons, lats, cores=n) and modis1kmto250m(lons, lats, cores=n) return (or raise) exactly what the cores=1 call returns (or raises), for every n and whatever order the worker processes finish in.",
  "every swath of finite lon/lat data with 1354 columns and any number of rows (whole scans or not), every cores >= 1, every completion order of the workers, every cross-track spline evaluator",
  "covers every swath size, core count and process schedule; the test compares one granule on 4 cores against a stored result",
  [G + "__init__.py:_multi", G + "__init__.py:modis1kmto500m", G + "__init__.py:modis1kmto250m"])
# ---- Interpolator
p("Linear extrapolation is the straight line through the two given lines",
  "Extrapolating from two tie lines returns, at the position of either tie line, that line itself, and at any other position the value of the unique straight line through both; any other number of positions or lines raises ValueError.",
  "all positions (distinct), all data rows of any length, every evaluation position",
  "universally quantified over reals",
  [G + "interpolator.py:_linear_extrapolate"])
p("fill_borders('x') completes the columns and nothing else",
  "After fill_borders('x') the column positions start and end at the first and last target column, the original columns and their positions are still present unchanged in order, a column is added at an edge exactly when the tie columns did not already reach it, each added column lies on the straight line through the two nearest tie columns of the same row, and the row positions are unchanged.",
  "all tie-point arrays with at least two columns, all tie and target column positions, any number of data arrays",
  "quantifies over all grids and data",
  [G + "interpolator.py:Interpolator._fill_col_borders", G + "interpolator.py:Interpolator._extrapolate_cols"])
p("fill_borders('x') is idempotent",
  "Calling fill_borders('x') a second time changes nothing.",
  "all interpolator states on which the first call succeeds",
  "a statement about all states and call histories",
  [G + "interpolator.py:Interpolator._fill_col_borders"])
p("fill_borders rejects unknown dimensions without touching the data",
  "If any argument of fill_borders is not 'x' or 'y', NameError is raised and the interpolator is left exactly as it was, even when valid dimensions precede the invalid one.",
  "all interpolator states, all argument lists containing an unrecognised name at any place",
  "atomicity over all argument lists and states",
  [G + "interpolator.py:Interpolator.fill_borders"])
p("fill_borders('y') works chunk by chunk",
  "With a chunk size, fill_borders('y') surrounds the tie rows of each chunk by one row at the chunk's first and one at its last target row, both on straight lines through that chunk's own two first (last) tie rows; the tie rows themselves are kept unchanged and no row of one chunk depends on data of another.",
  "all data, any number of chunks, any number >= 2 of tie rows per chunk, grids with tie rows expressed in tie-row units",
  "quantifies over all swath lengths and data values",
  [G + "interpolator.py:Interpolator._fill_row_borders", G + "interpolator.py:Interpolator._extrapolate_rows"])
p("Filled rows are strictly increasing and cover the target grid",
  "For the legacy MODIS functions the row positions produced by fill_borders are strictly increasing (as the spline requires) and every target row lies between the first and last filled row of its own scan, so the interpolation never has to extrapolate.",
  "every number of scans >= 1",
  "unbounded number of scans",
  [G + "interpolator.py:Interpolator._fill_row_borders", G + "__init__.py:modis5kmto1km", G + "__init__.py:modis1kmto500m", G + "__init__.py:modis1kmto250m"])
p("Legacy MODIS interpolation is scan-wise",
  "modis5kmto1km, modis1kmto500m and modis1kmto250m applied to a swath give exactly the concatenation of the results of the same function applied to each scan separately: no output pixel of one scan depends on another scan.",
  "every number of scans >= 1, all finite lon/lat data, every cross-track spline evaluator",
  "independence is a statement about pairs of inputs of unbounded size",
  [G + "__init__.py:modis5kmto1km", G + "__init__.py:modis1kmto500m", G + "__init__.py:modis1kmto250m", G + "interpolator.py:Interpolator"])
p("Legacy MODIS interpolation succeeds exactly on whole scans",
  "For arrays with the right number of columns, modis5kmto1km, modis1kmto500m and modis1kmto250m return arrays of 5, 2 and 4 times as many rows and 1354, 2708 and 5416 columns when the input is a positive whole number of scans, and raise an exception for every other number of rows.",
  "every number of rows, all data",
  "all sizes",
  [G + "__init__.py:modis5kmto1km", G + "__init__.py:modis1kmto500m", G + "__init__.py:modis1kmto250m"])
p("Tie points are reproduced by the legacy functions",
  "modis5kmto1km returns at row 5r+2 and column 5c+2 the longitude and latitude of tie point (r, c), and metop20kmto1km returns the tie-point longitude and latitude at the tie-point columns of every row.",
  "every swath size, all lon in (-180, 180), lat in (-90, 90), every interpolating cross-track spline",
  "all data values and sizes",
  [G + "__init__.py:modis5kmto1km", G + "__init__.py:metop20kmto1km"])
p("generic_modis5kmto1km returns 1km data",
  "generic_modis5kmto1km called with 5km arrays of n rows and 271 columns returns arrays of 5n rows and 1354 columns.",
  "every even n >= 2, all data",
  "existence of a result for every size; there is no test of this function",
  [G + "interpolator.py:generic_modis5kmto1km"])
p("interpolate() can be repeated",
  "Interpolator.interpolate does not modify the tie points or grids: calling it again returns the same result, and the result depends only on tie data and grids, not on earlier calls.",
  "all states, all numbers of repeated calls, every spline evaluator",
  "all call histories",
  [G + "interpolator.py:Interpolator.interpolate"])
# ---- geo
p("lonlat2xyz lands on the sphere",
  "The cartesian coordinates returned by lonlat2xyz have distance exactly the radius from the origin.",
  "all real longitudes, latitudes and radii >= 0",
  "universally quantified over reals",
  [G + "geointerpolator.py:lonlat2xyz", G + "_modis_utils.pyx:lonlat2xyz", G + "viiinterpolator.py:_lonlat2xyz"])
p("Longitude/latitude survive the cartesian round trip",
  "xyz2lonlat(lonlat2xyz(lon, lat)) returns (lon, lat) in exact arithmetic, whatever threshold and low_lat_z setting is used.",
  "all lon in (-180, 180), all lat in (-90, 90), every positive radius, every threshold, low_lat_z true or false",
  "universally quantified over reals",
  [G + "geointerpolator.py:lonlat2xyz", G + "geointerpolator.py:xyz2lonlat"])
p("Longitudes outside (-180, 180) are normalised by the round trip",
  "For any longitude not congruent to 180 modulo 360, the round trip returns the congruent longitude in (-180, 180).",
  "all real longitudes not congruent to 180 mod 360, all lat in (-90, 90)",
  "universally quantified over reals",
  [G + "geointerpolator.py:lonlat2xyz", G + "geointerpolator.py:xyz2lonlat"])
p("xyz2lonlat gives the direction of the point",
  "For every point off the polar axis the longitude returned by xyz2lonlat is in [-180, 180] and points from the axis to the point, i.e. x = r cos(lon) and y = r sin(lon) with r the distance from the axis.",
  "all points not on the polar axis, including the antimeridian half-plane",
  "includes a measure-zero set (y = 0, x < 0) that sampled tests never hit",
  [G + "geointerpolator.py:xyz2lonlat", G + "_modis_utils.pyx:xyz2lonlat", G + "viiinterpolator.py:_xyz2lonlat"])
p("Latitude of interpolated points",
  "For points in or on the sphere the latitude returned by xyz2lonlat exists, is in [-90, 90] and has the sign of z; below the threshold it never exceeds the geocentric latitude in magnitude, above it it is never smaller, and on the sphere both branches give the same, exact value.",
  "all points of the closed ball off the axis, all thresholds",
  "universally quantified over reals",
  [G + "geointerpolator.py:xyz2lonlat"])
p("The three cartesian-to-geographic implementations agree",
  "The numpy, Cython and VII versions of lonlat2xyz and xyz2lonlat compute the same function for the same radius and threshold: same value, or not a number at the same points.",
  "all coordinates (finite, and missing), all thresholds",
  "equality of functions on an infinite domain",
  [G + "geointerpolator.py:xyz2lonlat", G + "_modis_utils.pyx:xyz2lonlat", G + "viiinterpolator.py:_xyz2lonlat"])
p("Geo interpolators accept exactly one swath object or a lon/lat pair",
  "GeoGridInterpolator and GeoSplineInterpolator given one object use its cartesian coordinates, given two arrays convert them, and raise ValueError for any other number of data arguments.",
  "every number of data arguments",
  "all argument counts",
  [G + "geointerpolator.py:to_xyz", G + "geointerpolator.py:_work_with_lonlats"])
# ---- grid interpolators / dask
p("Chunk slices tile the target array",
  "The slices enumerated for a chunked interpolation cover every cell of the target array exactly once and have the sizes given by the chunks.",
  "every number of dimensions and every chunk structure",
  "all chunkings",
  [G + "interpolator.py:_enumerate_chunk_slices"])
p("Chunked interpolate_to_shape equals eager interpolate_to_shape",
  "interpolate_to_shape(shape, chunks=c) computes to the same array as interpolate_to_shape(shape), whatever the chunks and whatever order the chunks are computed in.",
  "every shape, every chunk structure of that shape, every pointwise underlying interpolator, every order of execution of the tasks",
  "all chunkings and schedules",
  [G + "interpolator.py:AbstractSingleInterpolator.interpolate_dask", G + "interpolator.py:AbstractMultipleInterpolator.interpolate_to_shape"])
p("Chunked interpolate equals eager interpolate for any target points",
  "interpolate(fine_points, chunks=c) computes to the same array as interpolate(fine_points).",
  "every pair of target coordinate vectors, every chunk structure",
  "tests only use fine_points = arange(n), for which the chunk offsets happen to be the coordinates",
  [G + "interpolator.py:AbstractSingleInterpolator.interpolate_dask", G + "interpolator.py:AbstractSingleInterpolator.interpolate_slices"])
p("Lazy results with the same name have the same values",
  "Two lazy arrays built by the grid or spline interpolators that carry the same dask name compute to the same values, so computing them together gives the same results as computing them apart.",
  "every two interpolators (class, tie points, values, constructor options) and every two calls",
  "collision of names across all pairs of interpolators and histories",
  [G + "interpolator.py:AbstractSingleInterpolator.interpolate_dask"])
p("Multiple arrays are interpolated independently and in order",
  "MultipleGridInterpolator / MultipleSplineInterpolator return, in the order given, for each data array exactly what the single-array interpolator returns for it alone.",
  "every number of data arrays, all arguments",
  "all lists",
  [G + "interpolator.py:AbstractMultipleInterpolator"])
# ---- multilinear
p("Multilinear interpolation returns the grid values at the grid nodes",
  "Evaluating a MultilinearInterpolator at its own grid (property grid, in its enumeration order) returns its values, for every dimension 2 to 4 (and at every node for dimension 1).",
  "every dimension 1-4, every number of nodes >= 2 per dimension (less than 2^31 in total, see C81), all bounds with smin < smax, all values",
  "all sizes and values",
  [G + "multilinear.py:MultilinearInterpolator", G + "multilinear.py:mlinspace", G + "multilinear_cython.pyx:multilinear_interpolation"])
p("Multilinear interpolation reproduces multi-affine functions",
  "If the values are samples of a function that is affine in each variable separately, the interpolator returns that function's value at every point, inside the grid and extrapolating outside.",
  "every dimension 1-4, all grids, all coefficient sets, all evaluation points whose cell index fits a C int",
  "universally quantified over reals",
  [G + "multilinear_cython.pyx:multilinear_interpolation_1d", G + "multilinear_cython.pyx:multilinear_interpolation_2d", G + "multilinear_cython.pyx:multilinear_interpolation_3d", G + "multilinear_cython.pyx:multilinear_interpolation_4d"])
p("Multilinear interpolation stays between the neighbouring values",
  "At a point inside the grid the result lies between the smallest and the largest grid value.",
  "every dimension 1-4, all grids, values and points inside the grid",
  "universally quantified over reals",
  [G + "multilinear_cython.pyx:multilinear_interpolation"])
p("Multilinear interpolation never reads outside the value array",
  "For every grid accepted by the constructor and values of matching size the compiled code only reads inside the value array.",
  "every dimension 1-4, all orders, every evaluation point",
  "memory safety over all inputs; the code is compiled without bounds checks",
  [G + "multilinear_cython.pyx:multilinear_interpolation"])
p("Parallel evaluation is schedule independent",
  "The result of the parallel evaluation loop does not depend on the order in which the points are processed nor on the initial contents of the output buffer.",
  "every order (permutation) of the loop iterations, every number of points",
  "all interleavings of iterations",
  [G + "multilinear_cython.pyx:multilinear_interpolation_1d"])
p("Unsupported dimensions are rejected",
  "Interpolating points with more than four coordinates raises an exception instead of returning data.",
  "every dimension > 4",
  "all dimensions",
  [G + "multilinear_cython.pyx:multilinear_interpolation"])
# ---- VII
p("VII output shape",
  "tie_points_interpolation returns arrays of (number of scans) * (scan tie points - 1) * factor rows and (tie columns - 1) * factor columns.",
  "all tie-point array sizes, all scan heights and factors",
  "all sizes",
  [G + "viiinterpolator.py:tie_points_interpolation"])
p("VII pixels on tie points reproduce them",
  "Every pixel that coincides with a tie point (multiples of the factor, within a scan) has exactly the tie-point value.",
  "all sizes, all scans, all finite data",
  "all sizes and values",
  [G + "viiinterpolator.py:tie_points_interpolation"])
p("VII pixels only depend on their own scan",
  "No pixel of one scan depends on the finite tie-point values of another scan (no interpolation across the gap between scans).",
  "all sizes, all pairs of finite data sets that agree on one scan",
  "a two-run property over all data",
  [G + "viiinterpolator.py:tie_points_interpolation"])
p("A missing tie point only affects its own scan",
  "If a tie-point value is missing (NaN), only pixels of the same scan can become NaN.",
  "all sizes, all data with missing values",
  "needs every position of the missing value, including scan edges",
  [G + "viiinterpolator.py:tie_points_interpolation"])
p("VII interpolation is bilinear between the four surrounding tie points",
  "Every pixel is the bilinear interpolation of the four tie points around it; hence it lies between their minimum and maximum and affine data are reproduced exactly.",
  "all sizes, all finite data",
  "universally quantified over reals and sizes",
  [G + "viiinterpolator.py:tie_points_interpolation"])
p("VII rejects malformed input",
  "A tie-point array whose number of rows is not a multiple of the scan height, or arrays of differing shapes, raise ValueError and never yield data.",
  "all sizes, all lists of arrays",
  "all sizes",
  [G + "viiinterpolator.py:tie_points_interpolation", G + "viiinterpolator.py:tie_points_geo_interpolation"])
p("VII interpolates longitudes directly only when that is safe",
  "tie_points_geo_interpolation works on longitudes/latitudes directly only if all latitudes are within the threshold and no two longitudes differ by more than 180 degrees, and then every returned longitude (latitude) lies between the smallest and largest tie-point longitude (latitude).",
  "all sizes, all finite data, all thresholds",
  "all data",
  [G + "viiinterpolator.py:tie_points_geo_interpolation"])
p("VII cartesian mode reproduces tie points",
  "When tie_points_geo_interpolation works in cartesian coordinates, pixels that coincide with a tie point get its longitude and latitude back.",
  "all sizes, lon in (-180, 180), lat in (-90, 90)",
  "all data",
  [G + "viiinterpolator.py:tie_points_geo_interpolation"])
# ---- map blocks
p("Dask inputs are rechunked to whole scans",
  "When the MODIS interpolators are given chunked arrays with a whole number of scans, the blocks handed to the interpolation are whole scans of full width that tile the array, whatever the input chunks were.",
  "all row and column chunk structures of arrays with a whole number of scans",
  "all chunkings; tests use one chunk size",
  [G + "_modis_utils.pyx:_rechunk_dask_arrays_if_needed", G + "_modis_utils.pyx:scanline_mapblocks"])
p("MODIS interpolation of chunked input equals eager interpolation",
  "The computed result of interpolating chunked arrays equals the result of interpolating the same data as plain arrays, whatever the chunks (of at least one scan) and the order the blocks are computed in.",
  "all whole-scan data, all chunk structures whose first row chunk holds a scan, all execution orders, any arithmetic",
  "all chunkings and schedules",
  [G + "_modis_utils.pyx:scanline_mapblocks", G + "_modis_utils.pyx:_call_map_blocks_interp", G + "_modis_interpolator.pyx:interpolate", G + "_simple_modis_interpolator.pyx:interpolate_geolocation_cartesian"])
p("Chunked input without whole scans is refused",
  "Chunked arrays whose number of rows is not a whole number of scans raise ValueError before anything is computed.",
  "all sizes and chunkings",
  "all sizes",
  [G + "_modis_utils.pyx:_rechunk_dask_arrays_if_needed"])
p("Declared lazy shapes are the computed shapes",
  "The shape and chunks announced for a lazy MODIS result are those of the computed blocks, for every supported pair of resolutions and supported width.",
  "all supported resolutions and widths, all chunkings",
  "all combinations and sizes",
  [G + "_modis_utils.pyx:_call_map_blocks_interp", G + "_modis_interpolator.pyx:MODISInterpolator"])
p("Resolution keywords and two-dimensional input are required",
  "Omitting coarse_resolution or fine_resolution, or passing a first array that is not two-dimensional, raises ValueError.",
  "all arguments",
  "all argument combinations",
  [G + "_modis_utils.pyx:scanline_mapblocks"])
p("DataArrays are accepted whatever they are backed by",
  "The MODIS interpolators accept xarray DataArrays as documented, whether backed by numpy or by dask.",
  "all DataArray inputs with whole scans",
  "the documented input kinds; tests only use dask-backed DataArrays",
  [G + "_modis_utils.pyx:scanline_mapblocks", G + "simple_modis_interpolator.py:interpolate_geolocation_cartesian"])
# ---- MODIS CVIIRS
p("Satellite-angle MODIS interpolation is scan-wise and history free",
  "Each scan of the result is a function of the same scan of the inputs only: neither other scans nor the reused work buffers influence it.",
  "any number of scans, any contents of the work buffers, any arithmetic (in particular IEEE floats), every supported resolution pair",
  "leakage through reused buffers depends on call history and uninitialised memory",
  [G + "_modis_interpolator.pyx:MODISInterpolator._interpolate_lons_lats"])
p("Satellite-angle MODIS interpolation is memory safe for standard widths",
  "For inputs of the standard width (1354 columns at 1km, 270 or 271 at 5km) no access is made outside any array.",
  "any number of rows, every supported resolution pair",
  "memory safety for all sizes; compiled without bounds checks",
  [G + "_modis_interpolator.pyx:MODISInterpolator"])
p("Any input width is either processed correctly or refused",
  "Satellite-angle interpolation of arrays whose width is not supported raises an exception rather than reading or writing outside its arrays.",
  "every width",
  "all widths",
  [G + "_modis_interpolator.pyx:interpolate", G + "_modis_interpolator.pyx:MODISInterpolator"])
p("Every output pixel is computed",
  "Every pixel of the arrays returned by the MODIS interpolators has been computed from the input.",
  "every number of rows, including numbers that are not whole scans, for plain (not chunked) arrays",
  "uninitialised memory may by accident hold plausible numbers",
  [G + "_modis_interpolator.pyx:MODISInterpolator.interpolate", G + "_simple_modis_interpolator.pyx:interpolate_geolocation_cartesian"])
p("Fine pixels are equally spaced over the coarse grid",
  "The position assigned to fine column j (tie-point cell plus fraction) advances by exactly one fine pixel per column, and rows are placed symmetrically about the scan.",
  "all columns and rows, every supported resolution pair",
  "all columns, both L1b and L2 widths",
  [G + "_modis_interpolator.pyx:MODISInterpolator._get_coords", G + "_modis_interpolator.pyx:MODISInterpolator._expand_tiepoint_array"])
p("modis_5km_to_1km reproduces the tie points",
  "The 1km pixel (5r+2, 5c+2) gets the longitude and latitude of tie point (r, c).",
  "any number of scans, all lon in (-180, 180), lat in (-90, 90), satellite zenith angles with finite coefficients, both widths",
  "all data",
  [G + "_modis_interpolator.pyx:MODISInterpolator"])
p("No NaN from admissible satellite zenith angles",
  "For neighbouring tie points with satellite zenith angles between 0 and 89 degrees, not both zero, expansion and alignment coefficients are finite numbers (in particular for equal angles on both sides of the sub-satellite track).",
  "all pairs of angles in [0, 89] degrees not both 0, both coarse resolutions",
  "division by zero and domain errors at isolated inputs",
  [G + "_modis_interpolator.pyx:_compute_expansion_alignment"])
p("Unsupported 5km widths are refused",
  "modis_5km_to_1km/500m/250m raise NotImplementedError unless the tie-point arrays have 270 or 271 columns.",
  "every width except 0",
  "all widths",
  [G + "modisinterpolator.py:modis_5km_to_1km", G + "_modis_interpolator.pyx:interpolate"])
p("Double precision input is supported",
  "The satellite-angle MODIS interpolators accept float64 arrays as well as float32 arrays.",
  "all float64 inputs of supported shape",
  "the shipped test data are float32 only",
  [G + "_modis_interpolator.pyx:MODISInterpolator.interpolate", G + "_modis_interpolator.pyx:MODISInterpolator._get_coords", G + "_modis_utils.pxd:floating"])
# ---- simple MODIS
p("Simple MODIS interpolation is bilinear within each scan",
  "Every fine pixel's cartesian position is the bilinear interpolation (linear extrapolation at the scan edges and the right edge) of the tie points of its own scan, evaluated at the pixel's nominal position.",
  "any number of scans, any number of columns >= 2, all finite data, 500m and 250m",
  "universally quantified over reals and sizes",
  [G + "_simple_modis_interpolator.pyx:_compute_interpolated_xyz_scan"])
p("Simple MODIS interpolation is scan-wise and history free",
  "Each scan of the result depends on the same scan of the input only, not on other scans or on buffer contents.",
  "any number of scans, any arithmetic, 500m and 250m",
  "two-run property, uninitialised memory",
  [G + "_simple_modis_interpolator.pyx:interpolate_geolocation_cartesian"])
p("Simple MODIS interpolation is memory safe",
  "No access outside any array is made for any supported resolution keyword values.",
  "any number of rows, any number of columns >= 2, every pair of resolutions accepted by the function",
  "memory safety; compiled without bounds checks",
  [G + "_simple_modis_interpolator.pyx:_interpolate_xyz_250", G + "_simple_modis_interpolator.pyx:_interpolate_xyz_500", G + "_simple_modis_interpolator.pyx:_extrapolate_xyz_rightmost_columns"])
# ---- basic
p("BasicSatelliteInterpolator interpolates linearly between tie points",
  "The result has (last row index + 1) x (last column index + 1) cells, equals the tie values at the tie positions and is linear in between along rows, then columns.",
  "all increasing integer index lists starting at 0, all finite data, with a pandas that still provides DataFrame.as_matrix",
  "all sizes and data",
  [G + "basic_interpolator.py:BasicSatelliteInterpolator"])
p("BasicSatelliteInterpolator works with current pandas",
  "BasicSatelliteInterpolator.interpolate() returns a result with any pandas version allowed by the requirements.",
  "all inputs, pandas with and without DataFrame.as_matrix",
  "depends on the library version; there is no test of this class",
  [G + "basic_interpolator.py:BasicSatelliteInterpolator._interp_axis"])
# ---- later additions
p("Chunked geo interpolation equals eager geo interpolation",
  "GeoGridInterpolator/GeoSplineInterpolator.interpolate_to_shape with chunks computes to the longitudes and latitudes of the call without chunks, although the three cartesian components are lazy arrays of one graph.",
  "all data arguments, shapes, chunks, pointwise underlying interpolators and execution orders; collision-free tokenize",
  "all chunkings and schedules",
  [G + "geointerpolator.py:_work_with_lonlats", G + "interpolator.py:AbstractSingleInterpolator.interpolate_dask"])
p("Geo interpolators return the tie points at the tie points",
  "If the underlying interpolator reproduces its data at its nodes, GeoGridInterpolator and GeoSplineInterpolator evaluated at the tie points return the tie-point longitudes and latitudes.",
  "all grid sizes, all lon in (-180, 180), lat in (-90, 90), every node-exact underlying interpolator",
  "universally quantified over reals and sizes",
  [G + "geointerpolator.py:_work_with_lonlats"])
p("Points with the wrong number of coordinates are refused",
  "MultilinearInterpolator refuses points whose number of coordinates is not the number of dimensions of its grid.",
  "all grids, all points, any arithmetic",
  "the dimension is taken from the points without comparison",
  [G + "multilinear.py:MultilinearInterpolator.interpolate", G + "multilinear_cython.pyx:multilinear_interpolation"])
p("The grid property exists for every dimension",
  "MultilinearInterpolator.grid enumerates the nodes of the grid for every number of dimensions.",
  "all bounds and orders, any arithmetic",
  "the one-dimensional branch is never tested",
  [G + "multilinear.py:mlinspace", G + "multilinear.py:MultilinearInterpolator.grid"])
p("VII cartesian mode returns the direction of the interpolated position",
  "When tie_points_geo_interpolation works in cartesian coordinates, the longitude of every pixel is that of the interpolated cartesian position.",
  "all sizes, all finite data, every interpolated position off the Earth's axis",
  "universally quantified over reals; the failing set is thin (exact symmetry across the antimeridian)",
  [G + "viiinterpolator.py:_xyz2lonlat", G + "viiinterpolator.py:tie_points_geo_interpolation"])
p("Arrays of different shapes are refused",
  "The satellite-angle MODIS interpolators refuse longitude, latitude and zenith-angle arrays that do not have the same shape.",
  "all shapes, plain arrays",
  "the compiled code checks no shapes; wrong shapes may by accident give plausible numbers",
  [G + "_modis_interpolator.pyx:interpolate", G + "_modis_interpolator.pyx:MODISInterpolator.interpolate"])
p("Chunked and plain arrays can be mixed",
  "If the longitudes are chunked and another array is a plain one, the computed result is that of interpolating the plain arrays. If the longitudes are plain and another array is chunked or a DataArray, the call is refused.",
  "all whole-scan data, all chunk structures whose first row chunk holds a scan",
  "The result is right for arrays of a single block; it differs only from the second block of scans on.",
  [G + "_modis_utils.pyx:140-158", G + "_modis_utils.pyx:172-195"])
p("BasicSatelliteInterpolator.interpolate returns longitudes, then latitudes",
  "interpolate() returns the interpolated longitudes and then the interpolated latitudes, as its docstring says.",
  "all index lists and data", "there is no test of this class; a test with equal lat and lon data cannot tell",
  [G + "basic_interpolator.py:BasicSatelliteInterpolator.interpolate"])
p("Satellite-angle MODIS pixels follow the viewing geometry",
  "Between the tie points, modis_1km_to_250m, modis_1km_to_500m and modis_5km_to_1km weight the corners of each cell by the position of the pixel, corrected along the scan so that the pixel half way in scan angle lies where a satellite 709 km above a sphere sees it, and rows away from the middle of the scan follow its curvature.",
  "all whole-scan sizes of standard width, all pixels, all real data with zenith angles in [0, 89] degrees that are not zero at two neighbouring tie points",
  "the formulas are checked against stored results of the same program; a wrong coefficient moves pixels by less than the tolerances",
  [G + "_modis_interpolator.pyx:_compute_expansion_alignment", G + "_modis_interpolator.pyx:_compute_fine_xyz_component", G + "_modis_interpolator.pyx:_get_coords_1km"])
p("Legacy MODIS rows lie between the tie rows of their scan",
  "modis5kmto1km, modis1kmto500m and modis1kmto250m give, at every tie column and at both ends of the lines, in every fine row the direction of the bilinear position between the tie points of the same scan, with the nominal row positions and continued linearly beyond the first and last tie row and column.",
  "all numbers of scans, all fine rows, all real data, every spline that passes through its data",
  "a half-pixel shift of the rows is within the tolerances of the tests",
  [G + "__init__.py:modis5kmto1km", G + "__init__.py:modis1kmto500m", G + "__init__.py:modis1kmto250m", G + "interpolator.py:Interpolator.fill_borders"])
p("In IEEE arithmetic positions near the sphere have a longitude and a latitude",
  "In double and in float arithmetic, with all intermediate roundings, the three versions of xyz2lonlat return a finite longitude in [-180, 180] and a finite latitude in [-90, 90], on the right side of the prime meridian and of the equator, for every finite position within 1.118 radii of the centre and at least 2^-60 m off the polar axis.",
  "all positions representable in the format, every mathematical library whose acos and asin respect their ranges",
  "a quotient that rounds to more than 1 makes acos return NaN; whether that happens depends on the last bits of the data",
  [G + "geointerpolator.py:xyz2lonlat", G + "_modis_utils.pyx:xyz2lonlat", G + "viiinterpolator.py:_xyz2lonlat"])
p("Rounding errors of the conversion to longitude and latitude are bounded",
  "In double arithmetic the three versions of xyz2lonlat return what exact arithmetic returns up to 5e-6 degrees (about 0.5 m on the ground); the compiled one up to 1.6e-5 degrees on float arrays; the numpy one up to 0.1 degrees on float arrays.",
  "all positions representable in the format within 1.118 radii of the centre and at least 2^-60 m off the polar axis, every mathematical library accurate to a few units in the last place",
  "the error is largest in thin sets near the prime meridian, the antimeridian and the switch between the latitude formulas",
  [G + "geointerpolator.py:xyz2lonlat", G + "_modis_utils.pyx:xyz2lonlat", G + "viiinterpolator.py:_xyz2lonlat"])
p("In IEEE arithmetic longitude and latitude survive the way to cartesian coordinates and back",
  "A longitude in [-180, 180] and a latitude in [-90, 90] converted by lonlat2xyz and back by xyz2lonlat come back up to 1e-4 degrees, with double arrays (there up to 6e-6 degrees, also at the poles and at 180 degrees) and with float arrays.",
  "all longitudes and latitudes, the three versions of the functions, every mathematical library accurate to a few units in the last place",
  "the tests convert a few positions in double precision; losses on float arrays are confined to neighbourhoods of the prime meridian, the antimeridian and the poles",
  [G + "geointerpolator.py:lonlat2xyz", G + "geointerpolator.py:xyz2lonlat", G + "_modis_utils.pyx:lonlat2xyz", G + "_modis_utils.pyx:xyz2lonlat", G + "viiinterpolator.py:_lonlat2xyz"])
p("Rounding errors of the satellite-angle MODIS interpolation are bounded",
  "On float arrays every pixel of modis_1km_to_250m, modis_1km_to_500m and modis_5km_to_1km lies within 27 m per unit of extrapolation (plus the cell size times the rounding error of the weight, which is at most 1.4e-5 over the difference of the scan-angle arcs) of the position that exact arithmetic gives, and its longitude and latitude are those of that position up to 1.6e-5 degrees.",
  "all float arrays of whole scans of standard width with zenith angles in [0, 70] degrees, every pixel whose neighbouring tie points are seen under angles at least 0.006 degrees apart or under equal angles of at least 0.003 degrees, every mathematical library accurate to a few units in the last place",
  "the error depends on the last bits of the angles, and is largest where two neighbouring angles are nearly equal, next to the subsatellite track",
  [G + "_modis_interpolator.pyx:_compute_expansion_alignment", G + "_modis_interpolator.pyx:MODISInterpolator._calculate_atrack_ascan", G + "_modis_interpolator.pyx:MODISInterpolator._compute_fine_xyz_component", G + "_modis_utils.pyx:lonlat2xyz", G + "_modis_utils.pyx:xyz2lonlat"])
p("modis_5km_to_1km reproduces its tie points on float arrays",
  "Pixel (5r+2, 5c+2) of the result of modis_5km_to_1km has the latitude of tie point (r, c) up to 1e-4 degrees, off the poles also its longitude (modulo a whole turn within 0.01 degrees of the antimeridian), with all intermediate roundings to float.",
  "all float arrays of whole scans of 270 or 271 columns, zenith angles in [0, 70] degrees that differ by at least 0.006 degrees or are equal and at least 0.003 degrees between neighbours, every mathematical library accurate to a few units in the last place",
  "the tests compare with tolerances and on two granules; a coefficient that overflows or is NaN spoils only some tie points",
  [G + "modisinterpolator.py:modis_5km_to_1km", G + "_modis_interpolator.pyx:MODISInterpolator._calculate_atrack_ascan", G + "_modis_interpolator.pyx:MODISInterpolator._compute_fine_xyz_component"])
p("Satellite-angle MODIS pixels stay near their tie points",
  "A pixel within the rectangle of its four tie points is placed by a weight along the scan between -1/3 and 4/3, i.e. at most a third of a cell outside.",
  "all whole-scan sizes of standard width, all pixels between tie points, all real data with zenith angles in [0, 70] degrees not zero at two neighbouring tie points",
  "the alignment coefficient divides by the difference of the two arcs; only exactly equal angles are handled separately",
  [G + "_modis_interpolator.pyx:_compute_expansion_alignment"])
p("Rounding errors of the simple MODIS interpolation are bounded",
  "On float arrays every pixel of the simple modis_1km_to_250m and modis_1km_to_500m that lies between tie points is placed within 4 m (per coordinate) of the position that exact arithmetic gives; extrapolated pixels at the borders of a scan within 27 m plus 1e-5 of the distance of neighbouring tie points. Its longitude and latitude are those of that position up to 1.6e-5 degrees.",
  "all float arrays of whole scans with 2 to 2^22 columns, all longitudes in [-180, 180] and latitudes in [-90, 90], every mathematical library accurate to a few units in the last place",
  "the tests compare one granule with reference data to within a tolerance; the amplification by the three successive extrapolations at the corners of a scan is worst case behaviour",
  [G + "_simple_modis_interpolator.pyx:interpolate_geolocation_cartesian", G + "_simple_modis_interpolator.pyx:_extrapolate_xyz_rightmost_columns", G + "_simple_modis_interpolator.pyx:_interpolate_xyz_250", G + "_simple_modis_interpolator.pyx:_interpolate_xyz_500", G + "_modis_utils.pyx:lonlat2xyz", G + "_modis_utils.pyx:xyz2lonlat"])
p("Rounding errors of the multilinear interpolation are bounded",
  "In double and in float arithmetic, at a point of the grid, the multilinear interpolation in one to four dimensions returns the multilinear interpolant up to 9 (k - 1) + 5 half units in the last place of the largest value for every axis of k nodes. It never fails and never reads outside the arrays, even where rounding moves the point to a neighbouring cell.",
  "all grids of numbers of the format with at most 10^7 (double) or 10^4 (float) nodes per axis, all values and points inside the grid, every order of the parallel loop",
  "the tests compare random points of one smooth function with a tolerance; rounding of the normalized coordinate across a cell boundary happens for isolated inputs only",
  [G + "multilinear_cython.pyx:multilinear_interpolation_1d", G + "multilinear_cython.pyx:multilinear_interpolation_2d", G + "multilinear_cython.pyx:multilinear_interpolation_3d", G + "multilinear_cython.pyx:multilinear_interpolation_4d"])
p("Values of nodes are reproduced without rounding errors",
  "Evaluated at a node of the grid, the interpolation returns exactly the value of the node, in double and in float arithmetic. True at the corners of the grid; false in general (node 1 of 50 nodes at 0, 1, ..., 49).",
  "all grids, all nodes, both formats",
  "a test of the exact values at the nodes passes or fails depending on the bounds and the number of nodes; 1/49*49 < 1 is one of few small cases",
  [G + "multilinear_cython.pyx:multilinear_interpolation_1d", G + "multilinear_cython.pyx:multilinear_interpolation_2d", G + "multilinear_cython.pyx:multilinear_interpolation_3d", G + "multilinear_cython.pyx:multilinear_interpolation_4d"])
p("In floating point the result stays between the values of the nodes",
  "The computed result is not smaller than the smallest and not larger than the largest value of the nodes. True up to the rounding errors of the previous bound; false exactly: a constant is not reproduced.",
  "all grids, all points inside the grid, both formats",
  "the deviation is one unit in the last place, at few points",
  [G + "multilinear_cython.pyx:multilinear_interpolation_1d", G + "multilinear_cython.pyx:multilinear_interpolation_2d", G + "multilinear_cython.pyx:multilinear_interpolation_3d", G + "multilinear_cython.pyx:multilinear_interpolation_4d"])
p("Grids and sets of points of any size are interpolated",
  "The multilinear interpolation works for every number of nodes and points that fits in memory. False: positions of nodes and the number of points are 32 bit C ints. From 2^31 points on nothing is computed and the uninitialised result is returned; the last node of a square grid of 46341 to 65536 nodes a side is read in front of the array, that of a grid of 70000 x 70000 nodes is silently another node.",
  "all numbers of points from 2^31 to 2^32 - 1 (any arithmetic); all square grids of 46341 to 65536 nodes a side",
  "needs arrays of 16 GB and more",
  [G + "multilinear_cython.pyx:multilinear_interpolation", G + "multilinear_cython.pyx:multilinear_interpolation_2d"])
p("A MultilinearInterpolator has no hidden state",
  "Whatever was asked of a MultilinearInterpolator before, in whatever order, its grid and every interpolation are determined by the arguments of its constructor and the values set last; values not set raise an exception.",
  "all constructor arguments, all finite sequences of uses (grid, set_values, interpolate), any arithmetic",
  "the grid is cached in the object; a stale cache or values kept from before show only in particular sequences of calls",
  [G + "multilinear.py:MultilinearInterpolator"])
p("A MultilinearInterpolator refuses data that do not fit its grid",
  "Values or bounds that do not match the orders of the grid make the interpolation raise an exception. False: too many values are silently read as a grid of another shape; missing bounds or values are read outside the arrays.",
  "all constructor arguments and values",
  "the tests only use matching arrays",
  [G + "multilinear.py:MultilinearInterpolator", G + "multilinear_cython.pyx:multilinear_interpolation"])
p("fill_borders('y') keeps every tie row",
  "After Interpolator.fill_borders('y') every tie row is still there, at its position and with its data, in every data array. True for tie rows at positions in [0, number of tie rows), and no others survive; false in general: a tie row elsewhere is silently replaced by an extrapolation of the others.",
  "all real data, all tie rows and target rows, all chunk sizes, all orders",
  "the window that selects the tie rows of a chunk is computed with the number of the rows, not with their positions; both agree in the tests",
  [G + "interpolator.py:Interpolator._fill_row_borders"])
p("Interpolator reproduces tie points for all orders",
  "For all spline orders kx and ky from 1 to 5, if interpolate() returns, every target point that is a tie point gets the value of the tie point; also after fill_borders('y', 'x') for the tie rows that this keeps (previous property).",
  "all real data, all increasing tie rows and columns, all target rows and columns, all chunk sizes, any number of data arrays, every spline routine that interpolates its knots",
  "the tests use orders 1 and 3, one shape; the borders shift the indices of the tie points",
  [G + "interpolator.py:Interpolator.interpolate", G + "interpolator.py:Interpolator._interp", G + "interpolator.py:Interpolator._interp1d", G + "interpolator.py:Interpolator.fill_borders"])
p("VII pixels in double precision",
  "On double arrays every pixel is within 15 * 2^-53 times the largest tie point of the bilinear interpolation of its four tie points.",
  "all double tie points of size up to 10^8, all shapes, all scans, factors up to 10^4",
  "accumulated roundings of six operations per pixel; tests compare with a tolerance on one array",
  [G + "viiinterpolator.py:tie_points_interpolation"])
p("VII tie points are reproduced exactly in double precision",
  "On double arrays a pixel on a tie point has exactly the value of the tie point. True for factors that are powers of two and tie points that are fixed-point numbers of 52 bits (with a few bits to spare every pixel is then the exact bilinear value); false in general: the tie point is recomputed from its left (upper) neighbour and lost when that one is large: 45 becomes 0.",
  "all double tie points, all shapes and factors",
  "needs neighbours of very different size, such as fill values",
  [G + "viiinterpolator.py:tie_points_interpolation"])
p("VII scans are independent in double precision",
  "On double arrays the pixels of a scan depend only on the tie points of the scan. True, in any arithmetic, except in the first pixel row of a scan; false there: the row is computed from the last tie row of the previous scan.",
  "all tie points, all shapes and factors, any arithmetic",
  "holds in exact arithmetic; the roundings depend on the previous scan",
  [G + "viiinterpolator.py:tie_points_interpolation"])
p("VII longitudes and latitudes in double precision",
  "tie_points_geo_interpolation on double arrays: without latitudes above the threshold and with longitudes within 180 degrees the results are the bilinear interpolations up to 3 * 10^-13 degrees. With a latitude above the threshold or longitudes at least 180 + 2^-45 degrees apart the position of every pixel is within 50 nm in each coordinate of the bilinear interpolation of the positions of the tie points, and longitude and latitude are those of the computed position up to 5 * 10^-6 degrees.",
  "all double longitudes in [-180, 180] and latitudes in [-90, 90], all shapes, factors up to 10^4, every accurate mathematical library; second part of the last claim: away from the axis of the Earth",
  "rounding errors of conversions and interpolation over all inputs",
  [G + "viiinterpolator.py:tie_points_geo_interpolation", G + "viiinterpolator.py:_lonlat2xyz", G + "viiinterpolator.py:_xyz2lonlat"])
p("Grid interpolation is bilinear",
  "SingleGridInterpolator with its default method returns at every target point the bilinear interpolation of the four tie points around it (the nearest cell outside the grid, if it extrapolates); it does not matter which of two neighbouring cells is used; tie points are reproduced; inside the grid values stay between those of the tie points of the cell; data that are themselves bilinear are reproduced everywhere. A target point outside the grid raises ValueError by default, gets the fill value with bounds_error=False.",
  "all increasing tie point positions, all real tie values, all target points, all keyword arguments of the constructor, chunked and eager evaluation through C23",
  "the tests interpolate one small array",
  [G + "interpolator.py:SingleGridInterpolator", G + "interpolator.py:AbstractSingleInterpolator"])
p("GeoGridInterpolator interpolates the cartesian positions bilinearly",
  "Longitude and latitude of every target point are those of the bilinear interpolation of the cartesian positions of the four tie points; at the tie points they are exactly the tie points.",
  "all tie points with longitudes in (-180, 180) and latitudes in (-90, 90), all increasing positions, all target points inside the grid or with extrapolation",
  "the tests compare one array with stored values",
  [G + "geointerpolator.py:GeoGridInterpolator", G + "geointerpolator.py:to_xyz", G + "geointerpolator.py:lonlat2xyz", G + "geointerpolator.py:xyz2lonlat"])
p("Grid interpolation does not depend on the direction of the axes",
  "Tie points given from last to first, rows or columns, with the data reversed in the same way give the same results.",
  "all increasing positions, all real data, all target points",
  "the tests only use increasing positions",
  [G + "interpolator.py:SingleGridInterpolator"])
p("Grid interpolation of integer data is the bilinear interpolation",
  "Integer tie values are interpolated like real ones. False: the result is cast back to the integer dtype, which truncates towards zero; the result is the truncated bilinear value, hence off by up to 1.",
  "all integer tie values",
  "the tests use float data",
  [G + "interpolator.py:SingleGridInterpolator.interpolate_numpy"])
p("Missing tie values do not spoil other tie points",
  "With missing (NaN) tie values a target point at a finite tie point has the value of the tie point. False: the tie point is computed from the cell to the lower right, whose other values enter with weight 0, and 0 * NaN is NaN; true if no value of the cell is missing.",
  "all tie values, any of them missing",
  "the tests have no missing values",
  [G + "interpolator.py:SingleGridInterpolator.interpolate_numpy"])
p("Effect of the sagging chords on longitude and latitude",
  "Interpolated cartesian positions lie below the sphere, by up to a fraction h of the radius, and xyz2lonlat divides by the radius of the sphere. The latitude is then still within 1.5 h radians of the geocentric latitude of the position, on both sides of the threshold between the two formulas. In a cell of GeoGridInterpolator whose tie points are within a spherical cap (cosine k >= 0.99 from its centre) the position of every pixel is in the cone of the cap, its height is between k and 1 radii, and its latitude is within 1.5 (1 - k) radians of the geocentric one; the longitude is that of the position except on the antimeridian.",
  "all positions at most 1 percent below the sphere; all cells in a cap of cosine at least 0.99",
  "bound over a continuum of positions; the tests have small cells where it is invisible",
  [G + "geointerpolator.py:xyz2lonlat", G + "geointerpolator.py:GeoGridInterpolator"])
p("Interpolator of order 1 is bilinear and constant outside",
  "Interpolator with kx_ = ky_ = 1, borders not filled, gives at every target point the bilinear interpolation of the tie points around it; outside the tie points the value of the nearest point of the border. It succeeds on every array of the right shape with increasing positions.",
  "all increasing tie rows and columns, all increasing target rows and columns, all real data, any number of arrays",
  "the tests only evaluate inside the tie points or after filling the borders",
  [G + "interpolator.py:Interpolator.interpolate", G + "interpolator.py:Interpolator._interp"])
p("Grid interpolation on double arrays",
  "SingleGridInterpolator on double tie points and double data is computed without overflow or NaN; the result is within 20 * 2^-53 times the largest tie value of the bilinear interpolation of the doubles given. At a tie point it is exactly the tie value, whatever finite values the other tie points have.",
  "all increasing double positions with distances between 1e-6 and 1e8, all double data up to 1e8; tie points: all finite doubles as values, positions up to 2^1000",
  "rounding over all doubles; the tests use tolerances",
  [G + "interpolator.py:SingleGridInterpolator.interpolate_numpy"])
p("Grid interpolation on double arrays does not leave the range of the tie values",
  "The interpolated double is between the smallest and the largest of the four tie values around it; in particular constant data stay constant. False: the weights p and 1 - p are applied separately, and 5 everywhere gives 5 + 2^-50 at 2/25 of a cell; it is true up to the rounding error 20 * 2^-53 * B.",
  "all increasing double positions, all double data",
  "needs one particular rounding; the tests use tolerances",
  [G + "interpolator.py:SingleGridInterpolator.interpolate_numpy"])
p("Splines of order 3 are determined by the data",
  "Through any data at increasing positions (at least four) there is exactly one spline of FITPACK's kind: piecewise cubic, twice continuously differentiable, with knots at all positions except the first two and the last two. It is given by the solution of a tridiagonal system, so neither splrep nor RectBivariateSpline with order 3 can fail or be ambiguous on such data; a cubic polynomial is returned unchanged, also where splev extrapolates. The premise of the other theorems that the spline passes through its data is met.",
  "all increasing positions, at least four, all real data, all arguments",
  "existence and uniqueness for all positions and data; the tests evaluate a few splines",
  [G + "interpolator.py:Interpolator._interp", G + "interpolator.py:Interpolator._interp1d"])
p("Interpolator of orders 1 and 3 reproduces polynomials",
  "With orders kx_, ky_ from 1 and 3, tie data sampled from a field that is a polynomial of degree ky_ along the columns and kx_ along the rows give the field at every target point, moved to the nearest point of the border if it is outside the tie points. In the one-dimensional branch with ky_ = 3 the field is also continued outside.",
  "all increasing tie rows and columns, all target points, all such fields, any number of arrays",
  "all polynomials at all positions; the tests compare a few numbers",
  [G + "interpolator.py:Interpolator.interpolate"])
p("How far the order 3 spline is from the data between the tie points",
  "If the slopes of the tie data change by at most K times the mean width of the two cells, the spline is within 3/8 K h^2 of the straight line in every inner cell of width h; if the data are samples of a function whose second derivative is at most K, the spline is within K h^2 / 2 of the function. In the first and the last cell 3 is replaced by 3 (1 + 2 h0 / h1), h0 / h1 the ratio of the widths of the outermost cell and its neighbour.",
  "all increasing positions, at least four; all data; all functions with bounded second derivative; all points between the tie points",
  "bound over all functions and positions",
  [G + "interpolator.py:Interpolator._interp"])
p("Columns between the tie columns in modis5kmto1km, modis1kmto500m and modis1kmto250m",
  "Along each tie row the three coordinates follow the unique cubic spline through the tie values and their linear continuation to the first and last fine column; between the tie rows of the scan, and beyond them, they are linear. Each pixel is the direction of that position. If the second differences of a coordinate along the tie rows of the scan are at most D, its value is within 3/8 D of the bilinear position between the tie rows and between the second and the last but one tie column; 9/8 D in the outermost cells, and 9/5 as much beyond the outer tie rows.",
  "all tie-point arrays, all scans, all pixels, any bound D",
  "all pixels of all granules against the exact spline; the tests compare single granules with stored results",
  [G + "__init__.py:modis5kmto1km", G + "__init__.py:modis1kmto500m", G + "__init__.py:modis1kmto250m"])
p("Spline interpolators: the value of every pixel",
  "SingleSplineInterpolator accepts exactly increasing axes with more points than the degree, and data of their shape. With degrees 1 or 3 its value is that of the unique splines along the tie rows, joined by the unique spline across them, at the nearest point of the area of the tie points. It does not matter which axis is taken first. Tie points are met, and fields that are polynomials of the degrees along both axes are reproduced. With integer tie values the result is cut off towards zero.",
  "all increasing positions, all data, all target points; tie points also for degrees 2, 4 and 5",
  "all positions and data against the exact splines; the tests compare a few numbers",
  [G + "interpolator.py:SingleSplineInterpolator.__init__", G + "interpolator.py:SingleSplineInterpolator.interpolate_numpy"])
p("Spline and grid interpolators agree up to the second differences of the data",
  "On evenly spaced tie points, if the second differences of the data are at most Dx along the rows and Dy along the columns, the cubic spline value is within b Dy + a Dx + 4 a b Dx of the bilinear value; a and b are 3/8, or 9/8 in the first and last cell of the axis. Away from the border this is 3/8 Dy + 15/16 Dx.",
  "all evenly spaced axes of at least four points, all data, all target points between the tie points",
  "bound over all data",
  [G + "interpolator.py:SingleSplineInterpolator.interpolate_numpy", G + "interpolator.py:SingleGridInterpolator.interpolate_numpy"])
p("Spline interpolation stays in the range of the tie values",
  "The value of SingleSplineInterpolator is between the smallest and the largest tie value. False for the default degrees: tie values 0, 0, 1, 1 give -1/4. True for degrees 1; on evenly spaced tie points the excess is less than 15 times the difference of the largest and the smallest tie value.",
  "all axes, all data, all target points",
  "overshoot depends on the data; no test looks for it",
  [G + "interpolator.py:SingleSplineInterpolator.interpolate_numpy"])
p("GeoSplineInterpolator: the position of every pixel",
  "With degrees 1 or 3, longitude and latitude of every pixel are those of the point whose three cartesian coordinates are the values of the unique tensor product splines through the coordinates of the tie points. On evenly spaced tie points each coordinate is within the bound of C104 of the bilinear one used by GeoGridInterpolator. At the tie points the result is the tie points, for every degree.",
  "all axes, all longitudes in (-180, 180) and latitudes in (-90, 90) at tie points, all target points that never decrease",
  "all positions against the exact splines; the tests compare one small array",
  [G + "geointerpolator.py:_work_with_lonlats", G + "interpolator.py:MultipleSplineInterpolator"])
p("Target points may be given in any order",
  "interpolate evaluates the target points one by one, whatever their order. True for the grid interpolators. False for the spline interpolators: they raise ValueError unless the points of both axes never decrease, and then evaluate them one by one.",
  "all target points, all objects, any underlying interpolator",
  "no test uses unsorted target points",
  [G + "interpolator.py:SingleSplineInterpolator.interpolate_numpy", G + "interpolator.py:SingleGridInterpolator.interpolate_numpy"])
p("Cubic splines follow smooth functions to fourth order",
  "If the tie values along an axis are samples of a function whose fourth derivative is at most K, the order 3 spline differs from the function, in a cell of width h, by at most K h^2 (c + h^2 / 8) / 8, where c is H^2 / 4 for the largest cell width H, and a larger explicit constant in the first and last cell. On evenly spaced positions this is 3/64 K h^4, and 15/64 K h^4 in the first and last cell.",
  "all increasing positions of at least four points, all functions with four derivatives, all target points between the first and the last position",
  "all smooth functions; a test only sees single functions",
  [G + "interpolator.py:Interpolator._interp1d", G + "interpolator.py:SingleSplineInterpolator.interpolate_numpy"])
p("metop20kmto1km: the position of every pixel",
  "Longitude and latitude of every pixel are those of the point whose cartesian coordinates are the values of the unique cubic splines through the 105 tie points of its row, taken at columns 0, 4, 24, ..., 2044, 2047. If these are samples of a smooth curve with fourth derivative at most K, each coordinate is within 7500 K of the curve, within 380 K up to column 4 and within 187 K from column 2044.",
  "all numbers of rows, all tie points, all 2048 columns",
  "all tie points against the exact splines; the test compares one file",
  [G + "__init__.py:metop20kmto1km", G + "geointerpolator.py:GeoInterpolator.interpolate", G + "interpolator.py:Interpolator._interp1d"])
p("Spline interpolators follow smooth fields to fourth order",
  "On evenly spaced tie points sampled from a field whose fourth derivatives are at most Kx along the rows and Ky along the columns, SingleSplineInterpolator differs from the field by at most 15/64 (Ky hy^4 + 11/2 Kx hx^4) between the tie points, with smaller constants away from the border. The same bound holds for each cartesian coordinate in GeoSplineInterpolator.",
  "all evenly spaced axes of at least four points, all fields with four derivatives, all target points between the tie points",
  "all smooth fields",
  [G + "interpolator.py:SingleSplineInterpolator.interpolate_numpy", G + "geointerpolator.py:GeoSplineInterpolator"])
p("Grid interpolators follow smooth fields to second order",
  "If the tie points are samples of a field whose second derivatives are at most Kx along the rows and Ky along the columns, SingleGridInterpolator differs from the field by at most (Ky hy^2 + Kx hx^2) / 8 in a cell of size hy by hx. The same holds for each cartesian coordinate in GeoGridInterpolator. The bound is attained.",
  "all increasing axes, all fields with two derivatives, all target points between the tie points",
  "all smooth fields",
  [G + "interpolator.py:SingleGridInterpolator.interpolate_numpy", G + "geointerpolator.py:GeoGridInterpolator"])
p("Errors of cartesian positions and errors on the ground",
  "If a computed cartesian point is within d of a point P of the sphere of radius r, d at most r/100, and not exactly on the half plane y = 0, x <= 0, the longitude and latitude from xyz2lonlat exist and the point of the sphere they name is within 4 d of P, whichever of the two latitude formulas is used. On that half plane the claim is false: the longitude comes out as 0.",
  "all radii, all points of the sphere, all computed points near them",
  "all points, including the poles, the antimeridian and the switch between the two latitude formulas",
  [G + "geointerpolator.py:xyz2lonlat"])
p("Ground accuracy of metop20kmto1km, GeoSplineInterpolator and GeoGridInterpolator",
  "If the tie points lie on a smooth curve or surface of the sphere of radius 6370997 m, every pixel between the tie points (not within the error of the half plane y = 0, x <= 0) gets a longitude and latitude whose point on the sphere is within seven times the coordinate error bound of C109, C110 or C111 of the true point: 52500 K metres for metop20kmto1km, fourth order in the tie point distance for GeoSplineInterpolator, second order for GeoGridInterpolator.",
  "all tie points sampled from smooth surfaces of the sphere, all target points",
  "all surfaces; the distances on the ground are exact bounds rather than differences at a few pixels",
  [G + "__init__.py:metop20kmto1km", G + "geointerpolator.py:GeoSplineInterpolator", G + "geointerpolator.py:GeoGridInterpolator", G + "geointerpolator.py:xyz2lonlat"])
p("git describe output is parsed uniquely",
  "The regular expression matches a string exactly if it is TAG-NUM-gHEX with a non-empty tag without line feed, decimal digits and lower-case hexadecimal digits, possibly followed by one line feed; TAG, NUM and HEX are then the three groups, also for tags that contain dashes or look like descriptions themselves.",
  "all strings", "all tags, including ones with dashes, digits and -g inside",
  [G + "version.py:git_pieces_from_vcs"])
p("Version of a checkout",
  "In a repository where every command of git succeeds, the version is the tag without v if the commit is tagged and clean, otherwise TAG+NUM.gHEX (TAG.NUM.gHEX if the tag has a plus), with .dirty appended for local changes; without tag it is 0+untagged.N.gHEX with the number N of commits. The revision, the flag dirty and the date in ISO 8601 agree with git.",
  "all file names, all answers of git of the documented form", "all tags, distances, hashes, branch states and white space around the answers of git",
  [G + "version.py:get_versions", G + "version.py:git_pieces_from_vcs", G + "version.py:render_pep440"])
p("Different checkouts have different versions",
  "For tags without plus, two versions are equal only if tag, distance, dirty flag and (unless tagged and clean) hash are equal; a version beyond a tag has exactly one plus, even if the tag has one.",
  "all tags without plus, all distances, hashes and flags", "injectivity over all pairs of descriptions",
  [G + "version.py:render_pep440", G + "version.py:plus_or_dot"])
p("Version of an archive",
  "With expanded keywords, the version is the newest tag of the form vN... of the archived commit, without v; it is 0+unknown if there is none. (Holds for the alphabetically first tag instead: a release is preferred to its candidates, but 1.2 to 1.3.)",
  "all lists of reference names, all white space around them", "all sets of reference names",
  [G + "version.py:git_versions_from_keywords"])
p("The package can be imported",
  "get_versions, called when the package is imported, returns a version whatever git does. Without git or repository, the version comes from a directory name starting with None or is 0+unknown. (Fails if git show or git rev-list fails after the other commands have succeeded.)",
  "all behaviours of git", "all combinations of failures of the seven commands of git",
  [G + "version.py:get_versions", G + "version.py:git_pieces_from_vcs", G + "version.py:versions_from_parentdir", G + "__init__.py:155"])
p("Other version styles",
  "Every documented style renders every description. git-describe-long gives back the parsed description; pep440-pre counts a post release up; without a branch, master is used if it contains the commit, otherwise the first branch. (pep440-pre fails for a tag with something else than a number after .post.)",
  "all parsed descriptions", "all tags, distances, hashes and lists of branches",
  [G + "version.py:render", G + "version.py:render_pep440_pre", G + "version.py:render_git_describe_long", G + "version.py:pep440_split_post"])
p("Results do not depend on the prime meridian; mirrored tie points give mirrored pixels",
  "If all tie points are turned by the same angle about the axis of the Earth (longitudes in any representation modulo 360), all pixels are turned by this angle; if they are mirrored at the equator or at the prime meridian, so are the pixels. This holds for the grid and spline interpolators, the MODIS interpolators with and without zenith angles, modis5kmto1km, modis1kmto500m, modis1kmto250m and metop20kmto1km. (Positions with longitude exactly 180 are reported with longitude 0, C18.)",
  "all tie points, angles, target points and scans", "a relation between two runs for all tie points and all angles",
  [G + "geointerpolator.py:lonlat2xyz", G + "geointerpolator.py:xyz2lonlat", G + "geointerpolator.py:GeoGridInterpolator", G + "geointerpolator.py:GeoSplineInterpolator", G + "simple_modis_interpolator.py", G + "modisinterpolator.py", G + "__init__.py:metop20kmto1km"])
p("VII results do not depend on the prime meridian",
  "The same for tie_points_geo_interpolation. (Holds if both runs choose the same mode; fails in general, because the choice between longitudes and latitudes and cartesian positions depends on the longitudes: turning tie points over the antimeridian changes the latitudes of the pixels.)",
  "all tie points, angles and scans", "a relation between two runs for all tie points and all angles",
  [G + "viiinterpolator.py:tie_points_geo_interpolation"])
p("Missing tie values of the basic interpolator",
  "Along each axis a pixel has the tie value at its index; between two tie values the value on the straight line between the nearest ones before and after it; after the last tie value that value; before the first one none. If the indices do not start at 0, the pixels before the first tie row or column have no values.",
  "all data with or without missing values, all increasing lists of indices", "all patterns of missing values",
  [G + "basic_interpolator.py:BasicSatelliteInterpolator._interp", G + "basic_interpolator.py:BasicSatelliteInterpolator._pandas_interp"])
p("A failed fill_borders leaves the interpolator as it was",
  "If fill_borders raises, the object is unchanged, so that the call can be repeated. (Fails: with several dimensions the ones before the failing one stay filled; with arrays of different widths the arrays before the failing one stay extended while the column positions do not. Holds for a failure of 'y' alone, and of 'x' alone if all arrays have the same number of columns; in every case a failure of 'x' changes only a prefix of the arrays.)",
  "all states of the interpolator, all number systems", "all ways in which filling can fail",
  [G + "interpolator.py:Interpolator.fill_borders", G + "interpolator.py:Interpolator._fill_col_borders", G + "interpolator.py:Interpolator._fill_row_borders"])
p("Longitudes and latitudes with different dimensions are refused",
  "tie_points_geo_interpolation raises ValueError if longitude and latitude have different dimension names. (Fails for square arrays with the same two names in the other order: in cartesian mode the longitudes are silently transposed, in the other mode ValueError is raised.)",
  "all arrays, names of dimensions, numbers of tie rows per scan and factors", "all names, shapes and positions, the mode being chosen by the positions",
  [G + "viiinterpolator.py:tie_points_geo_interpolation", G + "viiinterpolator.py:tie_points_interpolation", G + "viiinterpolator.py:_lonlat2xyz"])
p("Scan-wise bilinear interpolation follows smooth fields to second order",
  "Where a scan of tie points samples a field with second derivatives bounded by Ky across and Kx along the tie rows (per tie-point distance), the bilinear interpolation used by the simple MODIS, legacy MODIS and VII interpolators is within (Ky + Kx)/8 of the field between the tie points; outside them the error stays second order, at most 33/128 Ky + 147/128 Kx for the simple MODIS functions.",
  "all numbers of tie rows and columns, smooth fields and positions up to half a row and one column outside the tie points", "all fields and positions",
  [G + "simple_modis_interpolator.py", G + "__init__.py:modis5kmto1km", G + "viiinterpolator.py:tie_points_interpolation"])
p("Ground accuracy of the simple MODIS, legacy MODIS and VII interpolators",
  "If the tie points are points of a smooth surface on the sphere, every interpolated pixel of the simple MODIS functions, of modis5kmto1km, modis1kmto500m and modis1kmto250m, and of tie_points_geo_interpolation in cartesian mode is on the ground within 7 times the second-order error of C125 of the true position (legacy MODIS: plus the error of the cubic spline along the rows); in the mode of longitudes and latitudes VII is within (Ky + Kx)/8 in each of the two.",
  "all scans, smooth surfaces and pixels with an error of at most 1/175 of the radius, away from the antimeridian", "all swaths and positions; the tests compare with tolerances for one or two recorded granules",
  [G + "simple_modis_interpolator.py", G + "__init__.py:modis5kmto1km", G + "__init__.py:modis1kmto500m", G + "__init__.py:modis1kmto250m", G + "viiinterpolator.py:tie_points_geo_interpolation"])
p("Satellite-angle MODIS pixels follow the viewing geometry to third order",
  "Along a scan line the satellite-angle interpolation places a pixel where a sensor turning at constant speed between the two tie points would see it: if the tie points lie on great circles at the arcs given by their satellite zenith angles, the pixel is on the ground within 4 times R * ((tb - ta)^2/8 + 5/6 |phi_b - phi_a|^3) plus the across-scan terms of the point at the arc of the intermediate scan angle, where ta, tb are the arcs and phi_a, phi_b the scan angles of the tie points; the first term is the sagitta of the chord, the second the third-order error of the parabola through the mid-angle.",
  "modis_1km_to_250m, modis_1km_to_500m and modis_5km_to_1km, all whole-scan swaths of standard width, all pixels between tie points with different zenith angles of at most 70 degrees, all orientations of the scan line", "all geometries; the tests compare with tolerances for recorded granules only",
  [G + "_modis_interpolator.pyx", G + "modisinterpolator.py"])
p("Interpolation of integer data does not depend on the target rows",
  "Interpolator.interpolate() returns the values of the spline whatever the dtype of the tie data. (False when the target rows are the tie rows: the values are stored with the dtype of the tie data, so integers are cut towards zero; with any other target row, or after fill_borders has added a line, they are not.)",
  "all tie data of integers or floating-point numbers, positions, orders and calls of fill_borders", "the tests only use floating-point tie data",
  [G + "interpolator.py:Interpolator._interp1d", G + "interpolator.py:Interpolator._interp", G + "interpolator.py:Interpolator._extrapolate_cols"])
p("Results of Interpolator.interpolate() already handed out do not change",
  "The list returned by Interpolator.interpolate() keeps its contents whatever is done with the interpolator afterwards. (False: it is the attribute new_data, and a later call of interpolate() assigns to its elements; it changes if borders were filled in between.)",
  "all interpolators and sequences of calls of fill_borders and interpolate", "no test keeps a result across calls",
  [G + "interpolator.py:Interpolator.interpolate", G + "interpolator.py:Interpolator._interp"])
p("GeoInterpolator takes a swath object or longitudes and latitudes, and reproduces its tie points",
  "GeoInterpolator gives the same results for a swath object and for its pair of longitudes and latitudes, refuses anything else, and for all positions, orders and chunk sizes, with or without filled borders, a pixel at a tie point has the longitude and latitude of the tie point. (False in one part: sequences of more than two arrays are accepted, the others being ignored.)",
  "all arguments of the constructor, positions, orders from 1 to 5, chunk sizes; tie points off the poles and the antimeridian", "all grids and orders; the tests use two swaths",
  [G + "geointerpolator.py:GeoInterpolator.__init__", G + "geointerpolator.py:GeoInterpolator.interpolate"])
p("GeoGridInterpolator on double arrays, from longitudes and latitudes to longitudes and latitudes",
  "For double precision longitudes and latitudes on the globe, GeoGridInterpolator (linear method) returns finite longitudes and latitudes for every pixel inside the grid: the computed position is within 50 nm of the bilinear interpolation of the positions of the tie points, and the longitude and latitude are those of that position up to 0.000005 degrees, more than a micrometre off the axis of the Earth. At the tie points the input comes back up to 0.000006 degrees, poles and antimeridian included.",
  "all grids of doubles with steps that are neither tiny nor huge, all longitudes within 180 and latitudes within 90 degrees, all targets inside the grid, all mathematical libraries accurate to a few units in the last place", "rounding errors of all inputs; the tests compare a few pixels with a loose tolerance",
  [G + "geointerpolator.py:GeoGridInterpolator", G + "geointerpolator.py:lonlat2xyz", G + "geointerpolator.py:xyz2lonlat", G + "interpolator.py:SingleGridInterpolator.interpolate_numpy"])
p("The order of the dimensions passed to fill_borders does not matter",
  "fill_borders('y', 'x') and fill_borders('x', 'y') leave the interpolator in the same state in exact arithmetic, or both raise the same exception.",
  "all states with rectangular tie data of at least two columns, all positions, chunk sizes and numbers of arrays", "all data and positions; the tests call one order only",
  [G + "interpolator.py:Interpolator.fill_borders", G + "interpolator.py:Interpolator._fill_row_borders", G + "interpolator.py:Interpolator._fill_col_borders"])
p("fill_borders('y') can be called again",
  "Calling fill_borders('y') a second time does no harm, as for 'x' (C06). (False: the border rows are added again, positions occur twice, and interpolate() raises ValueError.)",
  "all states, positions and chunk sizes for which the border of the first piece lies in the first window of the second call", "no test calls fill_borders twice",
  [G + "interpolator.py:Interpolator._fill_row_borders", G + "interpolator.py:Interpolator._interp"])
p("Keywords read from the text of version.py are those of the imported module",
  "git_get_keywords returns for every variable the string of the last line that assigns to it, with all three kinds of line ends, nothing for a variable without such a line, and nothing for a file that cannot be opened. For version.py as git-archive writes it these are the keywords that get_keywords() returns.",
  "all texts, all strings without line ends", "all strings; the function is not tested at all",
  [G + "version.py:git_get_keywords", G + "version.py:get_keywords"])
p("The simple MODIS interpolation on double arrays: rounding errors",
  "For double precision longitudes and latitudes the simple MODIS interpolation returns finite values for every pixel of every whole scan. Between tie points the computed position is within 0.2 micrometres of the bilinear interpolation of the exact positions of the tie points in each coordinate; in the extrapolated rows and columns within 3 micrometres plus 10^-13 of the distance of neighbouring tie points. Longitude and latitude are those of the computed position up to 0.000005 degrees.",
  "all double arrays of longitudes within 180 and latitudes within 90 degrees, all numbers of scans, all widths from 2 to 2^22, both resolutions, all mathematical libraries accurate to a few units in the last place", "the project's tests of these functions use float32 data only, and rounding errors of all inputs cannot be enumerated",
  [G + "_simple_modis_interpolator.pyx:interpolate_geolocation_cartesian", G + "_modis_utils.pyx:lonlat2xyz", G + "_modis_utils.pyx:xyz2lonlat", G + "simple_modis_interpolator.py:interpolate_geolocation_cartesian"])
p("Border filling on double arrays: rounding errors",
  "_linear_extrapolate on doubles returns finite values within (1800 q D + 120 B) 10^-18 of the straight line through the two rows (q: distance of the target in tie distances, B: size of the data, D: their difference). Extrapolating to the position of the second row returns that row exactly; extrapolating to the position of the first need not return the first row. fill_borders('y', 'x') on the grids of the MODIS functions succeeds on doubles, chooses the same tie rows and the same border columns as exact arithmetic, and leaves positions within 3 10^-11 and tie values within half a millimetre of those of the exact filling.",
  "all pairs of rows and positions of moderate size; all numbers of scans up to 40000 tie rows, all cartesian tie data of at most 10000 km that change by at most 100 km between neighbours; 5 km to 1 km, 1 km to 500 m and 1 km to 250 m", "rounding errors of all data and positions; equality and window tests on rounded positions decide which rows are used, for every number of scans",
  [G + "interpolator.py:_linear_extrapolate", G + "interpolator.py:Interpolator._fill_row_borders", G + "interpolator.py:Interpolator._fill_col_borders", G + "__init__.py:modis5kmto1km", G + "__init__.py:modis1kmto500m", G + "__init__.py:modis1kmto250m"])
p("Ground accuracy of what is computed in floating point",
  "If the tie points are positions on a smooth surface scanned by the instrument, the pixels computed in floating point are close to the true positions on the ground, in metres: GeoGridInterpolator (linear) on doubles within 7 e + 1.2 m, the simple MODIS interpolation on doubles within 7 e + 1.2 m, VII in cartesian mode within 7 e + 1.2 m and in longitude/latitude mode within e + 3 10^-13 degrees, where e is the error of bilinear interpolation for the curvature of the surface; the satellite-angle MODIS interpolation on float32 arrays within 4 d + 7 f + 4 m, where d is the error of the method and f a bound for the rounding errors. The pixel must not be near the 180th meridian plane or the earth's axis.",
  "all smooth fields of positions on the sphere with bounded curvature, all sizes and positions of pixels, all mathematical libraries accurate to a few units in the last place", "combines the error of the method, for all smooth surfaces, with rounding errors of every operation; tests compare single scenes with reference results",
  [G + "geointerpolator.py:GeoGridInterpolator", G + "_simple_modis_interpolator.pyx:interpolate_geolocation_cartesian", G + "viiinterpolator.py:tie_points_geo_interpolation", G + "_modis_interpolator.pyx:interpolate"])
p("Coordinates attached to VII tie points",
  "Index coordinates that the caller attached to the dimensions of longitude and latitude have no influence on tie_points_geo_interpolation: the result is the one for the arrays without coordinates.",
  "all arrays and labels of their dimensions, any arithmetic when the labels agree, exact arithmetic otherwise, all scan lengths, factors and thresholds", "depends on which mode (cartesian or not) the positions lead to and on how xarray aligns labels: all combinations of missing, equal, repeated, reordered and different labels",
  [G + "viiinterpolator.py:tie_points_geo_interpolation", G + "viiinterpolator.py:_lonlat2xyz", G + "viiinterpolator.py:tie_points_interpolation"])
p("Chunked arrays of different heights are refused",
  "modis_1km_to_250m and modis_1km_to_500m of simple_modis_interpolator raise ValueError for chunked longitudes and latitudes with different numbers of rows.",
  "all kinds of chunked arrays, all heights, all chunk structures whose first row chunk holds a scan, any arithmetic", "only da.map_blocks looks at the blocks; whether it notices depends on the numbers of blocks of both arrays after rechunking",
  [G + "_modis_utils.pyx:140-158", G + "_modis_utils.pyx:172-195", G + "simple_modis_interpolator.py:49-61"])
p("VII interpolation of float32 arrays",
  "tie_points_interpolation of float32 arrays gives doubles within 2^-24 times the largest difference D of tie points below each other, plus 15 * 2^-53 times the largest tie point, of the bilinear interpolation of the four tie points; it fails when, and as, the interpolation of doubles fails. tie_points_geo_interpolation of float32 arrays: longitudes and latitudes within 2^-24 D + 3 * 10^-13 degrees of the bilinear interpolations (no latitude above the threshold, longitudes within 180 degrees); otherwise positions within 17 m, in each coordinate, of the interpolation of the positions of the tie points, and longitude and latitude those of the computed position up to 0.000005 degrees.",
  "all shapes, all float32 tie points in range, all factors up to 10000, all thresholds, every mathematical library that is accurate to 2 units (cos, sin) and 8 units (arccos, arcsin)", "float32 and double operations alternate; the rounding errors depend on every tie point",
  [G + "viiinterpolator.py:23-79", G + "viiinterpolator.py:83-134", G + "viiinterpolator.py:137-178"])
p("VII interpolation of float32 arrays is that of the same numbers as doubles",
  "tie_points_interpolation of a float32 array gives the same doubles as tie_points_interpolation of the array converted to double.",
  "all shapes, all float32 tie points, any mathematical library", "scipy subtracts neighbouring tie points in float32; only some pairs show the rounding",
  [G + "viiinterpolator.py:66-77"])
p("Grid interpolation of float32 values stays between the corners",
  "SingleGridInterpolator on float32 values returns a float32 value that lies between the smallest and the largest of the four tie values around the point, in any cell that contains it; constant tie values come back unchanged; at the tie points the result is the tie value; and it is within one rounding to float32 (1.000001 * 2^-24 times the largest tie value, or the smallest float32) of the exact bilinear interpolation.",
  "all shapes with at least two tie points per axis, all increasing double axes below 2^1000, all float32 values of any size, all points inside the axes, all constructor settings (accuracy: distances of neighbouring tie points between 10^-6 and 10^8)", "for doubles the claim is false (C98) at a few points only; whether the double sum rounds past a corner depends on the last bits of all weights",
  [G + "interpolator.py:235-241", G + "interpolator.py:315-325"])
p("GeoGridInterpolator on float32 arrays, from longitudes and latitudes to longitudes and latitudes",
  "For float32 longitudes and latitudes on the globe, GeoGridInterpolator (linear method) returns finite longitudes and latitudes for every pixel inside the grid: the computed position is within 17 m, in each coordinate, of the bilinear interpolation of the positions of the tie points, and the longitude and latitude are those of the computed position up to 0.1 degrees, more than 20 m away from the axis of the Earth. At the tie points longitude and latitude come back up to 0.1 degrees.",
  "all shapes with at least two tie points per axis, all tie points on the globe, all double axes and pixels inside them, every mathematical library accurate to 2 units (cos, sin) and 8 units (arccos, arcsin) of float32", "the conversions are done in float32 and the interpolation in double; errors of 0.1 degrees need positions that no test array contains",
  [G + "geointerpolator.py:36-75", G + "geointerpolator.py:78-111", G + "interpolator.py:315-325"])
p("Ground accuracy of what is computed from float32 arrays",
  "C137 for float32 arrays, where the tie points lie on a surface of bounded curvature: VII longitudes and latitudes are within (Ky + Kx) / 8 plus 2^-24 of the largest difference of tie points below each other of the true ones; VII pixels interpolated in cartesian coordinates are within 7 (Ky + Kx) / 8 + 121 m of the true position; pixels of GeoGridInterpolator within 7 (Ky gy^2 + Kx gx^2) / 8 + 22.4 km, because float32 longitudes are only known up to 0.1 degrees (C72).",
  "all sizes, all float32 tie points, all surfaces whose second derivatives are bounded by Ky and Kx, away from the poles and the antimeridian by the error bound", "the error of the method and the rounding errors of some twenty float32 and double operations add up differently at every pixel; the true position is not computed by any test",
  [G + "viiinterpolator.py:23-178", G + "geointerpolator.py:52-111", G + "interpolator.py:315-325"])
p("Chunked satellite angles of another height are refused",
  "When the satellite angles passed to the satellite-angle MODIS functions have another number of rows than the longitudes and latitudes (all of them dask arrays), the call raises an error.",
  "all functions, all heights, all chunkings whose first chunk holds a scan, all arithmetics, all orders of the tasks", "depends on both chunkings; the result is lazy, and the announced shape is right even when the computed one is not",
  [G + "_modis_utils.pyx:98-195", G + "_modis_interpolator.pyx:17-38"])
p("Integer tie values on doubles: constant values come back",
  "SingleGridInterpolator with integer tie values, which are interpolated in doubles and cut off by astype, returns the constant when all tie values are equal, and in general a value between those of the corners of the cell.",
  "all double axes and points inside, all integer tie values up to 10^8", "one rounding below the integer loses a whole unit; it happens for particular combinations of value, step and position only",
  [G + "interpolator.py:301-325"])
p("BasicSatelliteInterpolator on double arrays",
  "On double arrays every pixel of BasicSatelliteInterpolator is within 15 roundings of the exact bilinear value and so within 15 roundings of the range of the four tie values around it; constant tie values come back exactly.",
  "all increasing indices up to 10^6, all finite double tie values up to 10^8 (any finite value for constants), with a pandas that has DataFrame.as_matrix", "an error bound over all values and positions",
  [G + "basic_interpolator.py:30-88"])
p("BasicSatelliteInterpolator follows smooth fields to second order",
  "If the tie values are within d of fields of longitude and latitude whose second derivatives are at most Ky down the columns and Kx along the rows, every pixel is within d + (Ky hy^2 + Kx hx^2) / 8 of the fields in a cell of hy by hx pixels; on double arrays 15 roundings are added. The bound is attained. On a sphere of radius r the pixel is off by at most r pi / 90 times the bound in degrees.",
  "all increasing indices, all smooth fields and errors of the tie values, with a pandas that has DataFrame.as_matrix", "an error bound over all smooth fields",
  [G + "basic_interpolator.py:30-88"])
p("BasicSatelliteInterpolator does not depend on how longitudes are written",
  "The positions of the pixels do not change when longitudes of tie points are replaced by longitudes of the same meridians (multiples of 360 degrees added).",
  "all increasing indices and all tie values, in exact arithmetic", "only swaths across the date line are concerned",
  [G + "basic_interpolator.py:30-88"])
p("Results of different resolutions belong together",
  "Every g-th pixel (in both directions) of VII interpolation by the factor f g is the pixel of interpolation by f, also for longitudes and latitudes in both modes. In the simple MODIS interpolation the position of a 500 m pixel is the midpoint of the positions of two 250 m pixels below each other, for every row and column including the extrapolated ones.",
  "all factors, all finite tie points, all whole scans, in exact arithmetic", "a relation between two runs, for all factors and tie points",
  [G + "viiinterpolator.py:23-134", G + "_simple_modis_interpolator.pyx:1-277"])
p("BasicSatelliteInterpolator refuses indices that do not fit",
  "Row or column indices that are not the increasing positions of the tie rows or columns (none, another number of them, one twice, not increasing) raise an exception, and so do longitudes of another shape than the latitudes.",
  "all lists of indices, all shapes, any arithmetic", "all malformed inputs",
  [G + "basic_interpolator.py:43-88"])
p("VII granules can be interpolated piece by piece",
  "Interpolating some whole scans of a granule on their own gives exactly the pixels they have in the result for the whole granule.",
  "all granules of finite tie points, all runs of whole scans in them, all factors, in exact arithmetic", "a relation between two runs, for all granules",
  [G + "viiinterpolator.py:23-134"])
p("Interpolation of plain values is linear in the tie values",
  "The result for a times some tie values plus b times others is a times the result of the former plus b times the result of the latter: for the grid interpolators (where they do not return the fill value), the spline interpolators and Interpolator with orders 1 and 3, multilinear interpolation, tie_points_interpolation and BasicSatelliteInterpolator.",
  "all tie values, all a and b, all target points, in exact arithmetic", "a relation between three runs, for all values",
  [G + "interpolator.py:130-377", G + "multilinear.py:1-86", G + "viiinterpolator.py:23-79", G + "basic_interpolator.py:43-88"])
p("Results do not depend on the orientation of the arrays",
  "A swath of whole scans given upside down gives the result upside down, in the simple MODIS interpolation always, and in the MODIS interpolation with zenith angles (1km to 500m and 250m, 5km to 1km) where the zenith angles do not vary across the rows of a scan. Grid interpolators (where they do not return the fill value) and BasicSatelliteInterpolator give the transposed result for transposed tie values on exchanged axes.",
  "all swaths of whole scans, all finite tie values, in exact arithmetic", "a relation between two runs, for all swaths",
  [G + "_simple_modis_interpolator.pyx:1-277", G + "_modis_interpolator.pyx:150-593", G + "interpolator.py:280-345", G + "basic_interpolator.py:43-88"])
p("Chunks of whole scans are kept",
  "A MODIS interpolation of chunked arrays whose row chunks already hold whole scans gives results in the same chunks, scaled to the finer resolution. (False in general; see the claim.) For any chunks the layout of the result follows from the first row chunk of the first array alone: blocks of the whole scans that fit into that chunk, the last block possibly smaller.",
  "all chunked arrays of whole scans, all chunkings, every number type", "all chunkings are quantified over, of all arguments independently",
  [G + "_modis_utils.pyx:136-188"])
p("Errors of the tie values are not amplified",
  "If two sets of plain tie values differ by at most e everywhere, so do the interpolated values. (False for cubic splines and for extrapolated grids; see the claim.)",
  "all pairs of sets of finite tie values, all e, in exact arithmetic", "a relation between two runs, for all values",
  [G + "interpolator.py:44-345", G + "multilinear_cython.pyx:1-300", G + "viiinterpolator.py:23-134", G + "basic_interpolator.py:43-88"])
p("Pixels stay near the tie points around them",
  "If the four tie points around a pixel all lie within d of some place on the ground, the pixel lies within 4 d of that place: no pixel is thrown far away by the pole, the antimeridian or the conversions. For the grid interpolators and for VII in cartesian mode; for simple MODIS interpolation d is first widened by (1 + 2 o) for each axis on which the pixel lies o tie points beyond the outermost ones.",
  "all tie points, pixels, places and d up to a hundredth of the Earth's radius, unless the place is within d (widened) of the half-plane of the antimeridian, in exact arithmetic", "a bound on distances over all places on the globe and all shapes of the data",
  [G + "geointerpolator.py:52-112", G + "interpolator.py:315-370", G + "viiinterpolator.py:23-178", G + "_simple_modis_interpolator.pyx:13-277"])
p("Interpolating in two steps",
  "If tie values are first interpolated to axes that contain all tie points, and the result is then used as tie values, every value of the second interpolation is what the first one would have given directly. For grid interpolators and for splines of degrees 1 and 3.",
  "all axes, tie values, finer axes and targets (inside the tie points, or extrapolating grids; splines: any target), in exact arithmetic", "relates chains of interpolations on axes of any length",
  [G + "interpolator.py:315-340"])
p("The routine for five dimensions",
  "multilinear_interpolation_5d, which nothing calls, reproduces functions that are affine in every variable and the values at the nodes, reads only inside its arrays, and stays between the least and the greatest value inside the grid.",
  "all grids with at least two nodes in each of five dimensions, all points and values, in exact arithmetic", "the code is unreachable, so no test can run it",
  [G + "multilinear_cython.pyx:271-392"])
p("Rising tie values give rising pixels",
  "If the tie values do not fall from one row (or column) to the next, neither do the interpolated values. (False for cubic splines: rows of 0, 0, 0 and 1 give negative values after the second row; see the claim.)",
  "all increasing axes, all finite tie values, all pairs of targets on a column (or row), in exact arithmetic; grid interpolators may also extrapolate along the axis in question", "relates all pairs of pixels, for all data",
  [G + "interpolator.py:44-345"])
p("Origin and units of the axes do not matter",
  "If tie positions and target positions are counted from another origin and in other units (a different one for each axis), the results are the same, and so are the exceptions. For grid and spline interpolators and their geographic versions (splines of degrees 1 and 3), inside and outside the tie points, whatever the tie values; for Interpolator objects of orders 1 and 3; and for multilinear interpolation.",
  "all axes, tie values, targets, origins and positive units, in exact arithmetic", "relates two runs, for all changes of units",
  [G + "interpolator.py:44-345", G + "geointerpolator.py:52-112", G + "multilinear_cython.pyx:1-270"])
p("Tie points further away do not matter",
  "Interpolating from a part of the tie points gives, for every pixel inside that part, the same value (or longitude and latitude) as interpolating from all of them. (False for cubic splines, where every tie point acts on every pixel; see the claim.)",
  "all axes and tie values, all contiguous parts with at least two rows and columns, all pixels inside, in exact arithmetic", "relates runs on arrays of different sizes",
  [G + "interpolator.py:306-345", G + "geointerpolator.py:52-112"])
with open(os.path.join(os.path.dirname(__file__), "..", "properties.jsonl"), "w") as f:
    for o in P:
        f.write(json.dumps(o, ensure_ascii=False) + "\n")
print(len(P))
for o in P: print(o["id"], o["title"])
