# Formal model of pangeo-pyinterp (Rocq / Coq 8.16.1)

All paths are relative to `/repo/src/pyinterp/core` unless stated otherwise.
`inc/` abbreviates `include/pyinterp/`.

## How the code is modelled

* Integers: index and calendar arithmetic is modelled on `Z` (C++ `/` and `%`
  become `Z.quot`/`Z.rem`, which truncate as C++ does). Where the property is
  about overflow the wrap `mod 2^64` is written explicitly.
* Floating point: every finite `double` is a rational number, so numerical code
  is modelled with *exact* arithmetic on `Q` (computable, axiom free). The
  theorems then say: up to rounding, the algorithm computes the stated value.
  Where rounding itself is the issue, the model uses Coq's `SpecFloat`
  binary64 (pure Gallina IEEE-754 semantics: `MathModelFloat`, `GeohashModelFloat`).
  Code using sin, exp, sqrt... is modelled on the classical reals of the
  standard library (files `Window*`, `RTree*`, `Geodesy*` and later ones importing `Reals`).
* Undefined behaviour (reads outside a vector, shift by 64, division by zero)
  and C++ exceptions are distinct outcomes of the models (`Base.outcome`:
  `Ok`/`Throw`/`UB`), never totalised away.
* NaN and infinities are options where the code tests for them.
* Threads: a worker is a list of atomic writes; a schedule is any interleaving.
* Libraries (Boost, Eigen, numpy) are either replaced by their documented
  result or are Section parameters, with their contract as an explicit
  hypothesis of the theorem (`knn_contract` for Boost's nearest iterator, shown satisfiable).

## File layout (`rocq/theories`)

`XModel.v` the model (definitions only, each citing file and lines);
`XSpec.v` the independent specification used in theorem statements;
`XProofs*.v` lemmas; `XProps*.v` the property theorems, with
`Print Assumptions`, and Examples meeting the hypotheses.
Theorem names start with the property id (`C03_...`). Suffix `_partial`: only
part of the property; `_refuted`: the property is false of the faithful model,
with a witness (these are findings about the code).

| Prefix | Code modelled |
|---|---|
| `Base, BaseProofs` | outcomes (value, exception, undefined behaviour), exact rational helpers, list helpers |
| `Math` | `inc/detail/math.hpp` remainder, normalize_angle, is_almost_zero (Q and binary64) |
| `Axis, IntAxis` | `inc/detail/axis.hpp`, `inc/axis.hpp`, `lib/axis.cpp`, `inc/temporal_axis.hpp` containers and index search |
| `Period` | `src/pyinterp/period.py` and `core/module/period.cpp`/`inc/period.hpp` |
| `Date` | `inc/dateutils.hpp`, `lib/dateutils.cpp` |
| `Geohash` | `inc/geohash/*.hpp`, `lib/geohash/{base32,int64,string}.cpp`, `src/pyinterp/geohash/` |
| `Thread` | `inc/detail/thread.hpp` dispatch |
| `Stats` | `inc/detail/math/descriptive_statistics.hpp`, `inc/descriptive_statistics.hpp` |
| `Hist, HistSer` | `inc/detail/math/streaming_histogram.hpp`, `inc/streaming_histogram.hpp`, `inc/detail/math/binning`, `inc/serialization_buffer.hpp` |
| `Fill, Relax, Loess` | `inc/fill.hpp`, `src/pyinterp/fill.py` |
| `Interp, Interp1d` | `inc/detail/interpolation/*.hpp`, `inc/interpolate1d.hpp` |
| `Grid` | `inc/bivariate.hpp`, `inc/trivariate.hpp`, `inc/detail/math/{bivariate,trivariate}.hpp`, `inc/grid.hpp` |
| `Binning, Hist2d` | `inc/binning.hpp`, `inc/histogram2d.hpp`, `src/pyinterp/{binning,histogram2d}.py` |
| `Window` | `inc/detail/math/window_functions.hpp` |
| `RTree` | `inc/detail/geometry/rtree.hpp`, `inc/rtree.hpp`, `src/pyinterp/rtree.py` |
| `Geodesy` | `inc/detail/math.hpp` (degrees), `inc/detail/geodetic/{spheroid,coordinates}.hpp` |
| `Frame` | `inc/frame.hpp`, `inc/detail/math/{frame,spline2d,bicubic}.hpp`, `inc/detail/interpolation/{interpolator_2d,bilinear,bicubic,factory_2d}.hpp`, `core/module/bicubic.cpp` |
| `Cross` | `inc/detail/geometry/crossover.hpp`, `core/lib/geodetic/crossover.cpp` |
| `Geom` | `core/lib/geodetic/{line_string,polygon,multipolygon}.cpp`, `inc/geodetic/{point,box,polygon,multipolygon,line_string,crossover}.hpp` |
| `Orbit` | `src/pyinterp/orbit.py` (without the interpolation of the ephemeris) |
| `Swath` | `inc/geodetic/swath.hpp`, `inc/detail/math/orbit.hpp` |
| `QuadForm` | quadratic forms (library) |
| `LinSolve` | linear systems, a solver that meets the contracts (library) |
| `Kernel` | positive definite functions of the distance (library) |
| `Rbf` | `inc/detail/math/{radial_basis_functions,kriging}.hpp`, `inc/detail/geometry/rtree.hpp` (radial_basis_function, universal_kriging) |
| `Kriging` | covariance functions and kriging: properties |
| `Names` | `src/pyinterp/interface.py` (names of the functions), `core/module/enum.cpp` |
| `Xarray` | `src/pyinterp/grid.py`, `src/pyinterp/backends/xarray.py`, `src/pyinterp/cf.py`, `core/module/axis.cpp` (flip): axis objects in a heap, labelled arrays |
| `GeoTree` | `core/lib/geodetic/rtree.cpp`, `inc/geodetic/rtree.hpp`, `core/module/geodetic.cpp` (copy, pickle) |
| `Dtype` | `src/pyinterp/interface.py` (_core_class_suffix, _core_function), `src/pyinterp/grid.py`, the tables of functions of `core/module/*.cpp`; numpy's casts from its documentation |
| `GeohashClass, UniformAxis` | `include/pyinterp/geohash.hpp`, `src/pyinterp/_geohash.py`, arrays of `lib/geohash/string.cpp`, `geohash/converter.py` |
| `Longitude, Vector` | `geodetic/__init__.py` (normalize_longitudes), `geodetic/algorithm.hpp`, `LineString::closest_point`, polygons of `lib/geohash/string.cpp` |
| `Temporal` | `temporal_axis.hpp`, `axis.hpp`, `module/axis.cpp`: temporal axes, slices, iteration, comparison, pickling |
| `Dask` | `binning.py`, `histogram2d.py`, `descriptive_descriptive.py`, `streaming_histogram.py`: computations on dask arrays (trees of additions, schedules) |
| `GridVec` | `bivariate.hpp`, `trivariate.hpp`, `quadrivariate.hpp`: interpolation of arrays of points |
| `GridPickle` | `grid.hpp`: pickled state of grids |
| `PyPeriod` | `period.py`: Period, PeriodList and the conversions of units of numpy |
| `LoessGrid` | `fill.hpp`: loess of whole 2-D, 3-D and 4-D grids with threads |
| `SplineArray` | `bicubic.py`, `module/bicubic.cpp`: arrays of points, checks and threads |
| `DateText` | `dateutils.hpp` datetime64_to_string: the characters written |
| `OrbitInterp` | `orbit.py` interpolate: Cartesian interpolation of an orbit |
| `Alias` | the operators `+=` on memory, statement by statement, the operands may be the same object |
| `OrbitBuild` | `orbit.py` calculate_orbit: the whole chain, numpy.interp and numpy.arange |
| `FloatAxis` | `detail/axis/container.hpp` Regular<double> with the rounding of binary64 (Flocq) |
| `FloatGrid` | `detail/axis.hpp` find_indexes, `detail/math/bivariate.hpp` Bilinear, `bivariate.hpp` with the rounding of binary64 (Flocq) |
| `FloatMulti` | `detail/math/linear.hpp`, `detail/math/trivariate.hpp`, `trivariate.hpp`, `quadrivariate.hpp` with the rounding of binary64 (Flocq) |
| `FloatCircle` | `detail/math.hpp` (remainder, normalize_angle, is_same), `detail/axis.hpp` (normalize_coordinate, find_indexes on circles) and `bivariate.hpp` with the rounding of binary64 (Flocq) |
| `FloatGeohash` | `lib/geohash/int64.cpp` (encode, both conversions of the coordinates) with the rounding of binary64 (Flocq) |
| `FloatStats` | `detail/math/descriptive_statistics.hpp`, `descriptive_statistics.hpp` (count, weights, mean, limits, sum, second moment) with the rounding of binary64 (Flocq) |
| `FillPy` | `src/pyinterp/fill.py` (matrix, vector, gauss_seidel) |

## Plan per property

| Id | Modelled | Proof |
|---|---|---|
| C01 | integer `remainder` | characterisation by Z.mod / uniqueness |
| C02 | `remainder`/`normalize_angle` over Q, and over SpecFloat | existence of integer turns; float witness |
| C03, C04, C05 | regular and irregular containers | nearest-point theorem; descending integer axis refuted |
| C06, C07, C08 | `Axis::find_indexes` | case analysis + induction on the window; kSym refuted |
| C09, C10, C11 | constructor, flip, getstate/setstate | algebra; refuted cases |
| C12-C18 | Period, PeriodList over Z instants | set semantics, induction on lists |
| C19-C25, C59 | dateutils over Z, overflow explicit | calendar successor induction, 400-year cycle |
| C26-C32, C60 | base32, int64, string geohash on N/Z bit vectors and Q coordinates | bitwise lemmas, finite sweeps lifted |
| C33, C34 | dispatch, interleavings | induction on schedules |
| C35-C37 | statistics over Q, reduction indexes | induction on sample lists, field |
| C38-C42 | streaming histogram over Q, byte-level serialisation | invariants by induction over operations |
| C43-C47 | fill: lines, matrices, Gauss-Seidel, frames | induction on lines, masks, sweeps and schedules |
| C48-C51, C62-C64 | 1-D interpolators over Q, interpolate1d | algebra (field), tridiagonal elimination by induction, histories of uses |
| C52-C55 | 2-D/3-D/4-D interpolation over Q | algebra, convexity |
| C56, C57, C65-C67 | 1-D and 2-D binning, Python operators | algebra, conservation by induction over histories |
| C58 | window functions over R | case analysis, bounds of cosine polynomials |
| C61 | Loess filter over Q | weighted mean, bounds |
| C68, C69 | grid of streaming histograms | reuse of C38-C42, induction over histories |
| C70-C74 | spatial index: contents, queries, means, relative to the contract of Boost's nearest iterator | induction over histories; weighted means |
| C75, C76 | sind, cosd, sincosd, tand, atan2d over R | quadrant arithmetic, uniqueness of polar coordinates |
| C77, C78 | lla_to_ecef, ecef_to_lla over R | algebra; exact inversion where the one-step method is exact |
| C79 | spheroid parameters over R | algebra, mean value theorem for the authalic radius |
| C80-C84 | windows of grids, spline and bicubic interpolation in 2 to 4 dimensions over Q | reuse of C06-C08 and C48-C51; tensor Hermite identity; histories of interpolator objects; induction on schedules |
| C85, C86 | unrolling, search of the intersection, nearest points over Q; Boost's intersection, distance and R-tree as parameters | windows of 360 degrees: a congruent value in a window is unique; first minimum by induction |
| C87-C89 | curvilinear sums, coordinates lists, boxes | induction on lists; case analysis |
| C90-C97 | orbit.py over Q and integer times | cyclic sequences (parity of the turning points, closure), induction on the generator, periodic sums |
| C98 | swath over R | Rodrigues' formula, algebra |
| C99 | radial basis functions over R, Eigen's FullPivLU as a parameter with a contract | positive and conditionally negative definite functions: Schur product, power series, Laplace integrals |
| C100, C101 | covariances and kriging over R, Eigen's LDLT as a parameter with a contract | same library; uniqueness of the weights |
| C102 | names and enumerations | case analysis on strings |
| C103, C104 | Python grids over a heap of axis objects | induction on the axes (mirrored indexes); two cells of the same coordinates are equal or share a line |
| C105-C107 | labelled arrays, dictionaries and enumeration orders as lists and permutations | labellings of the indexes; pigeonhole on names; enumeration order universally quantified |
| C108 | types of numpy, memory of buffers, tables of registered functions | rounding to p bits is nearest (integer arithmetic); induction over writes; case analysis of the tables |
| C109-C112 | geodetic RTree over R: contents, neighbours, means, heap of shared trees; Boost's iterator, distance and envelope as parameters (distance also as Andoyer's formula for the refutations) | induction over histories; prefix of a sorted list; interval bounds of arctangents |
| C113, C114 | memory of arrays, slices completed in any order | case analysis of the arguments; maxima of permutations |
| C115-C117 | codes as texts, reshape/flip, axes of the centres | cells of the codes (C26-C33), evenly spaced axes find each centre |
| C118 | views of buffers | case analysis of the overloads, loops over the cells |
| C119, C120 | runs of the threads of C34, computations as parameters | C34 for the runs; filters of the enumeration of C32 |
| C121 | dates as integers in a unit; numpy's astype as a floored division | searches of C03 on the converted dates, compared as attoseconds |
| C122 | CPython's slice indices, size_t arithmetic modulo 2^64, iteration by __getitem__ | induction on the loops |
| C123 | small-step execution of a tree of additions on a heap of objects ([+] of the Python classes or of the bound ones) | every step preserves the value of the tree; invariant of the values over trees; merging theorems C36, C38-C40, C65, C68 |
| C124 | the loops of GridVecModel.v over the single-point functions of GridModel.v, threads of ThreadModel.v | run_values/run_throws of the threads; every point is found or outside |
| C125 | state of a grid = states of its axes + array | equivalence of axes up to rational equality; every query is a morphism for it |
| C126 | Period objects = unit + C++ period of PeriodModel.v; instants are attoseconds, the spans of months and years come from the calendar of C19 | conversion between units is a Galois connection between counts and instants; everything reduces to C12 on counts |
| C127 | PeriodList = unit + C++ list | the theorems C13 to C18 transported to instants |
| C128 | loops of loess over rows, slices, blocks on top of the dispatch of ThreadModel.v | each loop reduces to the cell function of C61; the schedule to C34 |
| C129 | the ranges of dispatch cut the points; each part goes to a worker of FrameModel.v | the parts of the ranges are the points in order; C81 and C84 on the schedules |
| C130 | strings of characters; an independent reader of the digits and the instants of PyPeriodSpec.v | what is written is read back; the fields have constant width, so the reading is unique |
| C131 | reals; the one-dimensional interpolation is a parameter that is exact at the nodes (C63) or linear in the values | algebra on the Cartesian coordinates, C76 to C78 |
| C132 | memory of cells, every statement reads the operands where they are; iterators with validity | runs of the statements on one or two places, simulation of the functional models (C36, C41, C102) |
| C133 | chain of the steps of calculate_orbit over Q and integer times; geodesic functions as parameters | induction on the segments of numpy.interp (slopes), composition with C90 and C91 |
| C134 | every operation of Regular<double> rounded by Flocq (BinarySingleNaN) | error analysis: relative errors of each operation, no overflow under stated bounds; refutations computed on concrete binary64 numbers |
| C135 | every operation of find_indexes and Bilinear rounded by Flocq | monotonic rounding for the weights in [0, 1], exact operations at the nodes, error analysis elsewhere; the constant field refuted by computation |
| C136 | every operation of the linear, trivariate and quadrivariate interpolations rounded by Flocq | on top of C135: error of one linear interpolation, stacked; exact operations at the nodes |
| C137 | normalisation of longitudes with every operation rounded by Flocq; std::remainder exact | exactness of the remainder (representable result), error of the two additions, the number of turns is unique away from the limits; counterexamples computed in the kernel |
| C138 | the two ways of adding a sample, every operation rounded by Flocq | invariant over the samples: the step of the mean is at most the rounded half of the distance, the terms of the second moment have a sign; monotonic rounding |
| C139 | the two conversions of a coordinate into 32 bits, every operation rounded by Flocq, and the bits of the mantissa | monotonic rounding gives the range, the error of each operation the distance; the rounded quotient is an exact coordinate with the same index, then C28 |

## Trusted base

* Coq 8.16.1 kernel. (A few finite sweeps use `vm_compute`; the checker re-executes them without the VM.)
* The standard library axioms used by the classical real numbers, only for theorems over `R`:
  `ClassicalDedekindReals.sig_forall_dec`, `ClassicalDedekindReals.sig_not_dec`,
  `FunctionalExtensionality.functional_extensionality_dep`, `Classical_Prop.classic`.
  A listing of whole libraries (coqchk) also mentions `Coq.Reals.Rdefinitions.RbaseSymbolsImpl.*` and `RinvImpl.*`
  (the sealed module by which the standard library defines R) and `Coq.ssr.ssrunder.Under_rel.*`
  (module type fields of the standard library); no theorem depends on others.
* No axiom, Parameter, module type or functor of our own; Section variables are discharged and appear as hypotheses.
* The reading of the C++ and Python sources: models are hand-written, cited line by line; nothing was executed.
* Exact arithmetic in place of rounded floating point, except where said.

## Disagreements between the code and the properties (findings)

Each is a `_refuted` theorem; the note of the property in MANIFEST.json tells which. Summary:
* geohashes: by rounding, a coordinate just below a border gets the code of the cell above it (-2^-70 degrees: the cell that begins at zero) (C139)
* weighted statistics: by rounding the mean can be greater than all the samples (0 with the weight 2^-60 and 3 with the weight 187: C138)
* longitudes: the search and the interpolation normalise separately; for some longitudes just below a point of the axis (-1e-15 on 0..359, 512.55 on 0.05..359.95) the result is an extrapolation by 360 degrees (C137)
* the linear interpolation between two dates more than 2^63 units apart overflows int64 (C136)
* in binary64, a bilinear interpolation of a constant field may differ from the constant, and exceed every value of the grid (C135)
* in binary64, the pickled copy of an evenly spaced axis may differ from it ([0.3, 0.9, 1.5, 2.1]), as does an axis flipped twice; find_index of NaN or of a huge coordinate is an undefined conversion (C134)
* calculate_orbit: the duration of the cycle used by the rearrangement contains the time of the first point, which is not zero after the trimming near the equator (C133)
* h += h inserts in the vector of bins being iterated: undefined behaviour, for StreamingHistogram and Histogram2D (C132)
* orbit.interpolate changes the latitudes of the given positions on a flattened spheroid, the third coordinate being divided by the ratio of the axes without having been multiplied (C131)
* axes: descending integer axes, index windows (symmetric boundary, descending), pickling of one-point or angular axes, nearest index on descending/partial circles (C03, C05, C08, C10)
* longitude seam: bilinear interpolation and linear binning do not shift the first longitude by a turn (C53, C56)
* periods: null periods, dates after the last period, nested lists, duration (C12, C14-C17)
* dates: far dates overflow, sub-nanosecond units overflow, dtype parsed by substring (C19, C24, C25)
* geohash: cells of the last row/column, neighbours on the date line and poles, covers, several cells per code (C28, C30-C32, C60)
* statistics: weighted extremes, null weights, merges with empty statistics, axis arguments (C35-C37)
* histograms: null bin budget, huge values, stale maximum, forged buffers (C38, C40-C42, C68, C69)
* fill: default fill value, single defined value, degenerate grids (C43-C45, C47)
* interpolation: polynomial and Akima objects, periodic splines, outside points (C48, C62-C64)
* binning: pickling with a spheroid writes through an empty optional, operands of + are modified, short arrays read out of bounds (C57, C65-C67)
* window functions and their default arguments, box test `within`, returned counts, pickling of Cartesian indexes (C58, C70-C73)
* threads: unknown processor count, race on the shared exception pointer (C33, C34)
* the authalic radius of a sphere is NaN (C79)
* bicubic: boundaries 'sym', 'wrap', 'expand' near the edges, angular ordinates (C83)
* crossovers of tracks wider than 180 degrees; closest_point with arrays of different sizes; empty inner rings; corners of boxes (C85, C87-C89)
* orbit.py: nothing rearranged, level steps, numbers below 1, one step missing in the cycle, crossing at the first point, resolutions exchanged, near-equator starts (C90-C98)
* radial basis functions with one neighbour, thin plate and cubic systems, sign of smooth; kriging of constants, linear and spherical covariances, altitudes; two covariances without a usable name (C99-C102)
* increasing_axes with shared axis objects; decreasing evenly spaced dates made increasing are searched with the wrong rounding; values on the lines of the grid depend on the direction of the axes for IDW and missing values; Grid4D depends on the hash seed (C103-C107)
* geodetic RTree on another spheroid: the neighbours are those of WGS84, and window_function stops at the first one out of the radius (C110, C111)
* grids of large integers lose bits; grids of 8 bits integers in 3 or 4 dimensions are accepted by no function (C108)
* fill.matrix always fails on float32; fill.vector fails with its default fill value on dates; gauss_seidel without iteration says that it has converged (C113, C114)
* GeoHash of precision 0 is undefined behaviour, a NUL character is a digit, GeoHash.grid fails on empty covers and exchanges the units of longitudes and latitudes (C115, C117)
* normalize_longitudes does nothing on writeable arrays that are not contiguous float64; LineString.closest_point reads and writes past the end when the sizes differ; covers of polygons miss cells (C118-C120)
* temporal axes: dates in a finer unit are truncated before the search; == ignores the unit and the kind; an axis flipped in place answers otherwise after pickling (C121, C122)
* dask: push_delayed ignores dtype, range and bin_counts; a block without data corrupts the statistics; reducing an axis that is not the first merges unrelated cells (C123)
* trivariate and quadrivariate do not look at the unit of the dates given for z (C124)
* a copied temporal grid has an axis of integers instead of dates, and interpolates differently when its temporal axis was reversed in place (C125)
* Period: a week is taken as a finer unit than a month, so that a period built from a month and a week begins days too early (C126)
* Period.contains and intersects convert an argument in a longer unit to its first instant; intersects is not symmetric (C126)
* PeriodList.within and PeriodList.intersection compare numbers of different units (C127)
* PeriodList.merge raises an exception as soon as the units differ, also on PeriodList.empty() (C127)
* loess divides by zero when the Y axis has one value (C128)
* PeriodList.duration() leaves out the last date of each period, Period.duration() counts it (C127)

## Not modelled

* Boost.Geometry: geodesic distances and areas, polygon algorithms, internals of the R-tree (its nearest iterator is a parameter).
* Eigen solvers (parameters with a contract); pybind11 glue and the conversion of numpy arrays.
* dask and the Python histogram layers; what xarray and numpy do is modelled from their documentation; random number generation; I/O.
* Rounding of floating point operations, except where said; memory exhaustion.

## Print Assumptions of every theorem of MANIFEST.json

Generated from the compiled files.

**Closed under the global context (no axiom)** (588):
`C01_integer_remainder`, `C02_normalize_angle`, `C02_half_open_binary64_refuted`, `C03_int_find_index_partial`, `C03_int_inside_partial`, `C03_int_values`, `C03_int_find_indexes_partial`, `C03_int_descending_refuted`, `C04_C05_find_index_nearest`, `C04_regular_outside`, `C05_irregular_outside`, `C05_nearest_on_circle_regular_partial`, `C05_nearest_on_circle_irregular_partial`, `C05_circle_descending_refuted`, `C05_circle_bounded_refuted`, `C06_find_indexes_brackets`, `C06_find_indexes_total_inside`, `C06_find_indexes_none_outside`, `C06_documented_order_refuted`, `C07_circle_find_indexes`, `C07_angle_find_indexes`, `C08_window_indexes_valid`, `C08_window_content`, `C08_window_ascending`, `C08_symmetric_window_refuted`, `C08_descending_window_refuted`, `C09_flip_reverses`, `C09_flip_find_index`, `C10_pickle_roundtrip`, `C10_single_point_regular_refuted`, `C10_angle_lost_refuted`, `C10_same_answers`, `C11_regular_constructor`, `C11_regular_empty`, `C11_values_accepted`, `C11_values_stored`, `C11_values_exact`, `C11_tolerance_accumulates_refuted`, `C11_longitudes_same_angles`, `C11_longitudes_two_runs`, `C12_constructor`, `C12_duration`, `C12_contains`, `C12_order`, `C12_null_order`, `C12_intersection`, `C12_symmetric`, `C12_merge`, `C12_adjacent`, `C12_null_intersects_refuted`, `C13_sorted_disjoint`, `C13_sort`, `C13_merge`, `C13_chronological_ordered`, `C14_belong`, `C14_belong_past_end_refuted`, `C15_cross`, `C15_empty_dates_refuted`, `C16_join`, `C16_nested_refuted`, `C17_filter`, `C17_within`, `C17_intersection`, `C17_filter_duration_refuted`, `C17_within_is_overlap_refuted`, `C18_is_close`, `C18_list_is_close`, `C19_gregorian`, `C19_bijection`, `C19_unique`, `C19_int32_range`, `C19_far_dates_refuted`, `C19_milliseconds_in_range`, `C20_leap_year`, `C20_leap_year_bool`, `C20_days_since_january`, `C21_weekday`, `C21_weekday_all`, `C22_isocalendar`, `C22_thursday`, `C22_ranges_and_injective`, `C23_split`, `C23_time`, `C23_datetime`, `C23_refused`, `C23_resolution`, `C24_since_january`, `C24_subnanosecond_overflow_refuted`, `C25_round_trip`, `C25_parse`, `C25_substring_refuted`, `C26_roundtrip`, `C26_decode`, `C26_nul`, `C26_invalid`, `C27_bijection`, `C27_bits`, `C27_hardware`, `C28_contains`, `C28_box_partial`, `C28_box_refuted`, `C28_full_refuted`, `C28_binary64_refuted`, `C29_prefix`, `C29_text_prefix`, `C29_transform_coarser`, `C29_transform_same`, `C29_transform_finer`, `C30_decode_partial`, `C30_error`, `C30_full_refuted`, `C31_interior`, `C31_wrap_partial`, `C31_portable_east_refuted`, `C31_portable_west_refuted`, `C31_pole_refuted`, `C32_order`, `C32_content`, `C32_cover_partial`, `C32_cover_refuted`, `C33_partition`, `C33_no_hardware_refuted`, `C34_result`, `C34_error`, `C34_terminates`, `C34_race_free`, `C34_exception_race_refuted`, `C35_statistics`, `C35_weighted`, `C35_no_data`, `C35_weighted_extremes_refuted`, `C35_null_weight_refuted`, `C36_merge`, `C36_chunks`, `C36_order`, `C36_empty_extremes_refuted`, `C36_empty_empty_refuted`, `C37_reduction`, `C37_indices`, `C37_bad_axis`, `C37_no_axes_refuted`, `C37_unit_dimension_refuted`, `C38_budget_sorted`, `C38_zero_bins_refuted`, `C38_huge_refuted`, `C39_conservation`, `C39_exact`, `C40_minimum`, `C40_maximum_partial`, `C40_maximum_refuted`, `C40_weighted_refuted`, `C41_quantile`, `C41_domain`, `C41_weighted_refuted`, `C42_roundtrip`, `C42_truncated`, `C42_array_roundtrip`, `C42_array_truncated`, `C42_forged_refuted`, `C43_line`, `C43_line_too_few`, `C43_line_affine`, `C43_line_int`, `C43_vector_default_fill_refuted`, `C43_vector_fill`, `C44_matrix_rows`, `C44_matrix_preserves_partial`, `C44_matrix_complete`, `C44_matrix_too_few`, `C44_single_defined_refuted`, `C45_no_nan`, `C45_gauss_seidel`, `C45_hull`, `C45_hull_zonal`, `C45_residual`, `C45_degenerate_refuted`, `C46_race_free`, `C46_sweep_deterministic`, `C46_sweep_exists`, `C46_gauss_seidel`, `C46_gauss_seidel_exists`, `C47_frame_reflect`, `C47_mirror_spec`, `C47_frame_wrap`, `C47_frame_total`, `C47_frame_single_refuted`, `C48_linear`, `C48_steffen`, `C48_cspline`, `C48_cspline_periodic_partial`, `C48_cspline_periodic_three_refuted`, `C48_akima_node_value_partial`, `C48_akima_line_partial`, `C48_akima_refuted`, `C48_polynomial_first_two_partial`, `C48_polynomial_refuted`, `C48_polynomial_line_partial`, `C48_polynomial_line_refuted`, `C48_outside`, `C48_outside_throws_refuted`, `C48_cspline_periodic_outside_partial`, `C48_cspline_periodic_two_partial`, `C49_linear`, `C49_exact_on_lines`, `C50_monotone`, `C50_steffen_slopes`, `C51_natural_spline`, `C51_periodic_spline_partial`, `C52_bilinear`, `C52_nodes`, `C52_bounded`, `C52_surfaces`, `C52_outside`, `C52_node_beside_missing_refuted`, `C53_cells_partial`, `C53_seam_formula`, `C53_seam_wrong`, `C53_seam_refuted`, `C53_descending_refuted`, `C54_idw`, `C54_nearest`, `C54_node`, `C55_methods`, `C55_method_names`, `C55_levels`, `C55_outside`, `C55_hyper_levels`, `C55_hyper_outside`, `C55_bounded`, `C55_nodes`, `C55_undefined_level`, `C56_simple`, `C56_one_bin`, `C56_simple_total`, `C56_sizes`, `C56_seam_refuted`, `C56_linear_partial`, `C56_shares`, `C56_linear_total_partial`, `C56_weights_unit`, `C56_linear_seam_refuted`, `C56_linear_lost_refuted`, `C57_pickle_partial`, `C57_same_pushes_partial`, `C57_spheroid_refuted`, `C57_quadrant_refuted`, `C59_months`, `C59_hours`, `C59_minutes`, `C59_weeks_years`, `C60_keys`, `C60_inside`, `C60_rectangle_partial`, `C60_two_cells_refuted`, `C61_loess`, `C61_filled`, `C61_constant`, `C61_window_size`, `C61_weighted_mean`, `C62_history_independent_partial`, `C62_periodic_spline_partial`, `C62_periodic_spline_refuted`, `C63_window`, `C63_pointwise_partial`, `C63_linear_whole`, `C63_steffen_whole`, `C63_small_window_throws`, `C63_bounds_error_refuted`, `C63_outside_is_missing_refuted`, `C63_periodic_spline_order_refuted`, `C63_longitude_refuted`, `C64_linear`, `C64_steffen`, `C64_cspline`, `C64_cspline_periodic_partial`, `C64_akima`, `C64_polynomial_refuted`, `C65_history`, `C65_incremental`, `C65_merge_linear`, `C65_incompatible`, `C65_angle_refuted`, `C66_push_partial`, `C66_range`, `C66_short_values_refuted`, `C66_short_weights_refuted`, `C66_circle_refuted`, `C66_pickle`, `C67_value_partial`, `C67_left_operand_refuted`, `C67_count_refuted`, `C68_history`, `C68_incompatible`, `C68_sizes`, `C68_zero_bins_refuted`, `C69_histograms`, `C69_roundtrip`, `C69_truncated`, `C69_other_shape`, `C69_forged_refuted`, `C80_outside`, `C80_missing`, `C80_local`, `C81_spline`, `C81_exact`, `C81_small_window_throws`, `C81_schedule`, `C82_bicubic`, `C82_exact`, `C82_bilinear`, `C82_small_window_throws`, `C83_sym_refuted`, `C83_wrap_refuted`, `C83_angular_ordinate_refuted`, `C83_expand_node_refuted`, `C84_layers`, `C84_hyper_layers`, `C84_outside`, `C84_hyper_outside`, `C84_schedule`, `C84_hyper_schedule`, `C85_unrolled`, `C85_meets`, `C85_half_orbits`, `C85_short`, `C85_wide_refuted`, `C86_crossover`, `C86_list`, `C86_rejects`, `C86_agree`, `C86_on_both_tracks`, `C86_none_iff_disjoint`, `C86_geodetic`, `C87_sum_of_segments`, `C87_monotone`, `C87_chord`, `C87_closest_each`, `C87_closest_sizes_refuted`, `C88_line`, `C88_line_items`, `C88_crossover`, `C88_polygon`, `C88_multipolygon`, `C88_bad_point`, `C88_empty_ring_refuted`, `C89_new`, `C89_pickle`, `C89_new_pickle`, `C89_setter_refuted`, `C89_latitudes_refuted`, `C89_geojson`, `C90_unchanged`, `C90_single_turn`, `C90_constant_latitude`, `C90_rearranged_refuted`, `C91_pass_starts`, `C91_even`, `C91_monotone`, `C91_level_refuted`, `C91_mid_pass_refuted`, `C92_decode_encode`, `C92_encode_decode`, `C92_next`, `C92_encode_rejects`, `C92_nonpositive_refuted`, `C93_pass_duration`, `C93_total`, `C93_cycle_duration_refuted`, `C93_iterate`, `C93_epoch_refuted`, `C93_orbit_duration`, `C94_partition`, `C94_points`, `C94_number_refuted`, `C94_pass`, `C95_segment`, `C95_crossing`, `C95_first_point_refuted`, `C96_x_ac`, `C96_consistent`, `C96_resolution_refuted`, `C96_extent`, `C96_zero_gap_refuted`, `C96_mask`, `C96_central_pixel`, `C97_only_turns`, `C97_track_lost_refuted`, `C97_untouched`, `C102_windows`, `C102_windows_only`, `C102_radial`, `C102_radial_only`, `C102_covariances_partial`, `C102_covariances_only`, `C102_covariances_refuted`, `C102_defaults`, `C103_inplace`, `C103_copy`, `C103_mode`, `C103_ascending`, `C103_again`, `C103_again_refuted`, `C103_shared_refuted`, `C103_error_refuted`, `C103_later_refuted`, `C103_ex`, `C104_bilinear`, `C104_trilinear`, `C104_increasing`, `C104_ex`, `C104_off_lines`, `C104_nearest`, `C104_gap2_ex`, `C104_idw_refuted`, `C104_missing_refuted`, `C105_grid2`, `C105_grid3`, `C105_grid4`, `C105_faithful`, `C105_refused`, `C105_storage`, `C105_storage_values`, `C105_ex`, `C105_descending_dates_refuted`, `C105_coordinates_refuted`, `C105_durations_refuted`, `C106_order`, `C106_route`, `C106_names`, `C106_ex`, `C107_time`, `C107_methods_refuted`, `C107_methods`, `C107_methods_ex`, `C108_class`, `C108_values`, `C108_values_refuted`, `C108_memory`, `C108_functions_partial`, `C108_functions_refuted`, `C110_arrays`, `C113_matrix_partial`, `C113_matrix_float32_refuted`, `C113_matrix_refused`, `C113_vector_partial`, `C113_vector_default_refuted`, `C113_vector_strided_refuted`, `C113_ex`, `C114_slices`, `C114_order`, `C114_no_iteration_refuted`, `C114_ex`, `C115_position`, `C115_turns`, `C115_text`, `C115_box`, `C115_integer`, `C115_neighbors_partial`, `C115_refused`, `C115_empty_refuted`, `C115_nul_refuted`, `C115_error`, `C116_arrays`, `C116_refused`, `C116_to_xarray`, `C117_grid`, `C117_empty_refuted`, `C117_units_refuted`, `C118_in_place`, `C118_read_only`, `C118_unchanged`, `C118_writeable_refuted`, `C119_distances`, `C119_covered_by`, `C119_closest`, `C119_sizes_refuted`, `C120_cover`, `C120_complete_partial`, `C120_cover_refuted`, `C121_safe_cast`, `C121_same_unit`, `C121_refused`, `C121_find_indexes`, `C121_find_index`, `C121_after_last_refuted`, `C121_nearest_refuted`, `C121_units`, `C122_slice`, `C122_slice_int`, `C122_item`, `C122_list`, `C122_find`, `C122_eq_int`, `C122_eq_refuted`, `C122_copies`, `C122_copies_refuted`, `C123_binning2d`, `C123_linear`, `C123_dtype_refuted`, `C123_binning1d_partial`, `C123_range_refuted`, `C123_histogram2d_partial`, `C123_bin_counts_refuted`, `C123_statistics`, `C123_missing_refuted`, `C123_axis`, `C123_axis_refuted`, `C123_streaming`, `C124_bivariate`, `C124_trivariate`, `C124_quadrivariate`, `C124_threads`, `C124_chunks`, `C124_units_refuted`, `C125_grid2`, `C125_grid3`, `C125_grid4`, `C125_dates_refuted`, `C125_angle_refuted`, `C125_flipped_refuted`, `C126_units`, `C126_cast`, `C126_constructor`, `C126_constructor_units`, `C126_weeks_refuted`, `C126_copy`, `C126_duration`, `C126_dates`, `C126_periods`, `C126_same_unit`, `C126_equal`, `C126_as_resolution`, `C126_duration_refuted`, `C126_coarse_refuted`, `C126_adjacent_refuted`, `C126_order_refuted`, `C127_constructor`, `C127_constructor_refused`, `C127_copy`, `C127_belong`, `C127_cross`, `C127_lengths`, `C127_is_close`, `C127_join`, `C127_filter`, `C127_filter_refuted`, `C127_restrict`, `C127_restrict_units_refuted`, `C127_merge`, `C127_sort`, `C127_merge_units_refuted`, `C127_empty`, `C127_durations_refuted`, `C128_windows`, `C128_grid2`, `C128_grid3`, `C128_grid4`, `C128_threads`, `C128_value_type`, `C128_single_row_refuted`, `C129_refused`, `C129_grid2`, `C129_grid3`, `C129_grid4`, `C129_threads`, `C130_text`, `C130_one_instant`, `C130_injective`, `C130_iso_refuted`, `C132_statistics`, `C132_array`, `C132_binning`, `C132_twice`, `C132_histogram`, `C132_self_refuted`, `C132_self_array_refuted`, `C132_grids`, `C132_self_list_refuted`, `C133_points`, `C133_times`, `C133_interpolated`, `C133_positions`, `C133_zero_resolution`, `C133_prepared`, `C133_rearranged`, `C133_seam`, `C133_seam_refuted`, `C133_orbit`.

**Axioms `ClassicalDedekindReals.sig_forall_dec`, `ClassicalDedekindReals.sig_not_dec`, `Classical_Prop.classic`, `FunctionalExtensionality.functional_extensionality_dep`** (99):
`C58_windows_partial`, `C58_lanczos_partial`, `C58_lanczos_inside_partial`, `C58_tapering_partial`, `C72_idw`, `C73_window`, `C73_python`, `C76_atan2`, `C76_inverse`, `C76_atan`, `C78_longitude`, `C78_meridian`, `C78_symmetric`, `C78_centre`, `C78_equator_partial`, `C78_poles_partial`, `C78_sphere_partial`, `C79_mean_radii`, `C79_authalic`, `C79_authalic_sphere_refuted`, `C98_swath`, `C98_short_refuted`, `C99_interpolation`, `C99_nodes`, `C99_superposition`, `C99_order`, `C99_isometry`, `C99_default_epsilon`, `C99_functions`, `C99_monotone`, `C99_one_neighbour_refuted`, `C99_thin_plate_refuted`, `C99_cubic_refuted`, `C99_smooth_refuted`, `C99_neighbours`, `C100_maximum`, `C100_decreasing`, `C100_positive_definite`, `C101_nodes`, `C101_spherical_partial`, `C101_sigma`, `C101_constant_refuted`, `C110_spheroid_refuted`, `C111_idw`, `C111_window_partial`, `C111_window_refuted`, `C114_relaxation`, `C131_longitudes`, `C131_sphere`, `C131_equator`, `C131_poles`, `C131_rotation`, `C134_points`, `C134_ordered`, `C134_find_index`, `C134_own_points`, `C134_flip`, `C134_pickle`, `C134_far_refuted`, `C134_pickle_refuted`, `C134_flip_twice_refuted`, `C134_last_refuted`, `C134_ex`, `C135_find_indexes`, `C135_outside`, `C135_nodes`, `C135_close`, `C135_range`, `C135_constant_refuted`, `C135_ex`, `C136_nodes_3d`, `C136_nodes_4d`, `C136_close_3d`, `C136_close_4d`, `C136_dates`, `C136_dates_refuted`, `C136_ex`, `C137_remainder`, `C137_normalize`, `C137_in_range`, `C137_turns`, `C137_seam`, `C137_below_refuted`, `C137_far_refuted`, `C137_ex`, `C138_array`, `C138_axis`, `C138_constant`, `C138_mean_close`, `C138_weighted_refuted`, `C138_large_refuted`, `C138_ex`, `C139_near_partial`, `C139_cell_partial`, `C139_prefix`, `C139_decode`, `C139_example`, `C139_boundary_refuted`, `C139_pole_refuted`.

**Axioms `ClassicalDedekindReals.sig_forall_dec`, `ClassicalDedekindReals.sig_not_dec`, `FunctionalExtensionality.functional_extensionality_dep`** (50):
`C58_parzen_partial`, `C58_centre_partial`, `C58_centre_arg_partial`, `C58_flat_top_refuted`, `C58_parzen_refuted`, `C58_lanczos_refuted`, `C58_lanczos_default_refuted`, `C58_null_radius_refuted`, `C71_within_geodetic_refuted`, `C71_contract_ex`, `C71_query`, `C71_sorted`, `C71_distance`, `C71_ball`, `C71_within_refuted`, `C72_count_refuted`, `C73_flat_top_refuted`, `C73_lanczos_default_refuted`, `C74_value`, `C74_nearest`, `C75_degrees`, `C75_tangent`, `C75_quarters`, `C77_surface`, `C77_normal`, `C77_altitude`, `C77_turns`, `C77_injective`, `C79_eccentricity`, `C79_curvature`, `C79_geocentric`, `C98_pixels`, `C98_rotation`, `C98_angle`, `C98_distance`, `C98_motionless_refuted`, `C99_contracts_ex`, `C100_documented`, `C100_synonyms`, `C100_documented_refuted`, `C100_symmetric`, `C100_linear_refuted`, `C101_contract_ex`, `C101_parameters`, `C101_superposition`, `C101_isometry`, `C101_linear_refuted`, `C101_neighbours`, `C131_turns`, `C131_latitudes_refuted`.

**Axioms `ClassicalDedekindReals.sig_forall_dec`, `FunctionalExtensionality.functional_extensionality_dep`** (16):
`C70_contents_partial`, `C70_ecef_pickle_refuted`, `C70_bounds_refuted`, `C75_reduced`, `C109_contents`, `C109_sizes`, `C109_longitudes`, `C109_ex`, `C110_contract_ex`, `C110_query`, `C110_longitudes`, `C111_selected`, `C112_copy`, `C112_pickle`, `C112_change`, `C112_ex`.

**Axioms `ClassicalDedekindReals.sig_forall_dec`** (3):
`C70_shapes`, `C101_altitude_refuted`, `C101_ecef_convert`.
