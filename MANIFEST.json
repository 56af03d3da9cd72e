{
 "claims": [
  {
   "property": "C01",
   "status": "proved",
   "theorems": [
    "C01_integer_remainder"
   ],
   "note": ""
  },
  {
   "property": "C02",
   "status": "proved",
   "theorems": [
    "C02_normalize_angle",
    "C02_half_open_binary64_refuted"
   ],
   "note": "Proved in exact arithmetic as stated; the second sentence (binary64 returns the upper bound) is C02_half_open_binary64_refuted."
  },
  {
   "property": "C03",
   "status": "partial",
   "theorems": [
    "C03_int_find_index_partial",
    "C03_int_inside_partial",
    "C03_int_values",
    "C03_int_find_indexes_partial",
    "C03_int_descending_refuted"
   ],
   "note": "Proved for axes built from ascending values and their flips; for descending values the property is false of the code (C03_int_descending_refuted): step_2_ has the wrong sign. int64 overflow not modelled."
  },
  {
   "property": "C04",
   "status": "proved",
   "theorems": [
    "C04_C05_find_index_nearest",
    "C04_regular_outside"
   ],
   "note": "Exact arithmetic; all reachable axes, incl. flipped and restored ones. With the rounding of binary64: C134."
  },
  {
   "property": "C05",
   "status": "partial",
   "theorems": [
    "C04_C05_find_index_nearest",
    "C05_irregular_outside",
    "C05_nearest_on_circle_regular_partial",
    "C05_nearest_on_circle_irregular_partial",
    "C05_circle_descending_refuted",
    "C05_circle_bounded_refuted"
   ],
   "note": "Non-angular axes: proved in full. On circular axes: nearest on the circle proved for ascending axes (bounded=false); refuted for descending axes and for bounded=true."
  },
  {
   "property": "C06",
   "status": "proved",
   "theorems": [
    "C06_find_indexes_brackets",
    "C06_find_indexes_total_inside",
    "C06_find_indexes_none_outside",
    "C06_documented_order_refuted"
   ],
   "note": "Adjacent indexes in either order; documented order self[i0]<=x<=self[i1] proved for ascending axes and refuted for descending ones."
  },
  {
   "property": "C07",
   "status": "proved",
   "theorems": [
    "C07_circle_find_indexes",
    "C07_angle_find_indexes"
   ],
   "note": "Axes with at least two points."
  },
  {
   "property": "C08",
   "status": "partial",
   "theorems": [
    "C08_window_indexes_valid",
    "C08_window_content",
    "C08_window_ascending",
    "C08_symmetric_window_refuted",
    "C08_descending_window_refuted"
   ],
   "note": "Validity proved for every boundary, except kSym with half size > len (refuted: index -1). Content theorem for half size <= len. Windows on descending axes repeat indexes (refuted)."
  },
  {
   "property": "C09",
   "status": "partial",
   "theorems": [
    "C09_flip_reverses",
    "C09_flip_find_index"
   ],
   "note": "Exact arithmetic. With the rounding of binary64 an axis flipped twice may differ from itself (C134_flip_twice_refuted) by a few units in the last place (C134_flip)."
  },
  {
   "property": "C10",
   "status": "partial",
   "theorems": [
    "C10_pickle_roundtrip",
    "C10_single_point_regular_refuted",
    "C10_angle_lost_refuted",
    "C10_same_answers"
   ],
   "note": "Proved for >=2 points or irregular axes whose angle flag coincides with circularity; refuted otherwise. Exact arithmetic: in binary64 the copy of an evenly spaced axis may differ from it by a few units in the last place (C134_pickle, C134_pickle_refuted)."
  },
  {
   "property": "C11",
   "status": "partial",
   "theorems": [
    "C11_regular_constructor",
    "C11_regular_empty",
    "C11_values_accepted",
    "C11_values_stored",
    "C11_values_exact",
    "C11_tolerance_accumulates_refuted",
    "C11_longitudes_same_angles",
    "C11_longitudes_two_runs"
   ],
   "note": "Exact arithmetic; in binary64 the last point may differ from the value given (C134_last_refuted). Plus acceptance and storage theorems for Axis(values); accumulation of the tolerance exhibited."
  },
  {
   "property": "C12",
   "status": "proved",
   "theorems": [
    "C12_constructor",
    "C12_duration",
    "C12_contains",
    "C12_order",
    "C12_null_order",
    "C12_intersection",
    "C12_symmetric",
    "C12_merge",
    "C12_adjacent",
    "C12_null_intersects_refuted"
   ],
   "note": "All set-algebra clauses proved for periods with at least one instant; the one null-period oddity (intersects true for a null period) is exhibited by C12_null_intersects_refuted."
  },
  {
   "property": "C13",
   "status": "proved",
   "theorems": [
    "C13_sorted_disjoint",
    "C13_sort",
    "C13_merge",
    "C13_chronological_ordered"
   ],
   "note": ""
  },
  {
   "property": "C14",
   "status": "partial",
   "theorems": [
    "C14_belong",
    "C14_belong_past_end_refuted"
   ],
   "note": "Flags proved exact when every date is at or before the end of some period; the no-out-of-range-read part is false of the code and the exact condition is proved (C14_belong_past_end_refuted)."
  },
  {
   "property": "C15",
   "status": "partial",
   "theorems": [
    "C15_cross",
    "C15_empty_dates_refuted"
   ],
   "note": "Proved for every non-empty date vector; an empty vector reads dates[-1] (C15_empty_dates_refuted)."
  },
  {
   "property": "C16",
   "status": "proved",
   "theorems": [
    "C16_join",
    "C16_nested_refuted"
   ],
   "note": "For chronological disjoint lists; for nested lists coverage can be lost (C16_nested_refuted)."
  },
  {
   "property": "C17",
   "status": "proved",
   "theorems": [
    "C17_filter",
    "C17_within",
    "C17_intersection",
    "C17_filter_duration_refuted",
    "C17_within_is_overlap_refuted"
   ],
   "note": "Plus two observations: filter counts instants while PeriodList.duration() reports last-begin; within keeps overlapping periods."
  },
  {
   "property": "C18",
   "status": "proved",
   "theorems": [
    "C18_is_close",
    "C18_list_is_close"
   ],
   "note": ""
  },
  {
   "property": "C19",
   "status": "proved",
   "theorems": [
    "C19_gregorian",
    "C19_bijection",
    "C19_unique",
    "C19_int32_range",
    "C19_far_dates_refuted",
    "C19_milliseconds_in_range"
   ],
   "note": "Over unbounded integers; C19_int32_range proves that the C++ int/unsigned intermediates cannot overflow for |days| <= 7.84e11 and C19_milliseconds_in_range that every int64 timestamp finer than the second is in that range; second-resolution timestamps beyond it overflow (C19_far_dates_refuted)."
  },
  {
   "property": "C20",
   "status": "proved",
   "theorems": [
    "C20_leap_year",
    "C20_leap_year_bool",
    "C20_days_since_january"
   ],
   "note": ""
  },
  {
   "property": "C21",
   "status": "proved",
   "theorems": [
    "C21_weekday",
    "C21_weekday_all"
   ],
   "note": ""
  },
  {
   "property": "C22",
   "status": "proved",
   "theorems": [
    "C22_isocalendar",
    "C22_thursday",
    "C22_ranges_and_injective"
   ],
   "note": "Stated through the week's Thursday."
  },
  {
   "property": "C23",
   "status": "proved",
   "theorems": [
    "C23_split",
    "C23_time",
    "C23_datetime",
    "C23_refused",
    "C23_resolution"
   ],
   "note": ""
  },
  {
   "property": "C24",
   "status": "partial",
   "theorems": [
    "C24_since_january",
    "C24_subnanosecond_overflow_refuted"
   ],
   "note": "Proved for s, ms, us, ns; for ps, fs, as the exact overflow condition (instants before 1970) is proved."
  },
  {
   "property": "C25",
   "status": "partial",
   "theorems": [
    "C25_round_trip",
    "C25_parse",
    "C25_substring_refuted"
   ],
   "note": "Round trip and exact parse specification proved; text around a dtype is not refused (regex_search)."
  },
  {
   "property": "C26",
   "status": "proved",
   "theorems": [
    "C26_roundtrip",
    "C26_decode",
    "C26_nul",
    "C26_invalid"
   ],
   "note": ""
  },
  {
   "property": "C27",
   "status": "proved",
   "theorems": [
    "C27_bijection",
    "C27_bits",
    "C27_hardware"
   ],
   "note": "The processor-specific encoder agrees with the portable one for every point of the map (exact arithmetic)."
  },
  {
   "property": "C28",
   "status": "partial",
   "theorems": [
    "C28_contains",
    "C28_box_partial",
    "C28_box_refuted",
    "C28_full_refuted",
    "C28_binary64_refuted"
   ],
   "note": "Containment and uniqueness proved at every precision; the bounding box call itself is refused for the last column at 63 and 64 bits, and binary64 rounding just below 90 degrees breaks both encoders (refuted theorems)."
  },
  {
   "property": "C29",
   "status": "proved",
   "theorems": [
    "C29_prefix",
    "C29_text_prefix",
    "C29_transform_coarser",
    "C29_transform_same",
    "C29_transform_finer"
   ],
   "note": ""
  },
  {
   "property": "C30",
   "status": "partial",
   "theorems": [
    "C30_decode_partial",
    "C30_error",
    "C30_full_refuted"
   ],
   "note": "Proved up to 62 bits and away from the borders at 63/64; at 64 bits border codes cannot be decoded."
  },
  {
   "property": "C31",
   "status": "partial",
   "theorems": [
    "C31_interior",
    "C31_wrap_partial",
    "C31_portable_east_refuted",
    "C31_portable_west_refuted",
    "C31_pole_refuted"
   ],
   "note": "Interior cells on both paths and antimeridian wrap on the BMI2 path; the portable path does not wrap and the poles wrap to the opposite pole (refuted theorems)."
  },
  {
   "property": "C32",
   "status": "partial",
   "theorems": [
    "C32_order",
    "C32_content",
    "C32_cover_partial",
    "C32_cover_refuted"
   ],
   "note": "Order, uniqueness and exact content proved; the list covers a box made of whole cells only."
  },
  {
   "property": "C33",
   "status": "proved",
   "theorems": [
    "C33_partition",
    "C33_no_hardware_refuted"
   ],
   "note": "For a known processor count; hardware_concurrency() = 0 with the default thread count divides by zero (C33_no_hardware_refuted)."
  },
  {
   "property": "C34",
   "status": "proved",
   "theorems": [
    "C34_result",
    "C34_error",
    "C34_terminates",
    "C34_race_free",
    "C34_exception_race_refuted"
   ],
   "note": "All interleavings of worker steps, results, errors, termination and absence of conflicting element writes; the shared exception pointer is written without synchronisation (C34_exception_race_refuted)."
  },
  {
   "property": "C35",
   "status": "partial",
   "theorems": [
    "C35_statistics",
    "C35_weighted",
    "C35_no_data",
    "C35_weighted_extremes_refuted",
    "C35_null_weight_refuted"
   ],
   "note": "Proved without weights; with positive weights everything but min/max, which are those of weight*value (C35_weighted_extremes_refuted); null first weight loses the count."
  },
  {
   "property": "C36",
   "status": "partial",
   "theorems": [
    "C36_merge",
    "C36_chunks",
    "C36_order",
    "C36_empty_extremes_refuted",
    "C36_empty_empty_refuted"
   ],
   "note": "Moments for all operands with some data; extremes for non-empty operands; empty operands pollute min/max and two empty operands give NaN forever (refuted theorems)."
  },
  {
   "property": "C37",
   "status": "partial",
   "theorems": [
    "C37_reduction",
    "C37_indices",
    "C37_bad_axis",
    "C37_no_axes_refuted",
    "C37_unit_dimension_refuted"
   ],
   "note": "Proved for canonical C strides; empty axes, null strides and non canonical strides of unit dimensions are exhibited as refuted."
  },
  {
   "property": "C38",
   "status": "proved",
   "theorems": [
    "C38_budget_sorted",
    "C38_zero_bins_refuted",
    "C38_huge_refuted"
   ],
   "note": "For a positive budget and values whose differences do not overflow; bin_count 0 and differences >= DBL_MAX are undefined behaviour (refuted theorems)."
  },
  {
   "property": "C39",
   "status": "proved",
   "theorems": [
    "C39_conservation",
    "C39_exact"
   ],
   "note": "Plus exactness while there are at most bin_count samples."
  },
  {
   "property": "C40",
   "status": "partial",
   "theorems": [
    "C40_minimum",
    "C40_maximum_partial",
    "C40_maximum_refuted",
    "C40_weighted_refuted"
   ],
   "note": "Minimum proved (unit weights); maximum proved when some value >= DBL_MIN, refuted for negative/null data (max_ starts at numeric_limits::min()); with weights the extremes are those of weight*value."
  },
  {
   "property": "C41",
   "status": "partial",
   "theorems": [
    "C41_quantile",
    "C41_domain",
    "C41_weighted_refuted"
   ],
   "note": "Unit weights: existence (no out-of-range read), bounds, end points and monotonicity; refuted with weights."
  },
  {
   "property": "C42",
   "status": "proved",
   "theorems": [
    "C42_roundtrip",
    "C42_truncated",
    "C42_array_roundtrip",
    "C42_array_truncated",
    "C42_forged_refuted"
   ],
   "note": "One histogram and arrays, every truncation point; forged sizes >= 2^63 are undefined behaviour (C42_forged_refuted)."
  },
  {
   "property": "C43",
   "status": "proved",
   "theorems": [
    "C43_line",
    "C43_line_too_few",
    "C43_line_affine",
    "C43_line_int",
    "C43_vector_default_fill_refuted",
    "C43_vector_fill"
   ],
   "note": "Double lines in exact arithmetic and int64 lines; C43_vector_default_fill_refuted: with the largest int64 as fill value (the library's own marker) fill.vector recognises nothing. Overflow of int64 differences is not modelled."
  },
  {
   "property": "C44",
   "status": "partial",
   "theorems": [
    "C44_matrix_rows",
    "C44_matrix_preserves_partial",
    "C44_matrix_complete",
    "C44_matrix_too_few",
    "C44_single_defined_refuted"
   ],
   "note": "Proved for rows with at least two defined cells, with completeness; a row with a single defined cell can be overwritten (C44_single_defined_refuted)."
  },
  {
   "property": "C45",
   "status": "proved",
   "theorems": [
    "C45_no_nan",
    "C45_gauss_seidel",
    "C45_hull",
    "C45_hull_zonal",
    "C45_residual",
    "C45_degenerate_refuted"
   ],
   "note": "Exact arithmetic; C45_degenerate_refuted: one-column grids (or one-row non circular grids) are read out of bounds."
  },
  {
   "property": "C46",
   "status": "proved",
   "theorems": [
    "C46_race_free",
    "C46_sweep_deterministic",
    "C46_sweep_exists",
    "C46_gauss_seidel",
    "C46_gauss_seidel_exists"
   ],
   "note": "Instruction-level interleavings (loads/stores) of any number of threads; no data race; determinism of the whole relaxation."
  },
  {
   "property": "C47",
   "status": "proved",
   "theorems": [
    "C47_frame_reflect",
    "C47_mirror_spec",
    "C47_frame_wrap",
    "C47_frame_total",
    "C47_frame_single_refuted"
   ],
   "note": "C47_frame_single_refuted: division by zero on axes of one value."
  },
  {
   "property": "C48",
   "status": "partial",
   "theorems": [
    "C48_linear",
    "C48_steffen",
    "C48_cspline",
    "C48_cspline_periodic_partial",
    "C48_cspline_periodic_three_refuted",
    "C48_akima_node_value_partial",
    "C48_akima_line_partial",
    "C48_akima_refuted",
    "C48_polynomial_first_two_partial",
    "C48_polynomial_refuted",
    "C48_polynomial_line_partial",
    "C48_polynomial_line_refuted",
    "C48_outside",
    "C48_outside_throws_refuted",
    "C48_cspline_periodic_outside_partial",
    "C48_cspline_periodic_two_partial"
   ],
   "note": "Proved for linear, Steffen and cubic splines after any use, and for the periodic spline on 2 points or on 4 points or more (when no earlier call had more points; 3 points read outside a matrix). False for Akima (a wrong slope is read; exact value at every node proved, correct on straight lines) and polynomial interpolation (only the first two nodes are hit in general); outside the data these two throw a number instead of returning NaN."
  },
  {
   "property": "C49",
   "status": "proved",
   "theorems": [
    "C49_linear",
    "C49_exact_on_lines"
   ],
   "note": ""
  },
  {
   "property": "C50",
   "status": "proved",
   "theorems": [
    "C50_monotone",
    "C50_steffen_slopes"
   ],
   "note": ""
  },
  {
   "property": "C51",
   "status": "partial",
   "theorems": [
    "C51_natural_spline",
    "C51_periodic_spline_partial"
   ],
   "note": "Natural spline: proved for all data and histories (C2 spline through the nodes, natural ends, no division by zero). Periodic spline: proved when no earlier call of the object had more points (see C62)."
  },
  {
   "property": "C52",
   "status": "partial",
   "theorems": [
    "C52_bilinear",
    "C52_nodes",
    "C52_bounded",
    "C52_surfaces",
    "C52_outside",
    "C52_node_beside_missing_refuted"
   ],
   "note": "Bilinear interpolation on non-angular axes of any kind: value of the cell containing the point, exact at nodes and on bilinear surfaces, bounded, missing or error outside. Refuted: a point on a node is missing when another corner of its cell is missing. Exact rationals instead of doubles."
  },
  {
   "property": "C53",
   "status": "partial",
   "theorems": [
    "C53_cells_partial",
    "C53_seam_formula",
    "C53_seam_wrong",
    "C53_seam_refuted",
    "C53_descending_refuted"
   ],
   "note": "Proved inside the cells of ascending angular axes. In the cell between the last and the first longitude the claim is false of the code: the first longitude is not shifted by a turn (C53_seam_formula, C53_seam_wrong, C53_seam_refuted); it is also false at the last node of a descending circular axis."
  },
  {
   "property": "C54",
   "status": "proved",
   "theorems": [
    "C54_idw",
    "C54_nearest",
    "C54_node"
   ],
   "note": "Grid interpolators InverseDistanceWeighting and Nearest, for an arbitrary distance function (Boost's is a parameter), on any axes including the seam."
  },
  {
   "property": "C55",
   "status": "proved",
   "theorems": [
    "C55_methods",
    "C55_method_names",
    "C55_levels",
    "C55_outside",
    "C55_hyper_levels",
    "C55_hyper_outside",
    "C55_bounded",
    "C55_nodes",
    "C55_undefined_level"
   ],
   "note": "3-D and 4-D reduce to interpolation of the 2-D/3-D answers of the two surrounding levels for every bivariate interpolator; methods linear and nearest; trilinear bounded and exact at nodes. The bilinear part inherits the C53 limitation on circular longitudes."
  },
  {
   "property": "C56",
   "status": "partial",
   "theorems": [
    "C56_simple",
    "C56_one_bin",
    "C56_simple_total",
    "C56_sizes",
    "C56_seam_refuted",
    "C56_linear_partial",
    "C56_shares",
    "C56_linear_total_partial",
    "C56_weights_unit",
    "C56_linear_seam_refuted",
    "C56_linear_lost_refuted"
   ],
   "note": "Simple binning fully proved (nearest centre, angles reduced to the first turn, totals). Linear binning proved on non-angular axes without spheroid (shares below 2^-52 or areas below 1e-12 are dropped, as the statement says); with a spheroid only the bounds of the weights. Refuted: circular seam (nearest bin on the circle; linear weights across the seam), and cells smaller than 1e-6 lose their samples."
  },
  {
   "property": "C57",
   "status": "partial",
   "theorems": [
    "C57_pickle_partial",
    "C57_same_pushes_partial",
    "C57_spheroid_refuted",
    "C57_quadrant_refuted"
   ],
   "note": "Round trip proved without spheroid for the axes that survive pickling (C10), including the behaviour of later pushes. With a spheroid setstate writes through an empty optional (C57_spheroid_refuted); an angular axis that does not cover the circle loses its angular nature (C57_quadrant_refuted)."
  },
  {
   "property": "C58",
   "status": "partial",
   "theorems": [
    "C58_windows_partial",
    "C58_parzen_partial",
    "C58_lanczos_partial",
    "C58_lanczos_inside_partial",
    "C58_tapering_partial",
    "C58_centre_partial",
    "C58_centre_arg_partial",
    "C58_flat_top_refuted",
    "C58_parzen_refuted",
    "C58_lanczos_refuted",
    "C58_lanczos_default_refuted",
    "C58_null_radius_refuted"
   ],
   "note": "Over the reals (stdlib axioms). Proved in [0,1] and null beyond the radius: Blackman, Blackman-Harris, boxcar, Gaussian, Hamming, Nuttall and one-lobe Lanczos; in [0,1] up to the radius: Parzen, Parzen SWOT, Lanczos; tapering and value 1 at the centre where true. Refuted: flat top (negative, and above 1), Parzen beyond the radius (negative), several Lanczos lobes, null radius, and the documented default argument of Lanczos which is never used."
  },
  {
   "property": "C59",
   "status": "proved",
   "theorems": [
    "C59_months",
    "C59_hours",
    "C59_minutes",
    "C59_weeks_years"
   ],
   "note": ""
  },
  {
   "property": "C60",
   "status": "partial",
   "theorems": [
    "C60_keys",
    "C60_inside",
    "C60_rectangle_partial",
    "C60_two_cells_refuted"
   ],
   "note": "Exact for every rectangular block except two-cell blocks, where the second cell is forgotten."
  },
  {
   "property": "C61",
   "status": "proved",
   "theorems": [
    "C61_loess",
    "C61_filled",
    "C61_constant",
    "C61_window_size",
    "C61_weighted_mean"
   ],
   "note": "The weight is an arbitrary non-negative function of the scaled squared distance (the tri-cube uses a square root); exact arithmetic. Exceptions of the workers are stored and never rethrown by this function (threads are covered by C34)."
  },
  {
   "property": "C62",
   "status": "partial",
   "theorems": [
    "C62_history_independent_partial",
    "C62_periodic_spline_partial",
    "C62_periodic_spline_refuted"
   ],
   "note": "Proved for all kinds but the periodic spline, for which it is false (C62_periodic_spline_refuted) unless no earlier call had more points (C62_periodic_spline_partial)."
  },
  {
   "property": "C63",
   "status": "partial",
   "theorems": [
    "C63_window",
    "C63_pointwise_partial",
    "C63_linear_whole",
    "C63_steffen_whole",
    "C63_small_window_throws",
    "C63_bounds_error_refuted",
    "C63_outside_is_missing_refuted",
    "C63_periodic_spline_order_refuted",
    "C63_longitude_refuted"
   ],
   "note": "Proved for ascending axes and abscissae the axis takes as they are: window = nodes at most half_window_size away from the nearest node, answer of a fresh interpolator on it, lists answered point by point (all kinds but c_spline_periodic), linear (h>=1) and steffen (h>=2) equal to whole-data interpolation, too small windows throw. Refuted in the code: bounds_error has no effect (the bounded search never reports an outside point), the periodic spline answer depends on the points asked before, longitudes are not normalised before evaluation."
  },
  {
   "property": "C64",
   "status": "partial",
   "theorems": [
    "C64_linear",
    "C64_steffen",
    "C64_cspline",
    "C64_cspline_periodic_partial",
    "C64_akima",
    "C64_polynomial_refuted"
   ],
   "note": "Proved for linear, Steffen, splines and Akima; the polynomial derivative always reads an uninitialised cell (C64_polynomial_refuted)."
  },
  {
   "property": "C65",
   "status": "partial",
   "theorems": [
    "C65_history",
    "C65_incremental",
    "C65_merge_linear",
    "C65_incompatible",
    "C65_angle_refuted"
   ],
   "note": "Proved for all histories on any reachable axes (saving/restoring under the conditions of C57), for incremental pushes and for merges of linear binnings. Refuted: equality of axes ignores whether an axis is angular (C65_angle_refuted)."
  },
  {
   "property": "C66",
   "status": "partial",
   "theorems": [
    "C66_push_partial",
    "C66_range",
    "C66_short_values_refuted",
    "C66_short_weights_refuted",
    "C66_circle_refuted",
    "C66_pickle"
   ],
   "note": "Proved for positive weights and arrays long enough. Refuted: values or weights shorter than x are read out of bounds; on a circular axis the range test loses angles of the last cell or given in another turn."
  },
  {
   "property": "C67",
   "status": "partial",
   "theorems": [
    "C67_value_partial",
    "C67_left_operand_refuted",
    "C67_count_refuted"
   ],
   "note": "The result has the merged value and other objects are unchanged, but the left operand is modified: copy.copy shares the C++ instance (C67_left_operand_refuted, C67_count_refuted)."
  },
  {
   "property": "C68",
   "status": "partial",
   "theorems": [
    "C68_history",
    "C68_incompatible",
    "C68_sizes",
    "C68_zero_bins_refuted"
   ],
   "note": "Proved for all histories on reachable axes, at least one bin per cell and values far from the largest double (restores under the conditions of C10). Refuted: bin_count = 0 makes the first push undefined behaviour."
  },
  {
   "property": "C69",
   "status": "partial",
   "theorems": [
    "C69_histograms",
    "C69_roundtrip",
    "C69_truncated",
    "C69_other_shape",
    "C69_forged_refuted"
   ],
   "note": "Padding, round trip, truncation at every byte and other shapes proved. Refuted: a forged size makes setstate allocate/read out of bounds."
  },
  {
   "property": "C70",
   "status": "partial",
   "theorems": [
    "C70_contents_partial",
    "C70_shapes",
    "C70_ecef_pickle_refuted",
    "C70_bounds_refuted"
   ],
   "note": "Contents proved for all histories except pickling of Cartesian indexes, which always fails on restore (C70_ecef_pickle_refuted). bounds() refuted for positions with only negative coordinates."
  },
  {
   "property": "C71",
   "status": "partial",
   "theorems": [
    "C71_within_geodetic_refuted",
    "C71_contract_ex",
    "C71_query",
    "C71_sorted",
    "C71_distance",
    "C71_ball",
    "C71_within_refuted"
   ],
   "note": "Relative to the contract of Boost's iterator (a parameter, shown satisfiable). Refuted: within=True tests a box of Cartesian coordinates, not that the neighbours surround the point: at longitude 0, latitude 0 nothing is ever found whatever the neighbours (C71_within_geodetic_refuted)."
  },
  {
   "property": "C72",
   "status": "partial",
   "theorems": [
    "C72_idw",
    "C72_count_refuted"
   ],
   "note": "Relative to the contract of Boost's iterator. Refuted: near a stored position the returned count is k whatever the number of points."
  },
  {
   "property": "C73",
   "status": "partial",
   "theorems": [
    "C73_window",
    "C73_python",
    "C73_flat_top_refuted",
    "C73_lanczos_default_refuted"
   ],
   "note": "Relative to the contract of Boost's iterator; all windows except the flat top (refuted: leaves the range of the values), Lanczos only with an explicit argument (refuted: without it every result is NaN)."
  },
  {
   "property": "C74",
   "status": "proved",
   "theorems": [
    "C74_value",
    "C74_nearest"
   ],
   "note": "Relative to the contract of Boost's iterator; the conversion of the coordinates is not modelled here."
  },
  {
   "property": "C75",
   "status": "proved",
   "theorems": [
    "C75_degrees",
    "C75_tangent",
    "C75_quarters",
    "C75_reduced"
   ],
   "note": "Over the reals (no rounding)."
  },
  {
   "property": "C76",
   "status": "proved",
   "theorems": [
    "C76_atan2",
    "C76_inverse",
    "C76_atan"
   ],
   "note": "Over the reals."
  },
  {
   "property": "C77",
   "status": "proved",
   "theorems": [
    "C77_surface",
    "C77_normal",
    "C77_altitude",
    "C77_turns",
    "C77_injective"
   ],
   "note": "Over the reals."
  },
  {
   "property": "C78",
   "status": "partial",
   "theorems": [
    "C78_longitude",
    "C78_meridian",
    "C78_symmetric",
    "C78_centre",
    "C78_equator_partial",
    "C78_poles_partial",
    "C78_sphere_partial"
   ],
   "note": "Longitude, symmetry and independence proved for all spheroids; exact inversion proved for every position of a sphere, and on the equator and the poles of every spheroid. Missing: an error bound of the one-step approximation elsewhere on a flattened spheroid (it is not exact)."
  },
  {
   "property": "C79",
   "status": "partial",
   "theorems": [
    "C79_eccentricity",
    "C79_curvature",
    "C79_mean_radii",
    "C79_authalic",
    "C79_authalic_sphere_refuted",
    "C79_geocentric"
   ],
   "note": "All relations proved; refuted only for the authalic radius of a sphere, which is NaN (C79_authalic_sphere_refuted)."
  },
  {
   "property": "C80",
   "status": "proved",
   "theorems": [
    "C80_outside",
    "C80_missing",
    "C80_local"
   ],
   "note": "Grids with ordinates that are not angles, circle windows that do not overlap themselves."
  },
  {
   "property": "C81",
   "status": "proved",
   "theorems": [
    "C81_spline",
    "C81_exact",
    "C81_small_window_throws",
    "C81_schedule"
   ],
   "note": "Curves and nodes for 'linear', 'steffen' and 'c_spline' (the other kinds do not pass through their points even in one dimension, see C48); locality (C80), schedules and small windows for all kinds, 'c_spline_periodic' with at least 2 points on each side."
  },
  {
   "property": "C82",
   "status": "proved",
   "theorems": [
    "C82_bicubic",
    "C82_exact",
    "C82_bilinear",
    "C82_small_window_throws"
   ],
   "note": "Exact rationals."
  },
  {
   "property": "C83",
   "status": "partial",
   "theorems": [
    "C83_sym_refuted",
    "C83_wrap_refuted",
    "C83_angular_ordinate_refuted",
    "C83_expand_node_refuted"
   ],
   "note": "Refuted: 'sym' and 'wrap' (C83_sym_refuted, C83_wrap_refuted), 'expand' on the first point of an axis (C83_expand_node_refuted), angular ordinates (C83_angular_ordinate_refuted). With a complete window the boundary does not matter (C80_local)."
  },
  {
   "property": "C84",
   "status": "proved",
   "theorems": [
    "C84_layers",
    "C84_hyper_layers",
    "C84_outside",
    "C84_hyper_outside",
    "C84_schedule",
    "C84_hyper_schedule"
   ],
   "note": "Relative to the 2-D interpolations (C80-C82)."
  },
  {
   "property": "C85",
   "status": "partial",
   "theorems": [
    "C85_unrolled",
    "C85_meets",
    "C85_half_orbits",
    "C85_short",
    "C85_wide_refuted"
   ],
   "note": "Proved when the unrolled tracks fit together in less than 360 degrees, in particular for tracks of less than 180 degrees; refuted for wider tracks that overlap at both ends (C85_wide_refuted)."
  },
  {
   "property": "C86",
   "status": "proved",
   "theorems": [
    "C86_crossover",
    "C86_list",
    "C86_rejects",
    "C86_agree",
    "C86_on_both_tracks",
    "C86_none_iff_disjoint",
    "C86_geodetic"
   ],
   "note": "Boost's intersection of lines, geodetic distance and R-tree query are parameters; exactness of the intersection is a hypothesis of the two end-to-end theorems."
  },
  {
   "property": "C87",
   "status": "partial",
   "theorems": [
    "C87_sum_of_segments",
    "C87_monotone",
    "C87_chord",
    "C87_closest_each",
    "C87_closest_sizes_refuted"
   ],
   "note": "Proved; refuted: closest_point does not compare the sizes of its two arrays (C87_closest_sizes_refuted)."
  },
  {
   "property": "C88",
   "status": "partial",
   "theorems": [
    "C88_line",
    "C88_line_items",
    "C88_crossover",
    "C88_polygon",
    "C88_multipolygon",
    "C88_bad_point",
    "C88_empty_ring_refuted"
   ],
   "note": "Proved for all geometries; refuted for polygons with an empty inner ring, which is lost (C88_empty_ring_refuted)."
  },
  {
   "property": "C89",
   "status": "partial",
   "theorems": [
    "C89_new",
    "C89_pickle",
    "C89_new_pickle",
    "C89_setter_refuted",
    "C89_latitudes_refuted",
    "C89_geojson"
   ],
   "note": "Proved for longitudes; refuted: latitudes are exchanged with the longitudes (C89_latitudes_refuted), corners assigned or enveloped outside [-180, 180] cannot be unpickled (C89_setter_refuted)."
  },
  {
   "property": "C90",
   "status": "partial",
   "theorems": [
    "C90_unchanged",
    "C90_single_turn",
    "C90_constant_latitude",
    "C90_rearranged_refuted"
   ],
   "note": "Proved for an ephemeris with a single southern turn; refuted otherwise: with two turns or more the test 'already starting from pass 1' always succeeds and nothing is rearranged (C90_unchanged, C90_rearranged_refuted)."
  },
  {
   "property": "C91",
   "status": "partial",
   "theorems": [
    "C91_pass_starts",
    "C91_even",
    "C91_monotone",
    "C91_level_refuted",
    "C91_mid_pass_refuted"
   ],
   "note": "Proved for tracks without level steps that start at a turning point; refuted for level steps and for tracks that start inside a pass (C91_level_refuted, C91_mid_pass_refuted)."
  },
  {
   "property": "C92",
   "status": "partial",
   "theorems": [
    "C92_decode_encode",
    "C92_encode_decode",
    "C92_next",
    "C92_encode_rejects",
    "C92_nonpositive_refuted"
   ],
   "note": "Proved for positive numbers; refuted for numbers below 1 (C92_nonpositive_refuted)."
  },
  {
   "property": "C93",
   "status": "partial",
   "theorems": [
    "C93_pass_duration",
    "C93_total",
    "C93_cycle_duration_refuted",
    "C93_iterate",
    "C93_epoch_refuted",
    "C93_orbit_duration"
   ],
   "note": "Proved except: cycle_duration() is one step shorter than the sum of the durations (C93_cycle_duration_refuted); a first date equal to 1970-01-01 is replaced by the current date (C93_epoch_refuted)."
  },
  {
   "property": "C94",
   "status": "partial",
   "theorems": [
    "C94_partition",
    "C94_points",
    "C94_number_refuted",
    "C94_pass"
   ],
   "note": "Proved; refuted: pass numbers below 1 are accepted, negative ones give another pass (C94_number_refuted)."
  },
  {
   "property": "C95",
   "status": "partial",
   "theorems": [
    "C95_segment",
    "C95_crossing",
    "C95_first_point_refuted"
   ],
   "note": "Proved except when the first point is the nearest one to the equator: IndexError (C95_segment, C95_first_point_refuted). The intersection itself is Boost's."
  },
  {
   "property": "C96",
   "status": "partial",
   "theorems": [
    "C96_x_ac",
    "C96_consistent",
    "C96_resolution_refuted",
    "C96_extent",
    "C96_zero_gap_refuted",
    "C96_mask",
    "C96_central_pixel"
   ],
   "note": "Refuted when the two resolutions differ (C96_resolution_refuted) and for a null gap (C96_zero_gap_refuted); the rest is proved."
  },
  {
   "property": "C97",
   "status": "partial",
   "theorems": [
    "C97_only_turns",
    "C97_track_lost_refuted",
    "C97_untouched"
   ],
   "note": "Refuted: only the turning points are kept (C97_only_turns, C97_track_lost_refuted)."
  },
  {
   "property": "C98",
   "status": "partial",
   "theorems": [
    "C98_pixels",
    "C98_rotation",
    "C98_angle",
    "C98_distance",
    "C98_swath",
    "C98_short_refuted",
    "C98_motionless_refuted"
   ],
   "note": "Proved for three points or more that move; refuted for fewer points (C98_short_refuted) and for a motionless satellite (C98_motionless_refuted). Exact reals."
  },
  {
   "property": "C99",
   "status": "partial",
   "theorems": [
    "C99_contracts_ex",
    "C99_interpolation",
    "C99_nodes",
    "C99_superposition",
    "C99_order",
    "C99_isometry",
    "C99_default_epsilon",
    "C99_functions",
    "C99_monotone",
    "C99_one_neighbour_refuted",
    "C99_thin_plate_refuted",
    "C99_cubic_refuted",
    "C99_smooth_refuted",
    "C99_neighbours"
   ],
   "note": "Proved for gaussian, inverse multiquadric and multiquadric (any neighbours with epsilon, two or more with the default) and linear (two or more), relative to the contract of the LU solver (met by the Gauss elimination of LinSolve). Refuted: one neighbour with the default parameters gives NaN or 0 (C99_one_neighbour_refuted), thin plate and cubic are singular for some points (C99_thin_plate_refuted, C99_cubic_refuted), the sign of smooth (C99_smooth_refuted). Exact reals."
  },
  {
   "property": "C100",
   "status": "partial",
   "theorems": [
    "C100_documented",
    "C100_synonyms",
    "C100_documented_refuted",
    "C100_symmetric",
    "C100_maximum",
    "C100_decreasing",
    "C100_linear_refuted",
    "C100_positive_definite"
   ],
   "note": "Proved for six functions; refuted: cauchy, spherical and linear are not the documented ones, linear increases with the distance (C100_documented_refuted, C100_linear_refuted). Missing: spherical positive definite."
  },
  {
   "property": "C101",
   "status": "partial",
   "theorems": [
    "C101_contract_ex",
    "C101_parameters",
    "C101_nodes",
    "C101_spherical_partial",
    "C101_superposition",
    "C101_sigma",
    "C101_isometry",
    "C101_constant_refuted",
    "C101_linear_refuted",
    "C101_altitude_refuted",
    "C101_ecef_convert",
    "C101_neighbours"
   ],
   "note": "Proved for the seven positive definite functions, relative to the contract of the LDLT solver (met by LinSolve); spherical only for points further apart than the range (C101_spherical_partial). Refuted: constants (C101_constant_refuted), linear always 0 (C101_linear_refuted), altitude dropped (C101_altitude_refuted). Exact reals."
  },
  {
   "property": "C102",
   "status": "partial",
   "theorems": [
    "C102_windows",
    "C102_windows_only",
    "C102_radial",
    "C102_radial_only",
    "C102_covariances_partial",
    "C102_covariances_only",
    "C102_covariances_refuted",
    "C102_defaults"
   ],
   "note": "Proved for windows, radial functions and seven covariances; refuted: 'cauchy' and 'whittle_matern' cannot be used (C102_covariances_refuted)."
  },
  {
   "property": "C103",
   "status": "partial",
   "theorems": [
    "C103_inplace",
    "C103_copy",
    "C103_mode",
    "C103_ascending",
    "C103_again",
    "C103_again_refuted",
    "C103_shared_refuted",
    "C103_error_refuted",
    "C103_later_refuted",
    "C103_ex"
   ],
   "note": "Proved for axes that are different objects ('inplace') or that can be pickled ('copy'); refuted: the same object twice, a second call, a failed call, an axis modified later (C103_*_refuted)."
  },
  {
   "property": "C104",
   "status": "partial",
   "theorems": [
    "C104_bilinear",
    "C104_trilinear",
    "C104_increasing",
    "C104_ex",
    "C104_off_lines",
    "C104_nearest",
    "C104_gap2_ex",
    "C104_idw_refuted",
    "C104_missing_refuted"
   ],
   "note": "Proved for axes of more than one point that are not angles: nearest everywhere, bilinear and trilinear without missing values, every interpolator off the lines of the grid. Refuted on the lines of the grid: inverse distance weighting (C104_idw_refuted), missing values (C104_missing_refuted)."
  },
  {
   "property": "C105",
   "status": "partial",
   "theorems": [
    "C105_grid2",
    "C105_grid3",
    "C105_grid4",
    "C105_faithful",
    "C105_refused",
    "C105_storage",
    "C105_storage_values",
    "C105_ex",
    "C105_descending_dates_refuted",
    "C105_coordinates_refuted",
    "C105_durations_refuted"
   ],
   "note": "Proved (C105_faithful, C105_storage, C105_storage_values); refuted: decreasing evenly spaced dates with the default increasing_axes (C105_descending_dates_refuted), coordinates that are not dimensions in a non geodetic array (C105_coordinates_refuted), durations in four dimensions (C105_durations_refuted). xarray and numpy are modelled from their documentation."
  },
  {
   "property": "C106",
   "status": "proved",
   "theorems": [
    "C106_order",
    "C106_route",
    "C106_names",
    "C106_ex"
   ],
   "note": ""
  },
  {
   "property": "C107",
   "status": "partial",
   "theorems": [
    "C107_time",
    "C107_methods_refuted",
    "C107_methods",
    "C107_methods_ex"
   ],
   "note": "Proved with a temporal dimension (C107_time) and, without one, when z_method = u_method and every axis has more than one point (C107_methods); refuted when z_method and u_method differ (C107_methods_refuted)."
  },
  {
   "property": "C108",
   "status": "partial",
   "theorems": [
    "C108_class",
    "C108_values",
    "C108_values_refuted",
    "C108_memory",
    "C108_functions_partial",
    "C108_functions_refuted"
   ],
   "note": "Proved: class, nearest values (exact for floats, 8 and 16 bits integers, up to 2^24 or 2^53 otherwise), view or copy, dispatch (C108_functions_partial). Refuted: large 32 and 64 bits integers are rounded (C108_values_refuted); grids of 8 bits integers are made but refused by most functions (C108_functions_refuted)."
  },
  {
   "property": "C109",
   "status": "proved",
   "theorems": [
    "C109_contents",
    "C109_sizes",
    "C109_longitudes",
    "C109_ex"
   ],
   "note": ""
  },
  {
   "property": "C110",
   "status": "partial",
   "theorems": [
    "C110_contract_ex",
    "C110_query",
    "C110_longitudes",
    "C110_arrays",
    "C110_spheroid_refuted"
   ],
   "note": "Proved relative to the contract of the spatial index (met by exhaustive search, C110_contract_ex) for the default spheroid or one that orders the points in the same way; refuted for another spheroid: the index orders with WGS84 (C110_spheroid_refuted). Exact reals."
  },
  {
   "property": "C111",
   "status": "partial",
   "theorems": [
    "C111_idw",
    "C111_window_partial",
    "C111_window_refuted",
    "C111_selected"
   ],
   "note": "Inverse distance weighting and the points of the radial functions proved; window_function proved when the spheroid orders the points as WGS84 does (C111_window_partial), refuted otherwise (C111_window_refuted). Exact reals."
  },
  {
   "property": "C112",
   "status": "proved",
   "theorems": [
    "C112_copy",
    "C112_pickle",
    "C112_change",
    "C112_ex"
   ],
   "note": ""
  },
  {
   "property": "C113",
   "status": "partial",
   "theorems": [
    "C113_matrix_partial",
    "C113_matrix_float32_refuted",
    "C113_matrix_refused",
    "C113_vector_partial",
    "C113_vector_default_refuted",
    "C113_vector_strided_refuted",
    "C113_ex"
   ],
   "note": "Proved for float64 matrices and for vectors with a suitable fill value and layout; refuted: float32 matrices always end with TypeError after having been filled (C113_matrix_float32_refuted), default fill value of dates and integers (C113_vector_default_refuted), strided vectors (C113_vector_strided_refuted). The library functions are parameters (see C43, C44); pybind11's rules from its documentation."
  },
  {
   "property": "C114",
   "status": "partial",
   "theorems": [
    "C114_relaxation",
    "C114_slices",
    "C114_order",
    "C114_no_iteration_refuted",
    "C114_ex"
   ],
   "note": "Proved; refuted for max_iteration=0, which always says converged (C114_no_iteration_refuted)."
  },
  {
   "property": "C115",
   "status": "partial",
   "theorems": [
    "C115_position",
    "C115_turns",
    "C115_text",
    "C115_box",
    "C115_integer",
    "C115_neighbors_partial",
    "C115_refused",
    "C115_empty_refuted",
    "C115_nul_refuted",
    "C115_error"
   ],
   "note": "Proved for precisions 1 to 12; neighbours only for the cells that do not touch the date line or a pole (C115_neighbors_partial, see C32). Refuted: precision 0 and the empty code are shifts by 64 bits instead of errors (C115_empty_refuted); a NUL character is accepted as the digit of the south-west quarter (C115_nul_refuted)."
  },
  {
   "property": "C116",
   "status": "proved",
   "theorems": [
    "C116_arrays",
    "C116_refused",
    "C116_to_xarray"
   ],
   "note": "One-dimensional arrays (numpy reduces the others to them); numpy from its documentation."
  },
  {
   "property": "C117",
   "status": "partial",
   "theorems": [
    "C117_grid",
    "C117_empty_refuted",
    "C117_units_refuted"
   ],
   "note": "Proved when the cover is not empty (C117_grid); refuted: an empty cover is an IndexError (C117_empty_refuted), the units of the two coordinates are exchanged, so that geodetic grids take latitudes for longitudes (C117_units_refuted)."
  },
  {
   "property": "C118",
   "status": "partial",
   "theorems": [
    "C118_in_place",
    "C118_read_only",
    "C118_unchanged",
    "C118_writeable_refuted"
   ],
   "note": "Proved for writeable contiguous arrays of float64 and for read-only arrays; refuted: any other writeable array (float32, integers, strided views) is answered without being normalised (C118_writeable_refuted). Exact rationals; one-dimensional arrays."
  },
  {
   "property": "C119",
   "status": "partial",
   "theorems": [
    "C119_distances",
    "C119_covered_by",
    "C119_closest",
    "C119_sizes_refuted"
   ],
   "note": "Proved (the computations of Boost are parameters); refuted: closest_point does not compare the sizes of its arrays (C119_sizes_refuted)."
  },
  {
   "property": "C120",
   "status": "partial",
   "theorems": [
    "C120_cover",
    "C120_complete_partial",
    "C120_cover_refuted"
   ],
   "note": "Proved: the cells of bounding_boxes(envelope) that intersect the polygon; complete when the north-east corner of the envelope is a corner of the cells (C120_complete_partial), refuted otherwise (C120_cover_refuted, see C32)."
  },
  {
   "property": "C121",
   "status": "partial",
   "theorems": [
    "C121_safe_cast",
    "C121_same_unit",
    "C121_refused",
    "C121_find_indexes",
    "C121_find_index",
    "C121_after_last_refuted",
    "C121_nearest_refuted",
    "C121_units"
   ],
   "note": "Proved on ascending dates, units of constant length (weeks to attoseconds; years and months only when the array is in the unit of the axis), unbounded integers. Refuted: dates in a finer unit than the axis are truncated first, so that a date after the last point by less than a unit is found inside, and the point may be the nearest only up to one unit (C121_after_last_refuted, C121_nearest_refuted)."
  },
  {
   "property": "C122",
   "status": "partial",
   "theorems": [
    "C122_slice",
    "C122_slice_int",
    "C122_item",
    "C122_list",
    "C122_find",
    "C122_eq_int",
    "C122_eq_refuted",
    "C122_copies",
    "C122_copies_refuted"
   ],
   "note": "Proved; refuted: == ignores the unit and the kind of the temporal axes (C122_eq_refuted); an integer axis flipped in place does not survive pickling: the copy is equal but finds other indices (C122_copies_refuted). Copies of the axes of numbers: C10."
  },
  {
   "property": "C123",
   "status": "partial",
   "theorems": [
    "C123_binning2d",
    "C123_linear",
    "C123_dtype_refuted",
    "C123_binning1d_partial",
    "C123_range_refuted",
    "C123_histogram2d_partial",
    "C123_bin_counts_refuted",
    "C123_statistics",
    "C123_missing_refuted",
    "C123_axis",
    "C123_axis_refuted",
    "C123_streaming"
   ],
   "note": "Proved for Binning2D (nearest and linear on plain axes), for the statistics without axis (blocks with data), for the statistics whose first axis is reduced, and for the streaming histograms; Binning1D when the range is that of the axis; Histogram2D when bin_counts is not set. Refuted: push_delayed ignores dtype (the result cannot be merged in its float32 creator), the range of Binning1D and the bin_counts of Histogram2D; a block without data corrupts minimum, maximum and mean; when the first axis is kept, the cells of different slabs are merged or the addition fails."
  },
  {
   "property": "C124",
   "status": "partial",
   "theorems": [
    "C124_bivariate",
    "C124_trivariate",
    "C124_quadrivariate",
    "C124_threads",
    "C124_chunks",
    "C124_units_refuted"
   ],
   "note": "Proved for the three functions. Refuted: dates in another unit than that of the temporal axis are read as numbers, neither converted nor refused. Coordinates that are NaN and interpolators written in Python are not modelled."
  },
  {
   "property": "C125",
   "status": "partial",
   "theorems": [
    "C125_grid2",
    "C125_grid3",
    "C125_grid4",
    "C125_dates_refuted",
    "C125_angle_refuted",
    "C125_flipped_refuted"
   ],
   "note": "Proved for grids whose angular axes are circles and whose temporal axis was not reversed in place. Refuted: longitudes that do not close the circle become plain numbers; the temporal axis of a copy is an axis of integers without unit; a grid whose temporal axis was reversed in place interpolates differently after a copy."
  },
  {
   "property": "C126",
   "status": "partial",
   "theorems": [
    "C126_units",
    "C126_cast",
    "C126_constructor",
    "C126_constructor_units",
    "C126_weeks_refuted",
    "C126_copy",
    "C126_duration",
    "C126_dates",
    "C126_periods",
    "C126_same_unit",
    "C126_equal",
    "C126_as_resolution",
    "C126_duration_refuted",
    "C126_coarse_refuted",
    "C126_adjacent_refuted",
    "C126_order_refuted"
   ],
   "note": "Proved for every unit of numpy, months and years included; operations on two periods when the unit of the argument divides that of the object. Refuted: weeks mixed with months or years move the beginning; an argument in a longer unit loses the end of its last span (contains, intersects not symmetric); is_adjacent rounds; as_resolution changes the duration; periods of different units are never ordered."
  },
  {
   "property": "C127",
   "status": "partial",
   "theorems": [
    "C127_constructor",
    "C127_constructor_refused",
    "C127_copy",
    "C127_belong",
    "C127_cross",
    "C127_lengths",
    "C127_is_close",
    "C127_join",
    "C127_filter",
    "C127_filter_refuted",
    "C127_restrict",
    "C127_restrict_units_refuted",
    "C127_merge",
    "C127_sort",
    "C127_merge_units_refuted",
    "C127_empty",
    "C127_durations_refuted"
   ],
   "note": "Proved for every unit of the dates. Refuted: within and intersection ignore the unit of the period; filter rounds the duration down; lists of different units cannot be merged. Lists in months or years: durations not treated."
  },
  {
   "property": "C128",
   "status": "partial",
   "theorems": [
    "C128_windows",
    "C128_grid2",
    "C128_grid3",
    "C128_grid4",
    "C128_threads",
    "C128_value_type",
    "C128_single_row_refuted"
   ],
   "note": "Proved for axes of at least two values (one for an angular X axis). Refuted: an axis Y of one value divides by zero."
  },
  {
   "property": "C129",
   "status": "proved",
   "theorems": [
    "C129_refused",
    "C129_grid2",
    "C129_grid3",
    "C129_grid4",
    "C129_threads"
   ],
   "note": "Boundary undef (the default), the eight models of the Python function, 2-D, 3-D (dates included) and 4-D grids; other boundaries: see C83."
  },
  {
   "property": "C130",
   "status": "proved",
   "theorems": [
    "C130_text",
    "C130_one_instant",
    "C130_injective",
    "C130_iso_refuted"
   ],
   "note": "Unbounded integers: the dates whose year leaves the int are those of C19_far_dates_refuted. C130_iso_refuted: years are not padded to four digits (ISO 8601, numpy)."
  },
  {
   "property": "C131",
   "status": "partial",
   "theorems": [
    "C131_longitudes",
    "C131_sphere",
    "C131_turns",
    "C131_equator",
    "C131_poles",
    "C131_latitudes_refuted",
    "C131_rotation"
   ],
   "note": "Longitudes are kept, and both coordinates on a sphere, at the equator and at the poles. C131_latitudes_refuted: elsewhere on a flattened spheroid (WGS84) the latitude of a given position is never found again, even with an exact conversion (about 0.1 degree at 45 degrees). core.interpolate1d is a parameter (C63); exact reals."
  },
  {
   "property": "C132",
   "status": "partial",
   "theorems": [
    "C132_statistics",
    "C132_array",
    "C132_binning",
    "C132_twice",
    "C132_histogram",
    "C132_self_refuted",
    "C132_self_array_refuted",
    "C132_grids",
    "C132_self_list_refuted"
   ],
   "note": "Statistics and binnings: every case, also the same object. Histograms: two different objects. C132_self_refuted, C132_self_array_refuted, C132_self_list_refuted: h += h of a histogram with a bin, or of an array or a grid with one, inserts in the vector that the loop is going through, which is undefined. Moments over rationals; the vector of bins is modelled by its content and the validity of the iterators of the loop."
  },
  {
   "property": "C133",
   "status": "partial",
   "theorems": [
    "C133_points",
    "C133_times",
    "C133_interpolated",
    "C133_positions",
    "C133_zero_resolution",
    "C133_prepared",
    "C133_rearranged",
    "C133_seam",
    "C133_seam_refuted",
    "C133_orbit"
   ],
   "note": "C133_seam_refuted: when the ephemeris does not begin at the time zero (always so after the trimming of an ephemeris that starts near the equator), the cycle is too long by the time of its first point, and the times have a jump of this length where the end is joined to the beginning. Orbit interpolation and curvilinear distances are parameters, with what C63, C87 and C131 say of them; times strictly increasing only if no step is covered in less than a nanosecond. Exact rationals."
  },
  {
   "property": "C134",
   "status": "partial",
   "theorems": [
    "C134_points",
    "C134_ordered",
    "C134_find_index",
    "C134_own_points",
    "C134_flip",
    "C134_pickle",
    "C134_far_refuted",
    "C134_pickle_refuted",
    "C134_flip_twice_refuted",
    "C134_last_refuted",
    "C134_ex"
   ],
   "note": "Proved with Flocq's binary64 (round to nearest even, each operation rounded separately): C134_points, _ordered, _find_index, _own_points, _flip, _pickle. Refuted: the pickled copy of [0.3, 0.9, 1.5, 2.1] is not equal to it (C134_pickle_refuted), flipping [-0.9, 1.1] twice gives another axis (C134_flip_twice_refuted), the last point of [-2, -0.9] is not -0.9 (C134_last_refuted), NaN, infinities and coordinates beyond 2^64 steps are an undefined conversion instead of -1 or the end (C134_far_refuted)."
  },
  {
   "property": "C135",
   "status": "partial",
   "theorems": [
    "C135_find_indexes",
    "C135_outside",
    "C135_nodes",
    "C135_close",
    "C135_range",
    "C135_constant_refuted",
    "C135_ex"
   ],
   "note": "Proved with Flocq's binary64 (round to nearest even, each operation rounded separately): C135_find_indexes, _outside, _nodes (exact at the nodes), _close (2^-46 of the largest value), _range. Refuted: the constant field 0.1 gives 0.10000000000000003 at (0.1, 0.1), more than every value of the grid (C135_constant_refuted). Axes that are not angles only."
  },
  {
   "property": "C136",
   "status": "partial",
   "theorems": [
    "C136_nodes_3d",
    "C136_nodes_4d",
    "C136_close_3d",
    "C136_close_4d",
    "C136_dates",
    "C136_dates_refuted",
    "C136_ex"
   ],
   "note": "Proved with Flocq's binary64 (round to nearest even, each operation rounded separately): C136_nodes_3d, _nodes_4d (exact at the nodes), _close_3d, _close_4d (2^-45 of the largest value), _dates (any two dates less than 2^63 units apart). Refuted for two dates further apart: the difference overflows int64 (C136_dates_refuted). Axes that are not angles only."
  },
  {
   "property": "C137",
   "status": "partial",
   "theorems": [
    "C137_remainder",
    "C137_normalize",
    "C137_in_range",
    "C137_turns",
    "C137_seam",
    "C137_below_refuted",
    "C137_far_refuted",
    "C137_ex"
   ],
   "note": "Proved with Flocq's binary64: C137_remainder (std::remainder is exact), C137_normalize (range and error of the normalisation, all longitudes), C137_in_range (same results as an axis that is not an angle, so C135 applies), C137_turns (whole turns away, in a cell, further from its limits than the rounding errors), C137_seam (the last cell of a circle: last and first points; none if the axis is not a full circle). Closer to a point of the axis the claim is false of the code: the search and the interpolation normalise separately, and when they round to opposite ends of the turn the first cell is extrapolated by 360 degrees (C137_below_refuted: values 0 and 1, result above 359 for -1e-15; C137_far_refuted: result above 3599 for 512.55). Bilinear interpolation; ascending axes (see C53 for the descending ones and for the last cell of a circle)."
  },
  {
   "property": "C138",
   "status": "partial",
   "theorems": [
    "C138_array",
    "C138_axis",
    "C138_constant",
    "C138_mean_close",
    "C138_weighted_refuted",
    "C138_large_refuted",
    "C138_ex"
   ],
   "note": "Proved with Flocq's binary64 by induction on the samples: C138_array (whole array), C138_axis (reduced array, unit weights), C138_constant, C138_mean_close (the mean of n samples is within n 2^-48 of the largest absolute value from the exact mean). False with weights: the mean of 0 (weight 2^-60) and 3 (weight 187) is greater than 3 (C138_weighted_refuted); false without the limit on the values: infinite mean of 2^1023 and its opposite (C138_large_refuted). The third and fourth moments (skewness, kurtosis) are not modelled here; see C35 for exact arithmetic."
  },
  {
   "property": "C139",
   "status": "partial",
   "theorems": [
    "C139_near_partial",
    "C139_cell_partial",
    "C139_prefix",
    "C139_decode",
    "C139_example",
    "C139_boundary_refuted",
    "C139_pole_refuted"
   ],
   "note": "Proved with Flocq's binary64: C139_near_partial (the code is that of an exact point at most 2^-42 degrees away, portable and BMI2 conversions), C139_cell_partial (distance to the cell, from C28), C139_prefix, C139_decode (the corner of a cell is computed exactly and its code is the index of the cell). Exact membership of the cell is false: a longitude and latitude of -2^-70 get the code of the cell that begins at zero (C139_boundary_refuted). Without the limit of 2^-40 degrees: the latitude just below 90 is undefined behaviour in the portable conversion and gets the code of a southern cell with BMI2 (C139_pole_refuted)."
  }
 ]
}