{"id": "C01", "title": "Integer remainder is the floored modulus", "statement": "The integer remainder used for every circular index computation returns, for a non-zero divisor, the unique value congruent to the dividend modulo the divisor that is zero or has the divisor's sign; in particular for a positive axis length it is always a valid index in [0, length).", "quantifier": "all dividends and all non-zero divisors (as unbounded integers)", "why_tests_cant": "Signs of both operands and the exact-multiple case all matter; a test samples a handful of pairs.", "anchors": ["src/pyinterp/core/include/pyinterp/detail/math.hpp: remainder"]}
{"id": "C02", "title": "Angle normalisation lands in the half-open turn and preserves the angle", "statement": "Normalising an angle with a minimum and a circle returns, in exact arithmetic, the unique value in [min, min+circle) that differs from the input by a whole number of turns; it is idempotent. In binary64 arithmetic the upper bound itself can be returned.", "quantifier": "all angles, minima and positive circles; a concrete binary64 input for the rounding counter-example", "why_tests_cant": "The claim is about every rational angle, and the rounding failure sits in a window of a few ulps around the seam.", "anchors": ["src/pyinterp/core/include/pyinterp/detail/math.hpp: remainder, normalize_angle"]}
{"id": "C03", "title": "Regular integer axis: nearest index", "statement": "For a regularly spaced integer axis, find_index returns an index whose coordinate is nearest to the requested coordinate among all axis points, or -1 exactly when the rounded position is outside the axis (0/size-1 when bounded is requested).", "quantifier": "all starts, steps (ascending and descending), sizes and requested coordinates", "why_tests_cant": "Rounding of a quotient depends on the sign of numerator and step and on parity of the step; the failing combinations are not in the usual ascending test grids.", "anchors": ["src/pyinterp/core/include/pyinterp/detail/axis/container.hpp: Regular<T, integral>::find_index, round"]}
{"id": "C04", "title": "Regular floating axis: nearest index", "statement": "For a regularly spaced axis (exact arithmetic), find_index returns an index whose coordinate is nearest to the requested one, for ascending and descending axes; outside the half-step margins it returns -1, or the end index when bounded.", "quantifier": "all starts, non-zero steps, sizes >= 1 and coordinates", "why_tests_cant": "Ties, both directions and both ends must hold for every coordinate.", "anchors": ["src/pyinterp/core/include/pyinterp/detail/axis/container.hpp: Regular<T, floating>::find_index"]}
{"id": "C05", "title": "Irregular axis: nearest index", "statement": "For any strictly monotonic axis (ascending or descending), find_index of a coordinate inside the axis range returns the index of a nearest point; outside the range it returns -1, or the nearest end index when bounded is requested.", "quantifier": "all strictly monotonic axes of any length, both directions, all coordinates", "why_tests_cant": "A binary search with custom comparator must be right for every array and every position, including exact hits, ties and ends.", "anchors": ["src/pyinterp/core/include/pyinterp/detail/axis/container.hpp: Irregular::find_index, is_monotonic"]}
{"id": "C06", "title": "Axis bracketing returns adjacent indexes enclosing the coordinate", "statement": "Whenever find_indexes(coordinate) returns a pair (i0,i1) on a non-circular axis, both are valid, adjacent (|i1-i0| = 1; i1 = i0+1 with self[i0] <= x <= self[i1] on an ascending axis), and the coordinate lies between the two axis values; it returns a pair for every coordinate between the first and last axis values and none outside.", "quantifier": "all regular and irregular axes with at least two points, both directions, all coordinates", "why_tests_cant": "Off-by-one errors at exact nodes, the last node and on descending axes are only visible at particular coordinates.", "anchors": ["src/pyinterp/core/include/pyinterp/detail/axis.hpp: Axis::find_indexes"]}
{"id": "C07", "title": "Circular axis bracketing always succeeds and wraps", "statement": "On an axis covering the whole circle, find_indexes(coordinate) returns two valid neighbouring indexes (neighbouring modulo the axis length) for every coordinate, and the normalised coordinate lies on the arc between them.", "quantifier": "all circular axes with at least two points (both directions), every coordinate", "why_tests_cant": "The seam between last and first point is one cell among thousands.", "anchors": ["src/pyinterp/core/include/pyinterp/detail/axis.hpp: Axis::find_indexes, find_nearest_index, normalize_coordinate"]}
{"id": "C08", "title": "Index windows never leave the axis", "statement": "find_indexes(coordinate, half_size, boundary) returns either nothing or exactly 2*half_size indexes, each of which is a valid index of the axis, and the middle pair is the bracketing pair, for every boundary mode (expand, wrap, symmetric, undefined).", "quantifier": "all axis lengths, half sizes (also larger than the axis), boundary modes and coordinates", "why_tests_cant": "Reflection arithmetic fails only when the window is larger than the axis by an exact amount.", "anchors": ["src/pyinterp/core/include/pyinterp/detail/axis.hpp: Axis::find_indexes(coordinate, size, boundary)"]}
{"id": "C09", "title": "Flipping an axis reverses it and nothing else", "statement": "flip() turns the axis values into their reverse, keeps the set of values, is an involution, and after flipping find_index still returns the nearest point.", "quantifier": "all regular (integer and real) and irregular axes", "why_tests_cant": "Cached derived fields (half step, inverse step, direction) must stay consistent for every axis.", "anchors": ["src/pyinterp/core/include/pyinterp/detail/axis/container.hpp: flip", "src/pyinterp/core/include/pyinterp/detail/axis.hpp: Axis::flip"]}
{"id": "C10", "title": "Pickling an axis preserves it", "statement": "setstate(getstate(axis)) succeeds and yields an axis with the same values, the same circularity and the same angle handling.", "quantifier": "all constructible axes", "why_tests_cant": "Single-point regular axes and angular axes that do not cover the circle are the untested corner.", "anchors": ["src/pyinterp/core/include/pyinterp/axis.hpp: Axis::getstate, setstate", "src/pyinterp/core/include/pyinterp/detail/axis.hpp: Axis(handler, is_circle)"]}
{"id": "C11", "title": "Regular axis constructor: size, end points and equal spacing", "statement": "A regular axis built from (start, stop, num) has num values, first = start, last = stop when num>1, constant increments; it refuses num=0 and start=stop.", "quantifier": "all starts, stops, nums", "why_tests_cant": "Holds for every parameterisation, not just the sampled ones.", "anchors": ["src/pyinterp/core/include/pyinterp/detail/axis/container.hpp: AbstractRegular"]}
{"id": "C12", "title": "Period set algebra", "statement": "For time periods seen as sets of instants: contains, intersects, is_adjacent, intersection and merge agree with set membership, overlap, abutment, set intersection and set union (merge gives the union when the two periods overlap and a null period otherwise, even when they abut).", "quantifier": "all periods (including null/reversed ones where stated) and all instants", "why_tests_cant": "Closed/half-open end conventions and null periods create corner cases at every boundary pair.", "anchors": ["src/pyinterp/core/include/pyinterp/period.hpp: Period"]}
{"id": "C13", "title": "Merging period lists keeps them sorted, disjoint and covers exactly the union", "statement": "PeriodList.merge of two sorted disjoint lists yields a sorted disjoint list whose covered instants are exactly the union of the instants covered by both.", "quantifier": "all pairs of sorted disjoint period lists", "why_tests_cant": "All interleavings of two lists of any length.", "anchors": ["src/pyinterp/core/include/pyinterp/period.hpp: PeriodList::merge"]}
{"id": "C14", "title": "belong_to_a_period answers membership for every date", "statement": "For sorted dates and a sorted disjoint period list, belong_to_a_period flags exactly the dates lying in some period, for every list (also empty) and every date (also after the last period), without reading past the list.", "quantifier": "all sorted date vectors and period lists", "why_tests_cant": "The out-of-range read happens only for dates after the last period and is invisible without instrumentation.", "anchors": ["src/pyinterp/core/include/pyinterp/period.hpp: PeriodList::belong_to_a_period"]}
{"id": "C15", "title": "cross_a_period flags sampling intervals crossing a period", "statement": "cross_a_period over sorted dates flags exactly the dates d such that some instant of a period lies between d and the last date, and never reads outside its inputs.", "quantifier": "all date vectors (also empty) and lists", "why_tests_cant": "Empty inputs and periods beyond the dates are boundary cases.", "anchors": ["src/pyinterp/core/include/pyinterp/period.hpp: PeriodList::cross_a_period"]}
{"id": "C16", "title": "join_adjacent_periods preserves coverage", "statement": "Joining adjacent periods whose gap is at most epsilon never loses a covered instant and leaves no two consecutive periods closer than epsilon.", "quantifier": "all sorted lists and tolerances", "why_tests_cant": "Chains of joins of any length.", "anchors": ["src/pyinterp/core/include/pyinterp/period.hpp: PeriodList::join_adjacent_periods"]}
{"id": "C17", "title": "Filtering and restricting period lists", "statement": "filter(min_duration) keeps exactly the periods at least that long, in order; intersection(period) covers exactly the instants of the list inside the period; within keeps exactly the periods meeting the given one.", "quantifier": "all lists, periods and durations", "why_tests_cant": "Universal over lists.", "anchors": ["src/pyinterp/core/include/pyinterp/period.hpp: PeriodList::filter, intersection, within"]}
{"id": "C18", "title": "is_close and is_it_close to a period", "statement": "is_close(date, epsilon) is true exactly when the date is within epsilon of the period/list.", "quantifier": "all periods, dates and non-negative tolerances", "why_tests_cant": "Boundary equality at each end.", "anchors": ["src/pyinterp/core/include/pyinterp/period.hpp: Period::is_close, PeriodList::is_close"]}
{"id": "C19", "title": "Civil date conversion is the proleptic Gregorian calendar", "statement": "date_from_days(d) returns the unique Gregorian (year, month, day) d days after 1970-01-01: it maps 0 to 1970-01-01, consecutive days to calendar successors, always a valid date, and is inverse to the calendar day count.", "quantifier": "every integer day number, past and future", "why_tests_cant": "Centuries, leap-century rules and negative eras cannot be exhausted by sampling.", "anchors": ["src/pyinterp/core/include/pyinterp/dateutils.hpp: date_from_days"]}
{"id": "C20", "title": "Leap year test and day-of-year", "statement": "is_leap_year agrees with the Gregorian rule for every year and days_since_january counts the days since January 1st.", "quantifier": "all years / all valid dates", "why_tests_cant": "The bit-trick must hold for all (also negative) years.", "anchors": ["src/pyinterp/core/include/pyinterp/dateutils.hpp: is_leap_year, days_since_january"]}
{"id": "C21", "title": "Weekday", "statement": "weekday advances by one every day modulo seven and is Thursday for 1970-01-01.", "quantifier": "every day number", "why_tests_cant": "Negative day numbers use another code path.", "anchors": ["src/pyinterp/core/include/pyinterp/dateutils.hpp: weekday, iso_week_days"]}
{"id": "C22", "title": "ISO calendar", "statement": "isocalendar returns the ISO-8601 (year, week, weekday): week 1 is the one containing the first Thursday, weeks are in 1..53 and the triple determines the day.", "quantifier": "every date", "why_tests_cant": "Year-boundary rules depend on weekday and leap years over a 400-year cycle.", "anchors": ["src/pyinterp/core/include/pyinterp/dateutils.hpp: isocalendar"]}
{"id": "C23", "title": "Splitting a timestamp into seconds and fraction is exact", "statement": "For every resolution, splitting a 64-bit timestamp into whole seconds and fractional part uses floor division: fraction in [0, resolution), recombination gives back the timestamp, for negative timestamps too; hour/minute/second fields are in range and recombine.", "quantifier": "every timestamp and resolution", "why_tests_cant": "Negative timestamps with non-zero fraction.", "anchors": ["src/pyinterp/core/include/pyinterp/dateutils.hpp: FractionalSeconds, time_from_seconds"]}
{"id": "C24", "title": "timedelta_since_january is the elapsed time since January 1st", "statement": "For every timestamp and unit, timedelta_since_january returns the time elapsed since the start of the timestamp's year in the same unit, without overflow.", "quantifier": "every timestamp and unit", "why_tests_cant": "64-bit overflow appears only for sub-nanosecond units and far dates.", "anchors": ["src/pyinterp/core/include/pyinterp/dateutils.hpp: days_since_january", "src/pyinterp/core/module/dateutils.cpp: timedelta_since_january"]}
{"id": "C25", "title": "datetime64 dtype parsing round-trips", "statement": "Parsing the textual dtype produced for any resolution gives back the same resolution and kind; unknown text is refused.", "quantifier": "all resolutions and kinds; all strings for refusal", "why_tests_cant": "Finite but easily mis-mapped table.", "anchors": ["src/pyinterp/core/include/pyinterp/dateutils.hpp: DType"]}
{"id": "C26", "title": "Base32 text of a geohash round-trips", "statement": "Decoding the base32 text of any hash of n<=12 characters gives back the hash and n; every character produced is in the alphabet; invalid characters are refused.", "quantifier": "all 60-bit hashes and lengths, all byte strings", "why_tests_cant": "2^60 hashes.", "anchors": ["src/pyinterp/core/include/pyinterp/geohash/base32.hpp: Base32::encode, decode, validate"]}
{"id": "C27", "title": "Bit interleaving is a bijection", "statement": "Interleaving two 32-bit coordinates and deinterleaving gives the coordinates back, and conversely; the hardware (pdep/pext) path computes the same value as the portable path.", "quantifier": "all 2^64 inputs", "why_tests_cant": "Mask constants wrong in one bit survive sampling.", "anchors": ["src/pyinterp/core/lib/geohash/int64.cpp: spread, squash, interleave, deinterleave, encode, decode"]}
{"id": "C28", "title": "A geohash cell contains the point it was encoded from", "statement": "For every longitude/latitude in range and every precision, the bounding box of the encoded hash contains the point.", "quantifier": "all points and precisions 1..64", "why_tests_cant": "Cell boundaries at every level.", "anchors": ["src/pyinterp/core/lib/geohash/int64.cpp: encode, bounding_box, decode_range, encode_range"]}
{"id": "C29", "title": "Geohash prefix property", "statement": "Encoding at a coarser precision gives the prefix of the finer code; the coarse cell contains the fine cell.", "quantifier": "all points and precision pairs", "why_tests_cant": "Universal over points and precisions.", "anchors": ["src/pyinterp/core/lib/geohash/int64.cpp: encode", "src/pyinterp/core/lib/geohash/string.cpp: transform, zoom_in, zoom_out"]}
{"id": "C30", "title": "Decoding yields the cell centre and re-encodes to the same hash", "statement": "decode returns the centre of the cell, within the advertised error of the encoded point, and encode(decode(h)) = h.", "quantifier": "all hashes and precisions", "why_tests_cant": "Every cell at every level.", "anchors": ["src/pyinterp/core/lib/geohash/int64.cpp: decode, error_with_precision"]}
{"id": "C31", "title": "Geohash neighbours", "statement": "neighbors returns the eight cells sharing a side or corner; away from the poles they are exactly the adjacent cells, wrapping across the antimeridian.", "quantifier": "all hashes and precisions", "why_tests_cant": "The antimeridian and poles are a vanishing fraction of cells.", "anchors": ["src/pyinterp/core/lib/geohash/int64.cpp: neighbors"]}
{"id": "C32", "title": "bounding_boxes enumerates every cell of a box once", "statement": "bounding_boxes(box, precision) returns each cell of the covered grid exactly once, row by row.", "quantifier": "all boxes and precisions", "why_tests_cant": "Grid sizes grow as 2^precision.", "anchors": ["src/pyinterp/core/lib/geohash/int64.cpp: grid_properties, bounding_boxes", "src/pyinterp/core/lib/geohash/string.cpp"]}
{"id": "C33", "title": "Work partition across threads", "statement": "dispatch splits [0,size) into consecutive disjoint ranges whose union is exactly [0,size), for every size and thread count, so each element is processed exactly once.", "quantifier": "all sizes and thread counts", "why_tests_cant": "Remainders and thread counts exceeding the size.", "anchors": ["src/pyinterp/core/include/pyinterp/detail/thread.hpp: dispatch"]}
{"id": "C34", "title": "Parallel results do not depend on scheduling", "statement": "For every interleaving of the worker threads started by dispatch for a vectorised computation, the output array equals the sequential result, for every thread count.", "quantifier": "all sizes, thread counts and interleavings", "why_tests_cant": "Schedules cannot be enumerated by tests.", "anchors": ["src/pyinterp/core/include/pyinterp/detail/thread.hpp: dispatch", "src/pyinterp/core/include/pyinterp/bivariate.hpp", "src/pyinterp/core/include/pyinterp/fill.hpp"]}
{"id": "C35", "title": "Descriptive statistics equal their textbook definition", "statement": "After pushing any weighted samples, count, sum of weights, mean, central moments, sum, min, max equal the textbook values (exact arithmetic).", "quantifier": "all sample lists and positive weights", "why_tests_cant": "Incremental update formulas for third/fourth moments must hold for all histories.", "anchors": ["src/pyinterp/core/include/pyinterp/detail/math/descriptive_statistics.hpp: DescriptiveStatistics"]}
{"id": "C36", "title": "Merging statistics equals concatenating samples", "statement": "a += b on statistics gives the statistics of the concatenated samples for every split, including empty operands, so results are independent of chunking and order.", "quantifier": "all pairs of sample lists", "why_tests_cant": "Every chunking, including empty chunks.", "anchors": ["src/pyinterp/core/include/pyinterp/detail/math/descriptive_statistics.hpp: operator+=", "src/pyinterp/core/include/pyinterp/descriptive_statistics.hpp: operator+="]}
{"id": "C37", "title": "Axis reduction addresses the right cell", "statement": "For statistics along selected axes of a strided array, each element is pushed into the cell whose multi-index is the element's multi-index with the reduced axes removed; cells are in range.", "quantifier": "all shapes, axis selections and elements", "why_tests_cant": "Universal over ranks and shapes.", "anchors": ["src/pyinterp/core/include/pyinterp/detail/numpy.hpp: reduced_properties, unravel, update_indexes"]}
{"id": "C38", "title": "Streaming histogram never exceeds its bin budget and stays sorted", "statement": "After any history of pushes, merges and resizes with positive bin count, at most bin_count bins are kept and bin centres are in ascending order.", "quantifier": "all histories", "why_tests_cant": "History dependent.", "anchors": ["src/pyinterp/core/include/pyinterp/detail/math/streaming_histogram.hpp: StreamingHistogram"]}
{"id": "C39", "title": "Streaming histogram conserves weight, mass and count", "statement": "After any history, the sum of bin weights equals the sum of pushed weights, the weighted mean equals the mean of the pushed data, and count is the number of values pushed.", "quantifier": "all histories", "why_tests_cant": "History dependent conservation law.", "anchors": ["src/pyinterp/core/include/pyinterp/detail/math/streaming_histogram.hpp: push, trim, merge"]}
{"id": "C40", "title": "Streaming histogram min and max are the extreme pushed values", "statement": "min and max equal the extremes of the pushed values for every history.", "quantifier": "all histories", "why_tests_cant": "Fails only for some sign patterns of the data.", "anchors": ["src/pyinterp/core/include/pyinterp/detail/math/streaming_histogram.hpp: min, max"]}
{"id": "C41", "title": "Streaming histogram quantiles are bounded and monotone", "statement": "quantile(q) for q in [0,1] lies between the recorded extremes and is monotone in q.", "quantifier": "all histories with data and all q", "why_tests_cant": "Interpolation at both tails.", "anchors": ["src/pyinterp/core/include/pyinterp/detail/math/streaming_histogram.hpp: quantile"]}
{"id": "C42", "title": "Histogram serialization round-trips and rejects truncated input", "statement": "Unmarshalling a marshalled histogram (or vector of histograms) yields the same histogram; every strict prefix is refused.", "quantifier": "all histograms, all truncation points", "why_tests_cant": "Each truncation byte position.", "anchors": ["src/pyinterp/core/include/pyinterp/detail/math/streaming_histogram.hpp: operator std::string, constructor", "src/pyinterp/core/include/pyinterp/histogram2d.hpp: marshal, unmarshal"]}
{"id": "C43", "title": "Gap filling along a line preserves data", "statement": "Filling undefined values along a line never alters defined values, fills every gap when at least two values are defined, with linear interpolation between the neighbouring defined values inside and the straight line through the first and last defined values outside; integer (date) lines stay between their neighbours; fill.vector recognises its fill value.", "quantifier": "all lines and masks", "why_tests_cant": "Every mask pattern.", "anchors": ["src/pyinterp/core/include/pyinterp/fill.hpp: fill::fill_line"]}
{"id": "C44", "title": "Matrix gap filling preserves defined values", "statement": "fill matrix leaves originally defined cells unchanged.", "quantifier": "all matrices and masks", "why_tests_cant": "Rows with a single valid cell.", "anchors": ["src/pyinterp/core/include/pyinterp/fill.hpp: fill::matrix"]}
{"id": "C45", "title": "Gauss-Seidel relaxation only changes masked cells and obeys the maximum principle", "statement": "Relaxation changes only undefined cells and fills all of them; with a relaxation factor in [0,1] every value stays within the hull of the defined values (and the first guess); it stops after at most max_iterations sweeps, earlier only below the tolerance; and the reported residual bounds how far each filled cell is from the mean of its four neighbours.", "quantifier": "all grids, masks, iteration counts", "why_tests_cant": "Iteration count and mask universal.", "anchors": ["src/pyinterp/core/include/pyinterp/fill.hpp: gauss_seidel"]}
{"id": "C46", "title": "Parallel red-black Gauss-Seidel equals the sequential sweep", "statement": "For every thread count and interleaving of the loads and stores of the threads, the relaxation yields the same grid, iteration count and residual as the sequential one, and no cell written by a thread is accessed by another during a coloured sweep.", "quantifier": "all grids, thread counts, schedules", "why_tests_cant": "Schedules.", "anchors": ["src/pyinterp/core/include/pyinterp/fill.hpp: gauss_seidel"]}
{"id": "C47", "title": "Reflected frame indexes stay in range", "statement": "The mirrored window index used by loess is always inside the axis and is the standard reflection.", "quantifier": "all indexes and axis sizes", "why_tests_cant": "Degenerate size 1 and far indexes.", "anchors": ["src/pyinterp/core/include/pyinterp/fill.hpp: frame_index"]}
{"id": "C48", "title": "1-D interpolators pass through the data", "statement": "linear, cspline, periodic cspline, polynomial, akima and steffen interpolation evaluated at a data abscissa return the data ordinate.", "quantifier": "all data sets of admissible size", "why_tests_cant": "Only non-linear data reveals the failures.", "anchors": ["src/pyinterp/core/include/pyinterp/detail/interpolation/*.hpp"]}
{"id": "C49", "title": "Linear interpolation is bounded by its end values", "statement": "1-D linear interpolation between two nodes returns a value between the node values, equal to each at the node.", "quantifier": "all strictly increasing abscissae and values", "why_tests_cant": "Universal.", "anchors": ["src/pyinterp/core/include/pyinterp/detail/interpolation/linear.hpp", "src/pyinterp/core/include/pyinterp/detail/math/linear.hpp"]}
{"id": "C50", "title": "Steffen interpolation is monotone between data points", "statement": "Between consecutive nodes the Steffen interpolant stays between the two node values.", "quantifier": "all data sets", "why_tests_cant": "Slope limiter cases.", "anchors": ["src/pyinterp/core/include/pyinterp/detail/interpolation/steffen.hpp"]}
{"id": "C51", "title": "Natural cubic spline solves its tridiagonal system", "statement": "The spline coefficients satisfy the continuity equations for every strictly increasing abscissae; the elimination never divides by zero.", "quantifier": "all data sets", "why_tests_cant": "Universal over sizes.", "anchors": ["src/pyinterp/core/include/pyinterp/detail/interpolation/cspline.hpp"]}
{"id": "C52", "title": "Bilinear grid interpolation is exact at nodes and bounded", "statement": "Bilinear interpolation on a cell returns the node values at the nodes, lies within the min/max of the four corners inside the cell, and reproduces planes a+bx+cy+dxy.", "quantifier": "all cells and points", "why_tests_cant": "Universal.", "anchors": ["src/pyinterp/core/include/pyinterp/detail/math/bivariate.hpp: Bilinear", "src/pyinterp/core/include/pyinterp/bivariate.hpp: _bivariate"]}
{"id": "C53", "title": "Bilinear interpolation across the longitude seam", "statement": "On a circular longitude axis interpolating between the last and first longitude gives the same answer as in any other cell.", "quantifier": "all circular grids and longitudes in the seam cell", "why_tests_cant": "One cell out of n.", "anchors": ["src/pyinterp/core/include/pyinterp/bivariate.hpp: _bivariate"]}
{"id": "C54", "title": "Inverse distance weighting and nearest are bounded selections", "statement": "IDW returns a weighted mean with positive weights of the neighbours (exact value at a data point, NaN when no neighbour in radius); nearest returns the value of a nearest corner.", "quantifier": "all point configurations", "why_tests_cant": "Universal.", "anchors": ["src/pyinterp/core/include/pyinterp/detail/math/bivariate.hpp: InverseDistanceWeighting, Nearest", "src/pyinterp/core/include/pyinterp/detail/geometry/rtree.hpp: inverse_distance_weighting"]}
{"id": "C55", "title": "Trivariate interpolation", "statement": "3-D/4-D interpolation equals spatial interpolation at each bracketing level followed by linear (or nearest) interpolation in the extra axes; it is exact at nodes and bounded by the corner values.", "quantifier": "all cells and points", "why_tests_cant": "Universal.", "anchors": ["src/pyinterp/core/include/pyinterp/detail/math/trivariate.hpp", "src/pyinterp/core/include/pyinterp/trivariate.hpp"]}
{"id": "C56", "title": "Linear binning distributes exactly one unit of weight", "statement": "The four area weights of linear binning are non-negative and sum to one; simple binning puts each valid sample in exactly one cell; the total count over all cells equals the number of valid samples inside the grid.", "quantifier": "all cells and samples", "why_tests_cant": "Universal.", "anchors": ["src/pyinterp/core/include/pyinterp/detail/math/binning.hpp", "src/pyinterp/core/include/pyinterp/binning.hpp: Binning2D"]}
{"id": "C57", "title": "Binning state round-trips through pickling", "statement": "setstate(getstate(binning)) yields the same binning, including the spheroid.", "quantifier": "all binning objects", "why_tests_cant": "Only objects with a spheroid fail.", "anchors": ["src/pyinterp/core/include/pyinterp/binning.hpp: Binning2D::setstate"]}
{"id": "C58", "title": "Window functions are non-negative and vanish outside the radius", "statement": "Every window function used for weighting returns a value in [0,1] inside the radius and 0 outside.", "quantifier": "all distances, radii", "why_tests_cant": "Piecewise conditions.", "anchors": ["src/pyinterp/core/include/pyinterp/detail/math/window_functions.hpp"]}
{"id": "C59", "title": "Conversions from years, months, weeks, hours and minutes since 1970", "statement": "date_from_months, date_from_weeks, date_from_years, datetime_from_hours and datetime_from_minutes return the calendar date (and the time of day, in range) of the given count, before 1970 too: recombining the fields gives the count back.", "quantifier": "every integer count", "why_tests_cant": "Truncating division on negative counts with zero and non-zero remainder.", "anchors": ["src/pyinterp/core/include/pyinterp/dateutils.hpp: date_from_months, date_from_weeks, datetime_from_hours, datetime_from_minutes"]}
{"id": "C60", "title": "geohash.where locates every code of a matrix", "statement": "where(codes) has exactly one entry per distinct code of the matrix, and for a code filling a rectangular block the entry is the first and last row and column of the block.", "quantifier": "all matrices of codes, all block positions and sizes", "why_tests_cant": "Block shapes and positions (single cells, single rows, borders) are unbounded.", "anchors": ["src/pyinterp/core/lib/geohash/string.cpp: where"]}
{"id": "C61", "title": "The Loess filter is a local weighted mean", "statement": "fill.loess replaces each selected cell (all, the undefined or the defined ones, as asked) by the mean of the defined cells of its (2nx+1) by (2ny+1) window, weighted by a non-negative function of the scaled distance; the other cells are unchanged; the result lies between the smallest and the largest defined value of the window, a constant field is preserved, and the longitude wraps for a circular axis and is reflected otherwise.", "quantifier": "all grids, masks, window sizes and target selections", "why_tests_cant": "Window positions near the borders and mask patterns are unbounded.", "anchors": ["src/pyinterp/core/include/pyinterp/fill.hpp: loess, loess_"]}
{"id": "C62", "title": "An interpolator object gives the same answers after any use", "statement": "A one-dimensional interpolator that was already called, on any data sets of any sizes, gives for a data set the same values and derivatives as a new interpolator.", "quantifier": "all histories of calls, all data sets and points", "why_tests_cant": "The buffers of the objects are reused: the failures need particular sequences of sizes.", "anchors": ["src/pyinterp/core/include/pyinterp/detail/interpolation/*.hpp: compute_coefficients", "src/pyinterp/core/include/pyinterp/interpolate1d.hpp: interpolate_1d"]}
{"id": "C63", "title": "interpolate1d works point by point on a window centred on the nearest node", "statement": "Each value of interpolate1d is the interpolation of the data in the window of half_window_size nodes on both sides of the nearest node (clipped to the axis), independently of the other points asked; with kind linear (half window of one or more) or steffen (two or more) it equals the interpolation of the whole data set; with bounds_error a point outside the axis raises.", "quantifier": "all axes, data, query lists, window sizes and kinds", "why_tests_cant": "Windows near the ends and the order of the query points are unbounded.", "anchors": ["src/pyinterp/core/include/pyinterp/interpolate1d.hpp: interpolate_1d, calculate_start_end_size"]}
{"id": "C64", "title": "The derivative methods return the derivative of the interpolant", "statement": "For every kind the derivative at a point is the derivative of the interpolated function at this point.", "quantifier": "all data sets of admissible size and points", "why_tests_cant": "Only non-linear data reveals the failures.", "anchors": ["src/pyinterp/core/include/pyinterp/detail/interpolation/*.hpp: derivative_"]}
{"id": "C65", "title": "Any history of pushes, merges, clears and restores gives the statistics of the samples", "statement": "Whatever the sequence of push, +=, clear and pickling round trips on 2-D binnings over equal grids, each bin holds the statistics of exactly the samples pushed since the last clear whose nearest centre is that bin; pushing in several times equals pushing once; merging different grids or spheroids raises.", "quantifier": "all histories, axes and samples", "why_tests_cant": "Unit tests merge two small binnings; the claim ranges over all histories.", "anchors": ["src/pyinterp/core/include/pyinterp/binning.hpp: Binning2D::push, operator+=, clear, getstate, setstate"]}
{"id": "C66", "title": "One-dimensional binning keeps the samples of the range, with their weights", "statement": "Binning1D.push puts every non-NaN sample whose coordinate is in the range in the bin with the nearest centre, with its weight (1 by default), and ignores the others; the default range is that of the bin centres; pickling preserves everything.", "quantifier": "all axes, ranges, samples and weights", "why_tests_cant": "Universal over inputs; wrong array sizes and circular axes are not tested.", "anchors": ["src/pyinterp/core/include/pyinterp/binning.hpp: Binning1D"]}
{"id": "C67", "title": "The Python operator + does not modify its operands", "statement": "c = a + b on Binning1D, Binning2D, Histogram2D and DescriptiveStatistics returns an object holding the merge of a and b, and leaves a, b and every other object unchanged.", "quantifier": "all objects and heaps", "why_tests_cant": "Tests look at the result and not at the left operand afterwards.", "anchors": ["src/pyinterp/binning.py: Binning2D.__add__, Binning1D.__add__", "src/pyinterp/histogram2d.py: __add__", "src/pyinterp/statistics/descriptive_descriptive.py: __add__"]}
{"id": "C68", "title": "A grid of streaming histograms summarises exactly the values of each cell", "statement": "Whatever the sequence of push, +=, clear and pickling round trips on Histogram2D objects over equal grids, each cell holds the streaming summary (count, weighted count, min, max, mean, at most bin_count sorted bins) of exactly the values pushed since the last clear whose nearest centres are those of the cell; merging different grids or pushing arrays of different sizes is refused.", "quantifier": "all histories, axes, bin counts and samples", "why_tests_cant": "Unit tests merge two small grids; the claim ranges over all histories.", "anchors": ["src/pyinterp/core/include/pyinterp/histogram2d.hpp: Histogram2D::push, operator+=, clear, getstate, setstate"]}
{"id": "C69", "title": "The exported and serialized grid of histograms is faithful", "statement": "histograms() gives for every cell its bins in order, padded with missing values of null weight to the largest number of bins; the serialized bytes restore the grid exactly, and truncated bytes or the bytes of a grid of another shape are refused.", "quantifier": "all grids, all cut points", "why_tests_cant": "Every cut point and every shape; tests pickle one grid.", "anchors": ["src/pyinterp/core/include/pyinterp/histogram2d.hpp: histograms, getstate, setstate", "src/pyinterp/core/include/pyinterp/detail/math/streaming_histogram.hpp: operator std::string, constructor from std::string_view"]}
{"id": "C70", "title": "The spatial index holds exactly what was put in it", "statement": "Whatever the sequence of packing, insert, clear and pickling round trips, an RTree holds exactly the points and values given since the last packing or clear; badly shaped arrays are refused; bounds() is the box of the stored positions.", "quantifier": "all histories, coordinates and values, geodetic or Cartesian indexes", "why_tests_cant": "All histories; pickling of Cartesian indexes and negative coordinates are not tested.", "anchors": ["src/pyinterp/core/include/pyinterp/rtree.hpp: packing, insert, getstate, setstate, equatorial_bounds", "src/pyinterp/core/include/pyinterp/detail/geometry/rtree.hpp: packing, insert, clear"]}
{"id": "C71", "title": "query returns the k nearest neighbours", "statement": "RTree.query gives for each position the distances and values of k nearest stored points, in increasing order of distance, no other stored point being nearer, and -1 for neighbours that do not exist; with within=True only if the neighbours surround the position.", "quantifier": "all contents, positions and k", "why_tests_cant": "Universal over point sets and ties.", "anchors": ["src/pyinterp/core/include/pyinterp/detail/geometry/rtree.hpp: query, query_within, query_ball", "src/pyinterp/core/include/pyinterp/rtree.hpp: _query"]}
{"id": "C72", "title": "Inverse distance weighting is a mean of the neighbours", "statement": "RTree.inverse_distance_weighting returns the stored value at a stored position, otherwise the mean, weighted by d^-p, of the values of the k nearest points not further than the radius; it lies between them, and the number of values used is returned (NaN and 0 if none).", "quantifier": "all contents, positions, radii, k and p", "why_tests_cant": "Universal over inputs.", "anchors": ["src/pyinterp/core/include/pyinterp/detail/geometry/rtree.hpp: inverse_distance_weighting"]}
{"id": "C73", "title": "Window function interpolation is a mean of the neighbours", "statement": "RTree.window_function returns the mean of the values of the k nearest points not further than the radius (default: the furthest neighbour), weighted by the window; it lies between them, and the number of values used is returned (NaN and 0 if none).", "quantifier": "all contents, positions, radii, k, windows and arguments", "why_tests_cant": "Universal over inputs and windows; the default arguments are only tested for success.", "anchors": ["src/pyinterp/core/include/pyinterp/detail/geometry/rtree.hpp: window_function", "src/pyinterp/interface.py: _core_window_function", "src/pyinterp/rtree.py: window_function"]}
{"id": "C74", "title": "value returns the neighbours within the radius", "statement": "RTree.value returns the stored points and values among the k nearest that are not further than the radius, nearest first, then NaN; with within=True only if they surround the position. Radial basis functions and kriging use the same selection.", "quantifier": "all contents, positions, radii and k", "why_tests_cant": "Universal over inputs.", "anchors": ["src/pyinterp/core/include/pyinterp/detail/geometry/rtree.hpp: value, nearest, nearest_within", "src/pyinterp/core/include/pyinterp/rtree.hpp: _value"]}
{"id": "C75", "title": "Trigonometric functions of degrees", "statement": "The sine, cosine and tangent of an angle in degrees used by every geodetic computation are those of the angle, for any number of turns and any sign; they are exact at multiples of 90 degrees.", "quantifier": "all real angles in degrees", "why_tests_cant": "The quadrant arithmetic (remquo, unsigned conversion of a negative quotient) must be right for every angle; tests sample a few.", "anchors": ["src/pyinterp/core/include/pyinterp/detail/math.hpp: sind, cosd, sincosd, tand"]}
{"id": "C76", "title": "Direction of a vector in degrees", "statement": "The longitude returned for Cartesian coordinates is the direction of (x, y), in ]-180, 180]; it inverts the sine and cosine of C75.", "quantifier": "all non-null vectors, all angles of ]-180, 180]", "why_tests_cant": "Octant case analysis over the whole plane.", "anchors": ["src/pyinterp/core/include/pyinterp/detail/math.hpp: atan2d, atand"]}
{"id": "C77", "title": "Geodetic to Cartesian coordinates", "statement": "Coordinates converted from longitude, latitude and altitude are on the spheroid at altitude 0, with the normal at the geodetic latitude; altitudes are distances along the normal; whole turns of longitude do not matter; two distinct positions give distinct points.", "quantifier": "all spheroids, longitudes, latitudes and altitudes", "why_tests_cant": "Universal over the reals.", "anchors": ["src/pyinterp/core/include/pyinterp/detail/geodetic/coordinates.hpp: lla_to_ecef", "src/pyinterp/core/include/pyinterp/detail/geodetic/spheroid.hpp"]}
{"id": "C78", "title": "Cartesian to geodetic coordinates", "statement": "Converting geodetic coordinates to Cartesian ones and back gives the same longitude, latitude and altitude; the latitude changes its sign with z and does not depend on the longitude.", "quantifier": "all spheroids and positions outside the centre of the Earth", "why_tests_cant": "Universal over the reals; the algorithm is an approximation with two branches.", "anchors": ["src/pyinterp/core/include/pyinterp/detail/geodetic/coordinates.hpp: ecef_to_lla, transform"]}
{"id": "C79", "title": "Parameters of a spheroid", "statement": "The eccentricities, curvatures and radii of a spheroid fulfil their defining relations; mean, authalic, volumetric and geocentric radii are between the two axes and are the radius for a sphere; the geocentric radius is the distance from the centre to the points of the surface at the latitude.", "quantifier": "all spheroids (0 < a, 0 <= f < 1) and latitudes", "why_tests_cant": "Universal over the parameters; tests use WGS-84 only.", "anchors": ["src/pyinterp/core/include/pyinterp/detail/geodetic/spheroid.hpp"]}
{"id": "C80", "title": "Cells of the grid used by the spline and bicubic interpolators", "statement": "bicubic() and spline interpolation of a point use exactly the window of nx points on each side along x and ny along y: the answer depends on no other cell, is NaN as soon as one value of the window is missing, and without a complete window it is NaN, or an exception with bounds_error, if the boundary is 'undef'.", "quantifier": "all grids on ascending axes (circles included), points, window sizes and kinds of interpolation", "why_tests_cant": "Locality compares pairs of grids; windows cross the seam of circles at any point.", "anchors": ["src/pyinterp/core/include/pyinterp/detail/math/frame.hpp, frame.hpp: load_frame", "src/pyinterp/interpolator/bicubic.py: bicubic", "src/pyinterp/core/module/bicubic.cpp"]}
{"id": "C81", "title": "Spline interpolation of a 2-D grid", "statement": "The value interpolated is that of the curve of the kind asked along y through the values of the curves along x; at a point of the grid it is the value stored; a window too small for the kind raises; the answers do not depend on the number of threads or on the other points.", "quantifier": "all grids, points, window sizes, distributions of points over threads", "why_tests_cant": "Universal over inputs and schedules.", "anchors": ["src/pyinterp/core/include/pyinterp/detail/math/spline2d.hpp: Spline2D::interpolate", "src/pyinterp/core/module/bicubic.cpp"]}
{"id": "C82", "title": "Bicubic interpolation of a 2-D grid", "statement": "The value is that of the bicubic polynomial of the cell around the point whose values at the corners are those of the grid and whose slopes are those of natural splines through the window; at a point of the grid it is the value stored; 'bilinear' is the bilinear interpolation of the cell; windows of one point on a side raise.", "quantifier": "all grids, points and window sizes", "why_tests_cant": "Universal over inputs.", "anchors": ["src/pyinterp/core/include/pyinterp/detail/interpolation/bicubic.hpp", "src/pyinterp/core/include/pyinterp/detail/interpolation/bilinear.hpp", "src/pyinterp/core/include/pyinterp/detail/interpolation/interpolator_2d.hpp"]}
{"id": "C83", "title": "Windows beyond the edges and angular ordinates", "statement": "With boundary 'expand', 'sym' or 'wrap' every point inside the grid gets a value; with angular ordinates whole turns do not matter.", "quantifier": "all points inside the grid", "why_tests_cant": "Universal over inputs.", "anchors": ["src/pyinterp/core/include/pyinterp/axis.hpp: find_indexes(coordinate, size, boundary)", "src/pyinterp/core/include/pyinterp/frame.hpp: load_frame"]}
{"id": "C84", "title": "Spline and bicubic interpolation of 3-D and 4-D grids", "statement": "The value is linear along z between the interpolations of the two layers around z, and along u between those of the two 3-D grids around u; missing if one of them is; NaN or an exception outside; independent of the threads.", "quantifier": "all grids, positions (real or temporal z), window sizes and distributions over threads", "why_tests_cant": "Universal over inputs and schedules.", "anchors": ["src/pyinterp/core/include/pyinterp/frame.hpp: load_frame", "src/pyinterp/core/module/bicubic.cpp: bicubic_3d, bicubic_4d"]}
{"id": "C85", "title": "Unrolling of the two tracks of a crossover", "statement": "Before intersecting, the longitudes of two tracks are unrolled: each becomes continuous across the seam, latitudes and sizes are unchanged, and two points of the tracks are at the same longitude on the Earth if and only if they are at the same abscissa of the plane.", "quantifier": "all pairs of monotone tracks, in any direction and any longitude convention, wherever they cross the seam", "why_tests_cant": "Universal over tracks; tests use a few passes.", "anchors": ["src/pyinterp/core/include/pyinterp/detail/geometry/crossover.hpp: is_retrograde, normalize_line_strings"]}
{"id": "C86", "title": "Crossovers returned", "statement": "crossover and crossover_list return the points common to the two tracks, with longitudes in [-180, 180), with the positions of the nearest points of each track, provided both are within the distance asked for; None exactly when the tracks have no common point; an exception when there are several; the two functions agree.", "quantifier": "all pairs of tracks and distances, in the plane and on the spheroid", "why_tests_cant": "Universal over tracks.", "anchors": ["src/pyinterp/core/include/pyinterp/detail/geometry/crossover.hpp: Crossover::search, nearest_point", "src/pyinterp/core/lib/geodetic/crossover.cpp: crossover, crossover_list"]}
{"id": "C87", "title": "Curvilinear distance and closest points", "statement": "curvilinear_distance gives for each point the sum of the lengths of the segments before it: 0 first, never decreasing, at least the chord; closest_point on arrays gives for each point the answer for that point and rejects arrays of different sizes.", "quantifier": "all line strings and distance functions", "why_tests_cant": "Universal over inputs.", "anchors": ["src/pyinterp/core/lib/geodetic/line_string.cpp: curvilinear_distance, closest_point"]}
{"id": "C88", "title": "Geometries survive pickling and GeoJSON", "statement": "Pickling or converting to GeoJSON and back returns the same line string, polygon, multipolygon and crossover object.", "quantifier": "all geometries", "why_tests_cant": "Universal over values.", "anchors": ["src/pyinterp/core/lib/geodetic/line_string.cpp: getstate, setstate, to_geojson, from_geojson", "src/pyinterp/core/lib/geodetic/polygon.cpp: coordinates, from_geojson", "src/pyinterp/core/lib/geodetic/multipolygon.cpp"]}
{"id": "C89", "title": "Boxes", "statement": "Box(a, b) is the box of corners a and b in any order; longitudes outside [-180, 180] are rejected; pickling a box returns the same box; a GeoJSON box is west, south, east, north.", "quantifier": "all pairs of corners", "why_tests_cant": "Universal over values.", "anchors": ["src/pyinterp/core/include/pyinterp/geodetic/box.hpp: Box, from_geojson, getstate, setstate", "src/pyinterp/core/module/geodetic.cpp: init_geodetic_box"]}
{"id": "C90", "title": "Rearrangement of an orbit", "statement": "calculate_orbit rearranges any ephemeris so that its first point is the beginning of pass 1 (the first southern turning point): the points are kept in the order of the closed track, the times start at 0, stay below the cycle and increase.", "quantifier": "all ephemerides, whatever the point of the revolution they start from and the number of revolutions", "why_tests_cant": "Universal over ephemerides; the tests use one file.", "anchors": ["src/pyinterp/orbit.py: _rearrange_orbit"]}
{"id": "C91", "title": "Start of the passes", "statement": "The start times of the passes of an orbit are sorted, begin with the first time and designate the turning points of the track, so that inside a pass the satellite goes only north or only south; their number is even.", "quantifier": "all tracks of the orbit", "why_tests_cant": "Universal over tracks.", "anchors": ["src/pyinterp/orbit.py: _calculate_pass_time"]}
{"id": "C92", "title": "Absolute pass numbers", "statement": "encode_absolute_pass_number and decode_absolute_pass_number are inverse of each other; consecutive numbers are consecutive passes; passes outside [1, passes_per_cycle] are rejected.", "quantifier": "all orbits and numbers", "why_tests_cant": "Universal over integers.", "anchors": ["src/pyinterp/orbit.py: Orbit.decode_absolute_pass_number, Orbit.encode_absolute_pass_number"]}
{"id": "C93", "title": "Durations and iteration over the passes", "statement": "Every pass has a positive duration; the sum of the durations is the cycle duration; iterate yields every pass in order, at the date of the previous one plus its duration, exactly as long as the date is not after the last date, repeats after one cycle, and ends.", "quantifier": "all orbits, dates and first pass numbers", "why_tests_cant": "Universal over histories of the generator.", "anchors": ["src/pyinterp/orbit.py: Orbit.pass_duration, Orbit.iterate, Orbit.cycle_duration, Orbit.orbit_duration"]}
{"id": "C94", "title": "Points of a pass", "statement": "The passes numbered 1 to passes_per_cycle share out all the points of the orbit, each in exactly one pass; calculate_pass returns the points of the pass (of the box), None if there are too few; other pass numbers are rejected.", "quantifier": "all orbits, pass numbers and boxes", "why_tests_cant": "Universal over orbits.", "anchors": ["src/pyinterp/orbit.py: calculate_pass"]}
{"id": "C95", "title": "Crossing of the equator", "statement": "For every pass that crosses the equator, the coordinates at the equator are computed between two consecutive points on either side of it.", "quantifier": "all passes of at least two points, cut by a box or not", "why_tests_cant": "Universal over passes.", "anchors": ["src/pyinterp/orbit.py: _equator_properties"]}
{"id": "C96", "title": "Across track distances of a swath", "statement": "x_ac holds the distances at which the pixels are placed: symmetric about the track, from half_gap on, spaced by the across track resolution, up to half_swath; mask selects the pixels within the bounds; insert_central_pixel adds the nadir in the middle and keeps the other columns.", "quantifier": "all arguments and shapes", "why_tests_cant": "Universal over parameters.", "anchors": ["src/pyinterp/orbit.py: calculate_swath, Swath.mask, Swath.insert_central_pixel"]}
{"id": "C97", "title": "Ephemerides that start near the equator", "statement": "When the ephemeris starts near the equator its first, incomplete pass is dropped and the rest of the track is kept.", "quantifier": "all ephemerides", "why_tests_cant": "Universal over ephemerides.", "anchors": ["src/pyinterp/orbit.py: calculate_orbit"]}
{"id": "C98", "title": "Position of the pixels of a swath", "statement": "The pixels of a swath are the nadir turned about the direction of travel by the distance divided by the Earth radius, to the right for the second half of the columns and to the left for the first half: same distance to the Earth centre, symmetric, in the plane across the track, at the distance asked for.", "quantifier": "all tracks, resolutions, gaps and spheroids", "why_tests_cant": "Universal over tracks; tests compare one reference.", "anchors": ["src/pyinterp/core/include/pyinterp/geodetic/swath.hpp: calculate_swath", "src/pyinterp/core/include/pyinterp/detail/math/orbit.hpp: satellite_direction, rotation_3d_matrix"]}
{"id": "C99", "title": "Radial basis functions", "statement": "With smooth = 0, radial_basis_function at a data point returns its value; the interpolant is linear in the values, does not depend on the order of the points nor on a rigid motion of all the points, and the default epsilon is the mean distance of the pairs of neighbours.", "quantifier": "all trees of distinct points, functions, parameters, numbers of neighbours and query points", "why_tests_cant": "Universal over sets of points: it rests on the regularity of the matrices of the functions for every set of distinct points.", "anchors": ["src/pyinterp/core/include/pyinterp/detail/math/radial_basis_functions.hpp: RBF", "src/pyinterp/core/include/pyinterp/detail/geometry/rtree.hpp: radial_basis_function"]}
{"id": "C100", "title": "Covariance functions", "statement": "The covariance functions are the documented ones: symmetric, sigma^2 at a null distance, never larger, never negative, decreasing with the distance, and positive definite for every set of distinct points.", "quantifier": "all functions, parameters, distances and finite sets of points", "why_tests_cant": "Universal over reals and sets of points.", "anchors": ["src/pyinterp/core/include/pyinterp/detail/math/kriging.hpp: matern_covariance_12 ... linear_covariance", "src/pyinterp/rtree.py: RTree.universal_kriging"]}
{"id": "C101", "title": "Kriging", "statement": "universal_kriging at a data point returns its value, reproduces a constant field, is linear in the values, does not depend on sigma nor on a rigid motion of the points; non-positive parameters are rejected; coordinates with an altitude are used like in the other queries.", "quantifier": "all trees of distinct points, functions, parameters and query points", "why_tests_cant": "Universal over sets of points.", "anchors": ["src/pyinterp/core/include/pyinterp/detail/math/kriging.hpp: Kriging", "src/pyinterp/core/include/pyinterp/detail/geometry/rtree.hpp: universal_kriging", "src/pyinterp/core/include/pyinterp/rtree.hpp: universal_kriging"]}
{"id": "C102", "title": "Functions designated by their names", "statement": "Every documented name of a covariance, radial basis or window function designates that function, every other string is rejected with ValueError, and epsilon is rejected for the functions that do not use it.", "quantifier": "all strings", "why_tests_cant": "Universal over strings.", "anchors": ["src/pyinterp/interface.py: _core_covariance_function, _core_radial_basis_function, _core_window_function", "src/pyinterp/core/module/enum.cpp"]}
{"id": "C103", "title": "Grids with increasing axes", "statement": "Grid2D/3D/4D(increasing_axes=...) keeps the value of every coordinate and makes all the axes ascending; 'inplace' modifies only the axes given, 'copy' modifies none, any other word is rejected.", "quantifier": "all axes, arrays, modes and histories of the axis objects", "why_tests_cant": "Universal over grids and over the sharing of axis objects between grids.", "anchors": ["src/pyinterp/grid.py: Grid2D.__init__", "src/pyinterp/core/module/axis.cpp: flip"]}
{"id": "C104", "title": "Interpolation does not depend on the direction of the axes", "statement": "Two grids that give the same values to the same coordinates answer the same interpolated values, whatever the direction in which their axes are stored; in particular increasing_axes does not change the answers.", "quantifier": "all pairs of grids of the same field, interpolators, missing values and query points", "why_tests_cant": "Universal over grids and queries: a test compares one grid at a few points.", "anchors": ["src/pyinterp/grid.py: Grid2D.__init__", "src/pyinterp/core/include/pyinterp/detail/axis.hpp: find_indexes", "src/pyinterp/core/include/pyinterp/bivariate.hpp, trivariate.hpp"]}
{"id": "C105", "title": "Grids built from xarray", "statement": "The grid built from a DataArray is that array: its axes are made of the coordinates of the dimensions (longitude and latitude first, identified by their CF units), every cell is the element with the same labels, and the result does not depend on the order in which the dimensions are stored.", "quantifier": "all data arrays of 2, 3 or 4 dimensions, units, orders of dimensions, directions of the coordinates", "why_tests_cant": "Universal over layouts of arrays.", "anchors": ["src/pyinterp/backends/xarray.py: Grid2D, Grid3D, Grid4D, RegularGridInterpolator, _dims_from_data_array", "src/pyinterp/cf.py"]}
{"id": "C106", "title": "Coordinates given by name", "statement": "In a call with a dictionary of coordinates each value goes to the axis of its name whatever the order of the entries; exactly the names of the axes are accepted.", "quantifier": "all dictionaries and grids", "why_tests_cant": "Universal over dictionaries.", "anchors": ["src/pyinterp/backends/xarray.py: _coords"]}
{"id": "C107", "title": "Order of the two last dimensions", "statement": "The answers for an array of four dimensions do not depend on the order in which Python enumerates the set of its two last dimensions, which changes from one run to the next.", "quantifier": "all arrays, enumeration orders and methods", "why_tests_cant": "The enumeration order depends on the hash seed of the process.", "anchors": ["src/pyinterp/backends/xarray.py: Grid4D.__init__"]}
{"id": "C108", "title": "Grids of any numeric type", "statement": "A grid holds the numbers of the numpy array it is made from, is a view of this array or a copy of it according to a rule the user can tell from the type, and every interpolation function accepts every grid that could be made with its number of dimensions, running the code compiled for its type.", "quantifier": "all arrays, types of numpy, byte orders, numbers of dimensions, functions, later writes in the array or in the grid", "why_tests_cant": "Universal over values and histories of writes.", "anchors": ["src/pyinterp/interface.py: _core_class_suffix, _core_function", "src/pyinterp/grid.py: Grid2D.__init__", "src/pyinterp/core/module/grid.cpp", "src/pyinterp/core/module/bicubic.cpp", "src/pyinterp/core/include/pyinterp/grid.hpp: Grid2D"]}
{"id": "C109", "title": "Contents of a geodetic RTree", "statement": "After any history of packing, insert, clear and pickling, pyinterp.geodetic.RTree holds exactly the points given since the last packing or clear, each with its value and its position; the convention used for the longitudes does not matter; arrays of different sizes are rejected without effect.", "quantifier": "all histories of operations, positions, values and spheroids", "why_tests_cant": "Universal over histories and positions.", "anchors": ["src/pyinterp/core/lib/geodetic/rtree.cpp", "src/pyinterp/core/include/pyinterp/geodetic/rtree.hpp: RTree", "src/pyinterp/geodetic/__init__.py: RTree"]}
{"id": "C110", "title": "Neighbours in a geodetic RTree", "statement": "query returns the k stored points nearest to the position in increasing order of the geodetic distance on the spheroid of the tree, with their values, completed by -1; within=True keeps them only when they surround the position; the answers do not depend on the convention of longitudes nor on the other positions of the request.", "quantifier": "all stored points, positions, k, spheroids and positions requested together", "why_tests_cant": "Universal over point sets and spheroids.", "anchors": ["src/pyinterp/core/lib/geodetic/rtree.cpp: query, nearest, nearest_within, value"]}
{"id": "C111", "title": "Interpolations of a geodetic RTree", "statement": "inverse_distance_weighting and window_function return the weighted mean of exactly the neighbours within the radius, the number of them, and no value when there is none; radial_basis_function is given exactly these neighbours.", "quantifier": "all stored points, positions, radii, k, powers, windows and spheroids", "why_tests_cant": "Universal over point sets, radii and spheroids.", "anchors": ["src/pyinterp/core/lib/geodetic/rtree.cpp: inverse_distance_weighting, window_function, radial_basis_function, nearest", "src/pyinterp/core/include/pyinterp/geodetic/rtree.hpp"]}
{"id": "C112", "title": "Copies of a geodetic RTree", "statement": "A pickled or deep-copied tree holds the same points and no later change of one is seen through the other; copy.copy gives another name of the same tree.", "quantifier": "all trees and histories of changes of both objects", "why_tests_cant": "Universal over interleavings of changes of the two objects.", "anchors": ["src/pyinterp/core/module/geodetic.cpp: __copy__, pickle", "src/pyinterp/core/include/pyinterp/geodetic/rtree.hpp: operator=, tree_"]}
{"id": "C113", "title": "Filling arrays from Python", "statement": "fill.matrix and fill.vector fill arrays of every floating point type, integers and dates with their default arguments: the array answered is the one filled by the library function of its type, the array given is changed if and only if in_place, and a call that fails changes nothing.", "quantifier": "all arrays (types, strides, flags), fill values and modes", "why_tests_cant": "Universal over arrays and layouts of the memory.", "anchors": ["src/pyinterp/fill.py: matrix, vector", "src/pyinterp/core/module/fill.cpp"]}
{"id": "C114", "title": "Relaxation of grids from Python", "statement": "fill.gauss_seidel leaves the grid unchanged, fills each slice of a grid of three dimensions as a grid of two dimensions, says that it has converged exactly when every slice has, whatever the order in which the threads end; the default relaxation factor is between 0 and 2.", "quantifier": "all grids, sizes, parameters and orders of completion of the threads", "why_tests_cant": "The order of completion depends on the scheduler.", "anchors": ["src/pyinterp/fill.py: gauss_seidel"]}
{"id": "C115", "title": "Objects of class GeoHash", "statement": "GeoHash(lon, lat, precision) is the code of the requested length whose cell contains the position, whatever the number of turns in the longitude; from_string, str and pickling give the same code back; bounding_box, center, number_of_bits and the integer value are those of the cell; neighbors are the eight adjacent cells in the documented order; invalid codes and precisions are refused.", "quantifier": "all positions, precisions, codes and processors (with and without BMI2)", "why_tests_cant": "Universal over positions and over the codes of every length.", "anchors": ["src/pyinterp/core/include/pyinterp/geohash.hpp: GeoHash", "src/pyinterp/core/module/geohash.cpp", "src/pyinterp/_geohash.py: GeoHash"]}
{"id": "C116", "title": "Arrays of geohash codes", "statement": "geohash.encode and decode work on each element independently; to_xarray puts each value in the cell of its code (the last one when a code is repeated), leaves the initial value in all the others, and the coordinates of its axes are the centres of the cells.", "quantifier": "all arrays of codes of one length, values and positions", "why_tests_cant": "Universal over arrays, codes and repetitions.", "anchors": ["src/pyinterp/core/lib/geohash/string.cpp: encode, decode", "src/pyinterp/core/module/geohash/string.cpp", "src/pyinterp/geohash/converter.py: to_xarray"]}
{"id": "C117", "title": "GeoHash.grid", "statement": "GeoHash.grid(box, precision) holds each of the codes of bounding_boxes(box, precision) in the cell whose coordinates are the centre of the code, longitudes increasing and latitudes decreasing; its units make it usable by the geodetic grids of backends.xarray.", "quantifier": "all boxes and precisions", "why_tests_cant": "Universal over boxes.", "anchors": ["src/pyinterp/_geohash.py: grid", "src/pyinterp/core/include/pyinterp/geohash.hpp: grid_properties", "src/pyinterp/geohash/converter.py"]}
{"id": "C118", "title": "Normalisation of longitudes", "statement": "geodetic.normalize_longitudes answers the longitudes brought in [min_lon, min_lon + 360), without changing the angles nor NaN; an array that can be written is modified in place, and only its elements; an array that cannot be is left unchanged and a new one is answered.", "quantifier": "all arrays (types, strides, flags, views of shared memory), longitudes and min_lon", "why_tests_cant": "Universal over arrays and layouts of the memory.", "anchors": ["src/pyinterp/geodetic/__init__.py: normalize_longitudes", "src/pyinterp/core/module/geodetic.cpp: normalize_longitudes"]}
{"id": "C119", "title": "Geometric functions of arrays of positions", "statement": "coordinate_distances, covered_by and closest_point of arrays give for each position what the computation on that position alone gives, whatever the number of threads and their schedule; arrays of different sizes and unknown strategies are refused; an exception of one position is raised by the call.", "quantifier": "all arrays of positions, numbers of threads and schedules", "why_tests_cant": "Universal over schedules and arrays.", "anchors": ["src/pyinterp/core/include/pyinterp/geodetic/algorithm.hpp: covered_by, coordinate_distances", "src/pyinterp/core/lib/geodetic/line_string.cpp: closest_point", "src/pyinterp/core/module/geodetic.cpp: parse_distance_strategy", "src/pyinterp/core/include/pyinterp/detail/broadcast.hpp"]}
{"id": "C120", "title": "Geohash codes of a polygon", "statement": "geohash.bounding_boxes(polygon, precision) gives, whatever the number of threads, each code whose cell intersects the polygon, once, row by row from the south-west.", "quantifier": "all polygons (through the intersection test and the envelope), precisions, numbers of threads and schedules", "why_tests_cant": "Universal over schedules, envelopes and polygons.", "anchors": ["src/pyinterp/core/lib/geohash/string.cpp: mask_cell, select_cell, bounding_boxes", "src/pyinterp/core/module/geohash/string.cpp: bounding_boxes"]}
{"id": "C121", "title": "Dates of a temporal axis", "statement": "TemporalAxis.find_index, find_indexes and safe_cast accept dates of any resolution: on ascending dates find_indexes gives the two successive points around each date, and (-1, -1) outside; find_index gives the nearest point; a conversion which loses precision is announced by a warning; durations are refused by an axis of dates and conversely, as are arrays which are not contiguous vectors of dates.", "quantifier": "all temporal axes, arrays of dates, resolutions from weeks to attoseconds, warning filters", "why_tests_cant": "Universal over dates and pairs of resolutions.", "anchors": ["src/pyinterp/core/include/pyinterp/temporal_axis.hpp: TemporalAxis, safe_cast, find_index, find_indexes", "src/pyinterp/core/include/pyinterp/dateutils.hpp: DType", "src/pyinterp/core/module/axis.cpp: init_temporal_axis"]}
{"id": "C122", "title": "Axes as Python sequences", "statement": "axis[i], axis[start:stop:step] and list(axis) are those of the sequence of the values of the axis (a negative index is refused); == of axes is the equality of the values; a pickled or copied axis equals its original and answers like it; the array methods answer coordinate by coordinate.", "quantifier": "all axes, indices, slices, histories of flips and copies", "why_tests_cant": "Universal over slices, sizes and histories.", "anchors": ["src/pyinterp/core/include/pyinterp/axis.hpp: coordinate_values, find_index, find_indexes, getstate, setstate", "src/pyinterp/core/include/pyinterp/temporal_axis.hpp: coordinate_values, getstate, setstate", "src/pyinterp/core/module/axis.cpp: implement_axis", "src/pyinterp/core/include/pyinterp/detail/axis/container.hpp: operator=="]}
{"id": "C123", "title": "Delayed computations on chunked arrays", "statement": "Binning2D.push_delayed, Binning1D.push_delayed, Histogram2D.push_delayed, and DescriptiveStatistics and StreamingHistogram of dask arrays return what the whole arrays give, whatever the chunks, the tree in which the partial results are added and the order in which the workers execute the additions; no execution fails or blocks.", "quantifier": "all chunkings, trees of additions and schedules", "why_tests_cant": "Universal over chunkings, reduction trees and interleavings.", "anchors": ["src/pyinterp/binning.py: push_delayed", "src/pyinterp/histogram2d.py: push_delayed", "src/pyinterp/statistics/descriptive_descriptive.py: _delayed", "src/pyinterp/statistics/streaming_histogram.py: _delayed", "src/pyinterp/core/include/pyinterp/descriptive_statistics.hpp: operator+="]}
{"id": "C124", "title": "Interpolating arrays of points in grids", "statement": "bivariate, trivariate and quadrivariate of arrays return, whatever the number of threads and their schedule, an array whose element i is the interpolation of the point i alone, NaN when this point is outside the axes; with bounds_error=True a point outside raises an exception and no other one does; arrays of other shapes and unknown methods are refused; cutting the arrays in chunks changes nothing.", "quantifier": "all grids, interpolators, arrays of points, numbers of threads and schedules", "why_tests_cant": "Universal over arrays and interleavings.", "anchors": ["src/pyinterp/core/include/pyinterp/bivariate.hpp: bivariate", "src/pyinterp/core/include/pyinterp/trivariate.hpp: trivariate", "src/pyinterp/core/include/pyinterp/quadrivariate.hpp: quadrivariate", "src/pyinterp/core/include/pyinterp/detail/broadcast.hpp: check_array_ndim, check_ndarray_shape"]}
{"id": "C125", "title": "Copies of grids", "statement": "A copied or unpickled 2D, 3D or 4D grid interpolates every point like the original, with every interpolator, and its axes keep their kind.", "quantifier": "all grids and all points", "why_tests_cant": "Universal over grids and queries.", "anchors": ["src/pyinterp/core/include/pyinterp/grid.hpp: getstate, setstate", "src/pyinterp/core/include/pyinterp/axis.hpp: getstate, setstate"]}
{"id": "C126", "title": "Periods of dates", "statement": "A Period built from numpy dates of any units lasts from the instant of the first one to that of the second one; contains, is_before, is_after answer for dates of every unit according to these instants; contains, intersects, intersection, merge of two periods are those of the sets of instants; pickling and comparing agree with the dates.", "quantifier": "all periods, dates and units (attoseconds to years), the Gregorian calendar included", "why_tests_cant": "Universal over dates and pairs of units.", "anchors": ["src/pyinterp/period.py: Period", "src/pyinterp/core/include/pyinterp/period.hpp: Period"]}
{"id": "C127", "title": "Lists of periods of dates", "statement": "A PeriodList built from an array of dates holds them; belong_to_a_period, cross_a_period, is_it_close, join_adjacent_periods, filter, within, intersection and merge answer according to the instants, whatever the units of their arguments; the methods said to return a new list leave the object unchanged.", "quantifier": "all lists, dates, durations and units", "why_tests_cant": "Universal over lists, dates and pairs of units.", "anchors": ["src/pyinterp/period.py: PeriodList", "src/pyinterp/core/include/pyinterp/period.hpp: PeriodList"]}
{"id": "C128", "title": "Loess filter of whole grids", "statement": "loess on a grid of 2, 3 or 4 dimensions writes every cell of its result, each horizontal slice being filtered by itself, with the same values whatever num_threads and the schedule; window sizes below 1 and unknown value types are refused.", "quantifier": "all grids, window sizes, value types, numbers of threads and interleavings", "why_tests_cant": "Universal over schedules and grids.", "anchors": ["src/pyinterp/core/include/pyinterp/fill.hpp: loess, loess_", "src/pyinterp/core/include/pyinterp/detail/thread.hpp: dispatch", "src/pyinterp/fill.py: loess"]}
{"id": "C129", "title": "Spline and bicubic interpolation of arrays", "statement": "bicubic(mesh, x, y[, z[, u]]) gives for every element of the arrays the value that the interpolation of this point alone gives, whatever num_threads; descending axes, unknown models or boundaries, missing coordinates and arrays of different shapes are refused.", "quantifier": "all arrays, grids, fitting models, window sizes and numbers of threads", "why_tests_cant": "Universal over arrays and numbers of threads; the interpolators keep working storage between points.", "anchors": ["src/pyinterp/core/module/bicubic.cpp", "src/pyinterp/interpolator/bicubic.py: bicubic", "src/pyinterp/core/include/pyinterp/detail/broadcast.hpp", "src/pyinterp/core/include/pyinterp/detail/thread.hpp"]}
{"id": "C130", "title": "Texts of dates", "statement": "The text of a date (in the messages of the interpolators and axes) denotes the instant of this date: it has the precision of the unit, two-digit months, days, hours, minutes and seconds and the decimals of the unit; two different dates of a unit have different texts.", "quantifier": "all dates (before and after 1970, any year) and all thirteen units of numpy.datetime64", "why_tests_cant": "Infinitely many dates; carries between fields and padding occur at boundaries tests sample poorly.", "anchors": ["src/pyinterp/core/include/pyinterp/dateutils.hpp: datetime64_to_string, date_from_*, datetime_from_*", "src/pyinterp/core/module/dateutils.cpp", "src/pyinterp/core/include/pyinterp/temporal_axis.hpp: coordinate_repr"]}
{"id": "C131", "title": "Interpolation of an orbit", "statement": "orbit.interpolate gives, at a coordinate where a position of the orbit is given, this position; adding whole turns to the longitudes changes nothing, and turning the whole orbit turns the interpolated positions.", "quantifier": "all orbits, heights, spheroids, positions and interpolation coordinates", "why_tests_cant": "Universal over orbits and spheroids; an error that depends on the flattening is small and smooth, so that it looks like an interpolation error in tests with tolerances.", "anchors": ["src/pyinterp/orbit.py: interpolate", "src/pyinterp/core/include/pyinterp/detail/geodetic/coordinates.hpp", "src/pyinterp/core/include/pyinterp/interpolate1d.hpp"]}
{"id": "C132", "title": "Adding an object to itself", "statement": "s += s on statistics or on a binning counts every sample twice, as adding a copy would do; adding another histogram or grid of histograms changes the left object into the combination of the two and nothing else.", "quantifier": "all statistics, binnings, histograms and grids of histograms, whether or not the two operands are the same object", "why_tests_cant": "The result depends on the order of the writes when the operands share memory, and on every state; tests add different objects.", "anchors": ["src/pyinterp/core/include/pyinterp/detail/math/descriptive_statistics.hpp: operator+=", "src/pyinterp/core/include/pyinterp/detail/math/streaming_histogram.hpp: operator+=", "src/pyinterp/core/include/pyinterp/binning.hpp: operator+=", "src/pyinterp/core/include/pyinterp/histogram2d.hpp: operator+=", "src/pyinterp/core/include/pyinterp/descriptive_statistics.hpp", "src/pyinterp/core/include/pyinterp/streaming_histogram.hpp"]}
{"id": "C133", "title": "Building an orbit", "statement": "calculate_orbit gives one position, one time and one distance for each point, the points at the distance asked for (2 km by default), the times never decreasing, interpolated between the points of the ephemeris, and the rearrangement of the ephemeris does not break the regularity of the times.", "quantifier": "all ephemerides with increasing times, cycle durations, resolutions and spheroids", "why_tests_cant": "Universal over ephemerides of any length and over the whole chain of transformations; tests build one orbit and compare a few numbers.", "anchors": ["src/pyinterp/orbit.py: calculate_orbit, _rearrange_orbit, _calculate_pass_time"]}
{"id": "C134", "title": "Evenly spaced axes in floating point arithmetic", "statement": "With binary64 numbers and rounding: the points of an evenly spaced axis are the exact ones up to a few units in the last place, they are distinct and ordered, each is found at its own index, find_index is the nearest index up to a tiny fraction of a step, flip() and pickle keep the points up to a few units in the last place and the indices of the points of the original; a copy is equal to its original, flipping twice gives the same axis, the last point is the value given, and any coordinate outside gives -1 or the end.", "quantifier": "all binary64 end points and sizes (2 to 2^44 points, first point at most 2^44 steps from zero), coordinates and histories flip / pickle", "why_tests_cant": "Rounding errors depend on every bit of the end points: tests use steps that are exact in binary.", "anchors": ["src/pyinterp/core/include/pyinterp/detail/axis/container.hpp: AbstractRegular, Regular", "src/pyinterp/core/include/pyinterp/axis.hpp: getstate, setstate"]}
{"id": "C135", "title": "Bilinear interpolation in floating point arithmetic", "statement": "With binary64 numbers and rounding, for evenly spaced axes: the cell used always contains the coordinates, a coordinate outside gives NaN, at a node the result is exactly the value of the node, elsewhere it is finite and within a few units in the last place of the largest value from the exact bilinear interpolation, hence within the values of the grid up to that error; a constant field is interpolated to its constant.", "quantifier": "all grids of evenly spaced axes (2 to 2^44 points), all finite values, all coordinates", "why_tests_cant": "Rounding errors depend on every bit of the coordinates and values; a cell missed by one index appears only for coordinates within rounding of a point.", "anchors": ["src/pyinterp/core/include/pyinterp/detail/axis.hpp: find_indexes", "src/pyinterp/core/include/pyinterp/detail/math/bivariate.hpp: Bilinear", "src/pyinterp/core/include/pyinterp/bivariate.hpp"]}
{"id": "C136", "title": "Trivariate and quadrivariate interpolations in floating point arithmetic", "statement": "With binary64 numbers and rounding, for evenly spaced axes: at a node of a 3D or 4D grid the interpolation is exactly the value of the node, elsewhere it is finite and within a few units in the last place of the largest value from the exact multilinear interpolation; the linear interpolation between two dates is exact at the dates and close to the exact one between them, for any two dates.", "quantifier": "all 3D and 4D grids of evenly spaced axes (2 to 2^44 points), all finite values, all coordinates; all pairs of 64-bit dates", "why_tests_cant": "Rounding errors depend on every bit of the coordinates and values, and accumulate over the stacked interpolations.", "anchors": ["src/pyinterp/core/include/pyinterp/detail/math/linear.hpp", "src/pyinterp/core/include/pyinterp/detail/math/trivariate.hpp", "src/pyinterp/core/include/pyinterp/trivariate.hpp", "src/pyinterp/core/include/pyinterp/quadrivariate.hpp"]}
{"id": "C137", "title": "Longitudes in floating point arithmetic", "statement": "With binary64 numbers and rounding, for an ascending evenly spaced axis of longitudes: a longitude of the range of the axis is not changed; any other one is brought between the first longitude and this longitude plus 360 (rounded, included), with an error of the order of that of the additions; the interpolation of a grid at a longitude any number of turns away is close to the exact interpolation in its cell and stays within the values of the grid.", "quantifier": "all finite longitudes up to 2^940, all ascending axes of longitudes of 2 to 2^44 points, all grids of finite values", "why_tests_cant": "The rounding of x - min, of the remainder and of the sum decides on which side of a point of the axis the longitude falls; only some rare values go wrong.", "anchors": ["src/pyinterp/core/include/pyinterp/detail/math.hpp normalize_angle", "src/pyinterp/core/include/pyinterp/detail/axis.hpp normalize_coordinate, find_indexes", "src/pyinterp/core/include/pyinterp/bivariate.hpp"]}
{"id": "C138", "title": "Descriptive statistics in floating point arithmetic", "statement": "With binary64 numbers and rounding, for samples without weights: the count, the minimum and the maximum are exact (NaN ignored), the mean is between the minimum and the maximum and close to the exact mean (at most n units in the last place of the largest sample, up to a small factor), and the variance is a number that is not negative; for equal samples the mean is exactly the value and the variance exactly zero. The same for an array reduced along an axis, which uses another algorithm.", "quantifier": "all arrays of at most 2^53 samples of absolute value at most 2^400, NaN anywhere, in any order", "why_tests_cant": "Each sample adds a rounding error to the mean and to the second moment; a test can only sample some sequences.", "anchors": ["src/pyinterp/core/include/pyinterp/detail/math/descriptive_statistics.hpp", "src/pyinterp/core/include/pyinterp/descriptive_statistics.hpp"]}
{"id": "C139", "title": "Geohashes in floating point arithmetic", "statement": "With binary64 numbers and rounding, the code of a point is the code that exact arithmetic gives to a point of the Earth at most 2.3e-13 degrees away in longitude and in latitude, whatever the precision and the instructions used; so the point is in the cell of its code or at most 2.3e-13 degrees from it, and a coarser code is the beginning of the finer one. Decoding a coordinate is exact and encoding it again gives the same index.", "quantifier": "all longitudes and latitudes that are the upper limit or at least 2^-40 degrees below it, all precisions from 1 to 64 bits, both instruction sets", "why_tests_cant": "The rounding near the border of a cell concerns rare numbers; a test can only sample some points.", "anchors": ["src/pyinterp/core/lib/geohash/int64.cpp"]}
