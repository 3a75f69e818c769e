{"id": "C01", "title": "Percentile confidence intervals are ordered, nested and inside the sample", "statement": "Every confidence interval the library reports by taking percentiles 50-c/2 and 50+c/2 of a non-empty set of Monte-Carlo or bootstrap estimates has lower end <= median <= upper end; raising the confidence level never shrinks the interval; at level 100 it is exactly [min, max] of the estimates; the exceedance level decreases as the exceedance probability increases.", "quantifier": "for every non-empty multiset of finite estimates, every confidence level in [0,100] and every exceedance probability in [0,100]", "why_tests_cant": "the sample size and the values are arbitrary and the interpolation index moves between order statistics; a test sees a handful of sizes and levels", "anchors": ["rdtools/degradation.py: degradation_year_on_year, _degradation_CI", "rdtools/bootstrap.py: _construct_confidence_intervals", "rdtools/soiling.py: SRRAnalysis.run, annual_soiling_ratios, monthly_soiling_rates"]}
{"id": "C02", "title": "Year-on-year pairs are one calendar year apart, at most eight days late, and always the latest candidate", "statement": "degradation_year_on_year reports a YoY value for an input point exactly when some other input point, moved forward one calendar year, lands on it or up to eight days before it, and the two energies involved are available; the partner used is the one that lands latest, and the value is 100*(difference of renormalised energies) divided by the elapsed time in 365-day years, so the elapsed time is always between 365 and 374 days. If several points land on the same instant (28 and 29 February of a leap year) one of them is used, the same for all points that could use them; the contract of the unstable sort does not say which, so the rate is then not determined by the data (refuted).", "quantifier": "for every set of timestamped inputs with distinct timestamps (any gaps, any leap years, any sub-daily times)", "why_tests_cant": "calendar arithmetic around 29 February and the as-of join depend on every date in the input; tests use a few regular series", "anchors": ["rdtools/degradation.py: degradation_year_on_year"]}
{"id": "C03", "title": "Year-on-year recovers the slope of an exactly linear series", "statement": "If the normalized energy is an exact straight line in elapsed time, every YoY value and the reported degradation rate equal 100 times its slope per 365 days divided by the renormalising factor, no matter which rows are missing.", "quantifier": "for every line, every set of distinct timestamps spanning at least two years with at least one pair", "why_tests_cant": "needs to hold for all gap patterns, leap years and offsets at once", "anchors": ["rdtools/degradation.py: degradation_year_on_year"]}
{"id": "C04", "title": "Year-on-year with recentering is independent of the units of the input", "statement": "Multiplying every normalized energy by the same positive constant leaves the degradation rate, all YoY values, the confidence interval, the exceedance level and usage_of_points unchanged and multiplies the renormalizing factor by that constant.", "quantifier": "for every input series, every positive constant and every outcome of the random draws", "why_tests_cant": "relational property over pairs of runs, including the Monte-Carlo draws", "anchors": ["rdtools/degradation.py: degradation_year_on_year", "rdtools/utilities.py: robust_median"]}
{"id": "C05", "title": "Year-on-year does not depend on the order of the rows", "statement": "Permuting the rows of the input (distinct timestamps) changes nothing in the result, including which error is raised.", "quantifier": "for every input and every permutation of its rows", "why_tests_cant": "all permutations of all inputs", "anchors": ["rdtools/degradation.py: degradation_year_on_year"]}
{"id": "C06", "title": "Year-on-year refuses short or unpairable data and otherwise returns the median of the YoY values", "statement": "degradation_year_on_year raises ValueError when the data span is less than two calendar years minus one step, or when not a single pair exists; in every other case the returned rate is the median of a non-empty list of YoY values and therefore lies between the smallest and the largest of them.", "quantifier": "for every input series and every inferred step", "why_tests_cant": "the boundary depends on leap years and on the step; and absence of pairs is a global property of the index", "anchors": ["rdtools/degradation.py: degradation_year_on_year"]}
{"id": "C07", "title": "usage_of_points counts how a point was used", "statement": "Every entry of usage_of_points is 0, 1 or 2; it counts one if the point is the later member of a reported pair and one if it is the earlier member in the first row matched to it. A point that is the earlier member only of later rows is reported as unused (deviation from the documented meaning 'never used'). All of this also holds for data with 28 and 29 February of a leap year, with the partners that give the reported values.", "quantifier": "for every input series", "why_tests_cant": "depends on multiple matches to the same earlier point, which only irregular data produce", "anchors": ["rdtools/degradation.py: degradation_year_on_year"]}
{"id": "C08", "title": "Circular block bootstrap samples are the model times residuals taken in circular blocks", "statement": "Each bootstrap sample has the length and index of the signal; the value at position i is model_fit[i] combined with the residual at a position of the form (block start + offset) mod n where offset = i mod block_length; if the model fits exactly, every sample equals the signal; a sample never uses a residual that is not in the data.", "quantifier": "for every signal, every model fit without zeros, every block length, every choice of block starts, multiplicative and additive decomposition", "why_tests_cant": "quantifies over every random draw", "anchors": ["rdtools/bootstrap.py: _make_time_series_bootstrap_samples"]}
{"id": "C09", "title": "Circular-block uncertainty is only computed for regular data and short blocks", "statement": "With uncertainty_method='circular_block', degradation_year_on_year raises ValueError for data without a fixed frequency and for block_length greater than a third of the number of points, before any bootstrap is run; the degradation trend used equals 1 + rate/100 times elapsed (mean) years.", "quantifier": "for every input, block length and inferred frequency", "why_tests_cant": "guards must hold for all inputs", "anchors": ["rdtools/degradation.py: degradation_year_on_year"]}
{"id": "C10", "title": "OLS degradation is the least squares line, recovers an exact line and is unit-free", "statement": "degradation_ols reports 100*slope/intercept of the line minimising the sum of squared deviations of the available values, with time in 365-day years since the first row. With available values at two or more distinct times it succeeds exactly from three values on (LinAlgError below); with all of them at one time (duplicate timestamps) exactly from two on, and then takes the line of least coefficients among those of least error; without any value it raises a ValueError. On data lying exactly on a line with non-zero value at the first timestamp the rate is exactly 100*slope/intercept. NaN rows after the first have no effect, shifting all timestamps has no effect, and multiplying the data by any non-zero constant leaves the rate unchanged. A series without rows raises an IndexError.", "quantifier": "for every series, every line, every set of timestamps, every NaN pattern, every constant, every random draw", "why_tests_cant": "infinitely many inputs; tests check one slope within tolerance", "anchors": ["rdtools/degradation.py: degradation_ols"]}
{"id": "C11", "title": "Classical decomposition: which gaps are rejected, where the moving average is reported, and exactness on lines", "statement": "degradation_classical_decomposition raises ValueError if the series has no frequency or its available rows are not evenly spaced; in particular for any gap between available rows of a series with two consecutive available rows. (A missing first or last stretch is accepted, contrary to the error message.) The moving average is reported exactly at points at least half a year away from both ends and is the mean of the available values in the half-open window of 365 days around the point. For a daily series of at least 369 days on an exact line it equals the series there and the reported rate is exactly 100*slope/intercept; for a step that divides half a year exactly the average is half a step late and the intercept is off by slope times half a step.", "quantifier": "for every series, every missing pattern, every line, step and length", "why_tests_cant": "windowing is symmetric only because of the exact window boundary convention; tests use noisy data within tolerance", "anchors": ["rdtools/degradation.py: degradation_classical_decomposition"]}
{"id": "C12", "title": "Mann-Kendall statistic is antisymmetric, order-based and saturates", "statement": "The S statistic changes sign when the series is reversed or negated, is unchanged by any strictly increasing transformation, is bounded by n(n-1)/2 in absolute value with equality exactly for strictly monotone series; the reported trend is 'increasing' only if S > 0 and 'decreasing' only if S < 0. The variance used in presence of ties is larger than the variance without ties, whereas the Mann-Kendall correction makes it smaller, so ties lower the reported significance.", "quantifier": "for every series of finite values and every monotone transformation", "why_tests_cant": "relational and quantifies over all transformations", "anchors": ["rdtools/degradation.py: _mk_test"]}
{"id": "C13", "title": "Interpolation is exact, local and never extrapolates", "statement": "interpolate returns, at each target time: the source value if the target coincides with a valid source point; the linear interpolation of the two bracketing valid source points if they are no further apart than the maximum gap; and NaN otherwise, in particular before the first and after the last valid point. Interpolating a frame fails in the cases in which a series does, and a frame without columns raises a ValueError.", "quantifier": "for every source series (NaNs anywhere), every target index and every maximum gap", "why_tests_cant": "arbitrary gaps and targets; the code works on a merged index whose interpolation could leak across excluded gaps", "anchors": ["rdtools/normalization.py: interpolate, _interpolate_series"]}
{"id": "C14", "title": "Interpolation ignores missing rows and stays between neighbours", "statement": "Adding or removing NaN rows in the source never changes the output; every interpolated value lies between its two neighbours; interpolating onto the source index returns the source; scaling or shifting the source values scales or shifts the output.", "quantifier": "for every source, target and gap limit", "why_tests_cant": "relational over all sources", "anchors": ["rdtools/normalization.py: interpolate, _interpolate_series"]}
{"id": "C15", "title": "Right-labelled energy conserves power times time", "statement": "For target intervals longer than the median step, right-labelled energy_from_power returns one row per interval starting before the last input row, and each value is the sum, over steps between consecutive available values not longer than max_timedelta, of the later value times the hours of the step inside the interval (NaN if the label lies in a longer step or nothing is covered); without gaps the values add up to the total of power times time; for intervals up to the median step the value is the interpolated power at the label times the width; scaling power scales energy in every case.", "quantifier": "for every strictly increasing index, every values (missing or finite), every width and limit", "why_tests_cant": "conservation over arbitrary irregular steps and bin edges", "anchors": ["rdtools/normalization.py: energy_from_power, _aggregate"]}
{"id": "C16", "title": "Energy is never computed across a gap longer than the limit", "statement": "An energy value whose label lies in a step longer than max_timedelta is NaN for every power type and width; a step between available values longer than max_timedelta (including one created by missing values) contributes nothing to any right-labelled value, and an interval met only by such steps is NaN. The documented stronger claim that every interval containing such a gap is NaN is false.", "quantifier": "for every power series and every max_timedelta", "why_tests_cant": "gap patterns are unbounded", "anchors": ["rdtools/normalization.py: energy_from_power, _aggregate"]}
{"id": "C17", "title": "Instantaneous energy is the trapezoid integral", "statement": "With power_type='instantaneous' and target intervals longer than the median step, the energy of an interval is the trapezoidal integral of the piecewise-linear interpolant of the available points over the steps not longer than the limit, the last value being held to the end of the last interval and the piece following a long gap starting at the next row or label; up to the median step it is the mean of the interpolated ends times the width, for an interval whose first end is the first row or follows a known label, NaN in steps longer than the limit and in the other intervals, except that the last known value is held over all missing labels after it; it is exact for linear power and agrees with right-labelled energy for constant power.", "quantifier": "for every strictly increasing index, with values missing or finite", "why_tests_cant": "requires equality of two integrals for arbitrary irregular steps", "anchors": ["rdtools/normalization.py: _aggregate"]}
{"id": "C18", "title": "PVWatts power is linear and equals the rating at reference conditions", "statement": "pvwatts_dc_power is linear in irradiance and in rated power, equals power_dc_rated at poa_global_ref and temperature_cell_ref, ignores temperature when either the temperature or the coefficient is missing, and changes by exactly gamma per degree.", "quantifier": "for all finite inputs with non-zero reference irradiance", "why_tests_cant": "algebraic identity over all values", "anchors": ["rdtools/normalization.py: pvwatts_dc_power"]}
{"id": "C19", "title": "Normalisation by a model that explains the data gives one, and is unit-free", "statement": "Each value returned by normalize_with_expected_power is measured energy over the energy of the expected power (interpolated first exactly when the model has the longer average step). If the measured energy equals the energy computed from the expected power it returns exactly 1 wherever that energy is non-zero and NaN elsewhere; multiplying measured and expected by the same positive constant changes nothing; scaling the rating by c divides the result by c; a missing frequency or unknown pv_input raises ValueError.", "quantifier": "for all energies, expected powers and positive constants", "why_tests_cant": "relational over all series", "anchors": ["rdtools/normalization.py: normalize_with_expected_power, normalize_with_pvwatts"]}
{"id": "C20", "title": "irradiance_rescale terminates and returns a single multiple of the simulated irradiance", "statement": "The iterative method performs at most max_iterations optimisations whatever the optimiser returns; it either raises ConvergenceError or returns factor*irrad_sim where the last two factors differ by no more than the threshold; if the first guess (ratio of 90th percentiles) is within the threshold of one, it is returned with no optimisation at all; an unknown method raises ValueError. If the optimiser finds the minimum, the next factor is the least-squares factor over the clear rows and within 20 % of the previous one, and measured irradiance proportional to the simulated one is returned itself.", "quantifier": "for every optimiser behaviour, every max_iterations and threshold", "why_tests_cant": "the optimiser is arbitrary (it can oscillate or diverge)", "anchors": ["rdtools/normalization.py: irradiance_rescale"]}
{"id": "C21", "title": "aggregation_insol is an insolation-weighted mean", "statement": "For each interval with positive total insolation and complete data the aggregated value lies between the smallest and largest normalized energy in the interval, equals the common value if they are all equal, is unchanged by rescaling insolation, and equals the total energy over total expected when normalized energy is that ratio. A row whose energy is NaN while its insolation is not is counted with weight but no energy, which biases the mean towards zero.", "quantifier": "for every pair of series on one index, every bin width, all non-negative insolation", "why_tests_cant": "weights and bins are arbitrary", "anchors": ["rdtools/aggregation.py: aggregation_insol"]}
{"id": "C22", "title": "Robust statistics ignore small values and treat missing values as zeros", "statement": "robust_quantile, robust_median and robust_mean are the quantile, median and mean of exactly the values above 1/1000 of the q-quantile of the data with missing values counted as zero (NaN if there are none); the result lies within the range of those values and scales with the data. For non-negative data, zeros in place of missing values give the same results. Leaving missing values out gives the same results when no value lies between the two thresholds, but not in general, contrary to the docstrings.", "quantifier": "for every series and every q in [0,1]", "why_tests_cant": "threshold depends on a quantile of arbitrary data", "anchors": ["rdtools/utilities.py: robust_quantile, robust_median, robust_mean"]}
{"id": "C23", "title": "Range filters keep exactly the strictly interior points", "statement": "normalized_filter, poa_filter and tcell_filter return True exactly for values strictly between the limits; missing and infinite values are rejected when limits are finite; NaN is always rejected; widening the limits never removes a point; a missing limit means no limit on that side.", "quantifier": "for every value including NaN and infinities, every limit", "why_tests_cant": "boundary and special values; the whole real line", "anchors": ["rdtools/filtering.py: normalized_filter, poa_filter, tcell_filter"]}
{"id": "C24", "title": "csi_filter keeps exactly the points with clear-sky index within the threshold", "statement": "csi_filter is True exactly when the measured value is finite and measured/clearsky lies in [1-threshold, 1+threshold]; False for a missing or infinite measurement and for missing or zero clear-sky irradiance; an infinite clear-sky value counts as index 0 and is accepted exactly when the threshold is at least 1. The mask has the common index, or the sorted union with missing values rejected; it is unchanged when both irradiances are multiplied by the same positive constant.", "quantifier": "for every pair of values and every threshold", "why_tests_cant": "special values and all scales", "anchors": ["rdtools/filtering.py: csi_filter, clearsky_filter"]}
{"id": "C25", "title": "quantile_clip_filter removes exactly the top of the power range", "statement": "quantile_clip_filter keeps exactly the points below 0.99 times the robust quantile; if a point is kept then every smaller point is kept; missing points are rejected; the mask does not depend on the unit of power.", "quantifier": "for every power series and quantile", "why_tests_cant": "threshold is data dependent", "anchors": ["rdtools/filtering.py: quantile_clip_filter, clip_filter"]}
{"id": "C26", "title": "two_way_window_filter is scale free and never removes sparse or missing points", "statement": "two_way_window_filter keeps a point exactly when its normalised distance to the median of the preceding window or to the median of the following window is below the threshold, a distance that cannot be computed (missing value, or fewer than five valid values in the window) counting as zero; hence missing values and isolated points are always kept for positive thresholds, and the mask is unchanged when the series is multiplied by a positive constant.", "quantifier": "for every series (irregular, with NaN), every window and threshold", "why_tests_cant": "window contents vary with the index", "anchors": ["rdtools/filtering.py: two_way_window_filter"]}
{"id": "C27", "title": "hampel_filter is invariant under shift and scale and rejects missing values", "statement": "hampel_filter keeps exactly the points whose distance to the centred-window median is at most t0 * 1.4826 times the centred-window median of these distances. The mask is unchanged by adding a constant to the series or multiplying it by a non-zero constant; missing values are rejected; a constant stretch is kept; increasing t0 never removes a point.", "quantifier": "for every series, window and t0 >= 0", "why_tests_cant": "relational over all series and transformations", "anchors": ["rdtools/filtering.py: hampel_filter"]}
{"id": "C28", "title": "Tukey fences widen with k only on the upper side", "statement": "directional_tukey_filter keeps a point exactly when its distance to the preceding-window median or to the following-window median lies strictly between the fences of that distance distribution; the upper fence is p75 + k*IQR, but the lower fence is p25 - 1.5*IQR whatever k is, contrary to the documented meaning of k; raising k never removes a point; the mask is unchanged by a shift and by a positive scaling of the series.", "quantifier": "for every series and k", "why_tests_cant": "only visible for k != 1.5 and asymmetric data; tests use the default", "anchors": ["rdtools/filtering.py: directional_tukey_filter, _tukey_fence"]}
{"id": "C29", "title": "insolation_filter keeps at least the requested fraction", "statement": "insolation_filter(insolation, quantile) keeps exactly the rows whose insolation is at least the quantile-level sample quantile of the available insolation values. Of n available values at least n - ceil((n-1)*quantile) are kept and the largest one always is; NaN rows are dropped; raising the quantile can only remove rows; multiplying the insolation by a positive constant does not change the answer.", "quantifier": "for every series and every q in [0,1]", "why_tests_cant": "counting statement over arbitrary data with ties", "anchors": ["rdtools/filtering.py: insolation_filter"]}
{"id": "C30", "title": "pvlib_clearsky_filter looks up parameters by clamped linear interpolation", "statement": "With lookup_parameters and a known frequency, the window length, max_diff, var_diff and slope_dev handed to the detector are the piecewise-linear interpolation of the published table, constant outside 1..30 minutes, hence always within the table's range and non-decreasing in the sampling interval; otherwise the user's values are passed unchanged; components are never returned.", "quantifier": "for every sampling interval and every user parameter", "why_tests_cant": "continuum of sampling intervals", "anchors": ["rdtools/filtering.py: pvlib_clearsky_filter"]}
{"id": "C31", "title": "logic_clip_filter input checks and final mask", "statement": "logic_clip_filter raises for unsorted data, wrong mounting type and ten or fewer readings; otherwise it returns one boolean per input row; a row is marked clipped only if it lies inside the day's detected clipping band (or within 0.25% of its ends when the band is wider than 2.5%), or at or above the 99th robust percentile when the overall rule applies; missing values are never marked clipped.", "quantifier": "for every power series, mounting type, cutoff and window length", "why_tests_cant": "long pipeline with data-dependent branches", "anchors": ["rdtools/filtering.py: logic_clip_filter, _format_clipping_time_series, _apply_overall_clipping_threshold"]}
{"id": "C32", "title": "xgboost_clip_filter post-processing bounds what the classifier can remove", "statement": "Whatever the classifier predicts, xgboost_clip_filter never removes a missing value, a value below 10% of the data range or below 90% (95% for 5 minute or coarser data) of its day's maximum, and without any positive prediction it removes nothing. Days after the last day with a positive prediction inherit that day's thresholds and can lose points although the classifier flagged none of them.", "quantifier": "for every power series and every classifier output", "why_tests_cant": "the classifier is arbitrary", "anchors": ["rdtools/filtering.py: xgboost_clip_filter, _calculate_xgboost_model_features"]}
{"id": "C33", "title": "hour_angle_filter keeps exactly the points within the hour angle window", "statement": "hour_angle_filter is True exactly for min <= hour angle <= max, keeps the index, and widening the window never removes a point; clip_filter and clearsky_filter raise ValueError for unknown model names and otherwise are exactly the named filter.", "quantifier": "for every hour-angle value and window, every model name", "why_tests_cant": "all model names and values", "anchors": ["rdtools/filtering.py: hour_angle_filter, clip_filter, clearsky_filter"]}
{"id": "C34", "title": "Subsystem availability loss is non-negative, zero when everything is online, and respects the system limit", "statement": "loss_subsystem is a finite non-negative number at every time; it is zero whenever all subsystems report above the threshold; with a power_system_limit, loss plus (non-negative) system power never exceeds max(limit, system power); the implied online fraction lies between the fraction of capacity reporting and one.", "quantifier": "for every system and subsystem power (NaNs included), every threshold, relative sizes and limit", "why_tests_cant": "arbitrary combinations of missing and offline subsystems", "anchors": ["rdtools/availability.py: AvailabilityAnalysis._calc_loss_subsystem"]}
{"id": "C35", "title": "Full outages are maximal daylight-spanning runs", "statement": "A time is inside a full outage exactly when the nearest earlier or the nearest later daylight time (inclusive) had no subsystem reporting; the reported outages are exactly the maximal runs of such times, in order and disjoint, provided at least one time is not in an outage. A data set that is entirely in outage yields no reported outage at all.", "quantifier": "for every reporting pattern and every daylight pattern", "why_tests_cant": "all boolean patterns of all lengths", "anchors": ["rdtools/availability.py: AvailabilityAnalysis._calc_loss_system"]}
{"id": "C36", "title": "Outage classification and loss follow the meter", "statement": "An outage is 'unknown' exactly when the metered production is missing or below -5% of expected, otherwise 'real' exactly when metered production is below the lower confidence bound, otherwise 'comms'; the loss is expected minus metered for real outages, zero for comms and missing for unknown; a real outage with lower bound at most the expected energy has positive loss. An outage that starts at the first timestamp takes its starting meter reading from the last timestamp.", "quantifier": "for every meter reading, expected energy and error band", "why_tests_cant": "special values and boundary index", "anchors": ["rdtools/availability.py: AvailabilityAnalysis._calc_loss_system"]}
{"id": "C37", "title": "Loss reconstruction of an outage", "statement": "Within an outage the reconstructed lost power is proportional to expected power and its energy computed over the outage rows equals the outage's loss; the corrected cumulative meter at the outage end equals the meter reading there. The lost production of the whole run additionally counts the first outage interval, so it exceeds the sum of outage losses whenever expected power at the outage start is positive.", "quantifier": "for every outage with positive expected energy", "why_tests_cant": "exact conservation over arbitrary profiles", "anchors": ["rdtools/availability.py: AvailabilityAnalysis._calc_loss_system, _combine_losses"]}
{"id": "C38", "title": "Availability is a fraction", "statement": "For each rollup period with non-negative lost and actual production not both zero, availability equals actual/(actual+lost), lies in [0,1], equals 1 exactly without loss and decreases as the loss grows; inputs with different indexes are rejected with ValueError.", "quantifier": "for all productions and losses", "why_tests_cant": "algebraic over all values", "anchors": ["rdtools/availability.py: AvailabilityAnalysis.__init__, _combine_losses"]}
{"id": "C39", "title": "Soiling intervals partition the analysed days", "statement": "The analysis is refused exactly when a series is not daily. Every day between the first and last valid day belongs to exactly one soiling interval; intervals are contiguous, ordered, and a new one starts exactly at days flagged as cleaning (by the chosen criterion from shifts of the rolling median above the threshold and rain within one day) or at the edges of an outage; outage edges are flagged exactly at the last valid day before and the first valid day after more than day_scale missing days. With trim the first and last interval are dropped.", "quantifier": "for every daily series, NaN pattern, cleaning pattern and day_scale", "why_tests_cant": "all NaN and event patterns", "anchors": ["rdtools/soiling.py: SRRAnalysis._calc_daily_df, _calc_result_df"]}
{"id": "C40", "title": "Valid soiling intervals have the advertised shape and invalid ones are flat", "statement": "Whenever the fit of an interval is finite, the interval is valid exactly when it has more than min_interval_length positive points (strictly more, although documented as a minimum), slope <= 0, relative slope error below the limit (a horizontal fit of no width passes) and no step at or below minus max_negative_step; every invalid interval has slope and slope bounds 0; inferred recovery lies in [0,1] and is the step from the end of a valid interval to the start of the next valid one; NoValidIntervalError is raised exactly when no interval is valid. Refuted: a valid interval always has a slope (with minimum length 0 a single point gives NaN and stays valid).", "quantifier": "for every list of fitted intervals and all filter settings", "why_tests_cant": "all combinations of criteria including NaN slope errors", "anchors": ["rdtools/soiling.py: SRRAnalysis._calc_result_df"]}
{"id": "C41", "title": "Monte-Carlo soiling profiles start at or below one and the soiling ratio is an insolation-weighted mean", "statement": "In every realisation of every method each interval's starting level is at most 1 and profiles never increase within an interval, hence every profile value is at most 1 and the soiling ratio of the realisation is an insolation-weighted mean of the profile, at most 1; the reported median and bounds are ordered and at most 1; perfect_clean starts every interval at exactly 1. Needed: draws from the unit interval and a fit whose lower bound is not above its slope (C58). Infinite or missing slope bounds end in OverflowError. Without realizations the percentiles raise an IndexError (a ValueError if a level is outside its range).", "quantifier": "for every interval table, every insolation, every random draw", "why_tests_cant": "quantifies over all draws", "anchors": ["rdtools/soiling.py: SRRAnalysis._calc_monte"]}
{"id": "C42", "title": "Levels drawn for invalid intervals belong to their own neighbours", "statement": "For the half_norm_clean and random_clean methods, an invalid interval's level lies between the end of the previous valid interval and the start of the next one (1 at the edges), and all invalid intervals of one group share one level - provided the groups are visited in ascending order. The code visits them in set-iteration order but assigns the results by position, so under other orders (such as CPython's 8, 1 for the set {1, 8}) a level is assigned to a different group. The levels of the valid intervals do not depend on the order.", "quantifier": "for every interval table, every draw and every iteration order of the group set", "why_tests_cant": "set iteration order is an implementation detail tests do not vary", "anchors": ["rdtools/soiling.py: SRRAnalysis._calc_monte"]}
{"id": "C43", "title": "annual_soiling_ratios is a per-year weighted mean with ordered quantiles", "statement": "The table has one row for every year in which some day has a value in all realisations. For every year with non-zero insolation each realisation's annual ratio is the insolation-weighted mean of its daily values, so between its smallest and largest one when insolation is not negative; the row holds median and quantiles over realisations with low <= median <= high; at level 100 low and high are min and max. No realisations or a level beyond 100 raise ValueError; years without insolation give NaN.", "quantifier": "for every set of profiles, insolation and level in [0,100]", "why_tests_cant": "arbitrary numbers of years and profiles", "anchors": ["rdtools/soiling.py: annual_soiling_ratios"]}
{"id": "C44", "title": "monthly_soiling_rates allocates samples by overlap and stays inside the rate bounds", "statement": "Each month's samples number at least reps and fewer than reps plus the number of intervals overlapping it when any interval overlaps, and zero otherwise (reported as NaN); each interval gets its share of days, rounded up; day counts over the twelve months add up to the interval's number of days; all reported rates are quantiles of the samples, lie between the smallest lower bound and the largest upper bound of the overlapping intervals and are ordered low <= median <= high. Exactly the valid intervals that are long and certain enough take part; a horizontal one never does.", "quantifier": "for every interval table, reps, level and draw", "why_tests_cant": "rounding up per interval over arbitrary overlaps; calendar", "anchors": ["rdtools/soiling.py: monthly_soiling_rates, _count_month_days"]}
{"id": "C45", "title": "CODS decomposition follows a fixed schedule, stops within max_iterations and restarts the component cycle when perfect cleaning is given up", "statement": "iterative_signal_decomposition carries out at most max_iterations component fits, whatever the fits return. Fit i uses the components in cyclic order; perfect cleaning is given up after the first fit i >= n (number of components) with i >= max_iterations/2 or a relative improvement of the error over the last n fits below the criterion, and the cycle then begins again with the first component of the given order (so for orders not starting with SR the soiling component is not fitted first, contrary to the code comment). It stops at the first fit at least n after that change with hardly any improvement, or at max_iterations. An order without SR raises ValueError, and an order (after removal of Rd for STL) with SR later than second place never succeeds.", "quantifier": "for every order, every fit behaviour, every convergence metric sequence", "why_tests_cant": "the schedule depends on an arbitrary real sequence", "anchors": ["rdtools/soiling.py: CODSAnalysis.iterative_signal_decomposition"]}
{"id": "C46", "title": "CODS model output is consistent", "statement": "In the returned frame soiling_ratio never exceeds 1 when clip_soiling is set; total_model equals SR*SC*Rd times the mean residual and residuals times the unshifted model equal the input; the degradation trend is 1 + i*rate/100/365 (outside STL), the seasonal component depends on the day of the year only, the loss is 100*(1 - mean ratio), small_soiling_signal compares the 10-90 percentile spreads of ratio and residuals. In the Kalman frame days since cleaning count from the latest event (or the first row); with perfect cleaning the ratio is the level relative to the level at the latest cleaning (before the first one, relative to the harmonic mean of those levels), with renormalisation divided by the quantile over the event rows (missing if there is none); soiling rates are zero where the ratio does not change and are never set without clipping. Each fit is given the data divided by the components it does not fit (soiling: trend, season and mean residual; season: the ratio; rate: season and ratio) and changes its own component only; from the third fit on, a soiling fit takes the events kept by the previous soiling fit together with those found in the residuals, with the thresholds changed by the factors 1.2 and 1/1.1.", "quantifier": "for every component series returned by the fits", "why_tests_cant": "the fits are arbitrary", "anchors": ["rdtools/soiling.py: CODSAnalysis.iterative_signal_decomposition, _Kalman_filter_for_SR"]}
{"id": "C47", "title": "Collapsing cleaning events terminates and keeps at most one event per island, near it", "statement": "_collapse_cleaning_events terminates for every input. Its result is exactly given by the islands of detected rows away from the f rows at both edges (rows within f after an island are skipped, a run reaching the edge ends the search): each island contributes the first largest metric within f rows of it, unless a later island's window erases it. It never reports more events than islands, at least one if there is an island, and none when nothing was detected away from the edges. ValueError exactly for f = 0, too few rows, a metric of another length, or an island whose window has no metric. Refuted: that every island leaves an event.", "quantifier": "for every boolean series, metric and f", "why_tests_cant": "loop with data-dependent progress over all boolean patterns", "anchors": ["rdtools/soiling.py: _collapse_cleaning_events"]}
{"id": "C48", "title": "CODS bootstrap weights, repetitions and estimates", "statement": "The weights are positive, inversely proportional to error*(1 + share of rows without soiling) and sum to one for positive errors, so weighted estimates lie between the smallest and largest bootstrap estimate; the number of repetitions is rounded up to the next multiple of 16. A successful run without small signal had 16 successful fits all passing the stationarity test; its loss and degradation are weighted means with percentile intervals over the refits that pass, and the soiling ratio returned is that of the last initial fit, not of the one with the largest weight. More than 8 failed fits raise RuntimeError; fewer than 16 fits IndexError; one failed fit among 16 ends in KeyError; no passing fit ValueError. With a small signal (more than 8 fits) the result is the fit with the largest weight, its cleaning events as 1 and 0 and without intervals, with the year-on-year degradation.", "quantifier": "for every set of fits and every repetition count", "why_tests_cant": "needs rare combinations of failing fits", "anchors": ["rdtools/soiling.py: CODSAnalysis.run_bootstrap"]}
{"id": "C49", "title": "soiling_cods reports the complement of the soiling loss", "statement": "The soiling ratio returned is 1 minus loss/100 and the interval ends are the complements of the loss interval ends in the same order, so the first entry is the larger one; when the soiling signal is small the ratio is 1, the degradation is that of the year-on-year analysis, and the last loss bound (mean of 1 - ratio, a fraction) is divided by 100 once more. Leading missing values are dropped; a series without daily frequency raises ValueError.", "quantifier": "for every loss triple and every behaviour of the fits", "why_tests_cant": "ordering of ends is never tested with asymmetric intervals", "anchors": ["rdtools/soiling.py: soiling_cods, CODSAnalysis.run_bootstrap"]}
{"id": "C50", "title": "Seasonal components are periodic", "statement": "_force_periodicity returns a signal depending only on the day of the year, equal to the median over the years at that day of the analysed part (180 rows or half of what exceeds a year cut off at both ends), with a missing value on day 366; input of 182 to 366 rows yields only missing values because the trimming slices overlap or are empty; repeated dates raise ValueError. _make_seasonal_samples only uses days 1..365, takes the day (doy - shift) mod 365 + 1, so is shifted by one day even for a zero random shift, and scales the distance of the median from the mean around 1.", "quantifier": "for every signal and index", "why_tests_cant": "leap years and lengths near one year", "anchors": ["rdtools/soiling.py: _force_periodicity, _make_seasonal_samples"]}
{"id": "C51", "title": "Clear-sky temperature: monthly climatology smoothed over days with a daily cycle of 35% of the day/night difference", "statement": "For sorted times, positive window weights, a frequency that divides the day and twelve known months in the cell of the place, the estimate at a time is D/2+N/2 + 0.35 (D-N) cos(2 pi (solar time - 16 h)/24 h), where D and N are the day and night values of the months, averaged over the whole window of days (always complete, so the other times do not matter), interpolated linearly between midnights and taken at the multiple of the frequency nearest to the time (the later of two). Minutes count, seconds do not. The cell is the one whose index is nearest (ties to even) to the share of the way east of the date line and south of the pole. With missing months or any other frequency each estimate is missing or within the range of the monthly values of the cell; without any day or night value all are missing, in particular within half a cell of the date line from the west or of the south pole, where the index is one too large. The value of a square of cells is the median of its known cells. No times: IndexError.", "quantifier": "for all times, coordinates, weights and grids", "why_tests_cant": "continuum of coordinates and times; tests use one location", "anchors": ["rdtools/clearsky_temperature.py: get_clearsky_tamb, _get_pixel_value, _get_temperature"]}
{"id": "C52", "title": "Filter parameter dictionaries hold only valid keys after checked operations, and failing operations change nothing", "statement": "Construction fails with KeyError exactly if some key is not valid, else the last value of each key counts and keys are in the order of their first occurrence. After any history of item assignment, update, deletion, popitem and pickling, failing or not, all keys are valid and distinct and pickling gives an equal object; a failing operation raises KeyError and changes nothing. The initial filter parameters of TrendAnalysis are valid. The inherited setdefault and in-place union do not check, and an object with an invalid key cannot be unpickled; an update from an iterator is checked but puts nothing, as the check uses the iterator up.", "quantifier": "for every sequence of operations, keys and values", "why_tests_cant": "histories of operations are unbounded", "anchors": ["rdtools/analysis_chains.py: ValidatedFilterDict", "rdtools/analysis_chains.py: TrendAnalysis.__init__"]}
{"id": "C53", "title": "A row survives filtering exactly when it passes every configured filter", "statement": "The overall filter is on the union of the indexes of the normalized energy and of all components, and True exactly at times of the normalized energy at which each component has a True row and which the filter given by hand does not exclude: there a missing time counts as True and a missing value as False, in the stored parameters too. The components are those of the configured filters, in a fixed order, each applied to the data of the case (measured or clear-sky irradiance and cell temperature, power, location); the clear-sky filter is used exactly in the clear-sky case. It fails exactly if a configured filter lacks its data, has no keyword arguments or raises (the first one decides), or if the filter by hand is no series or has duplicates and another index; then no filter is stored. The same holds for aggregated data. Without filters all rows are kept; more filters never add rows. The default filters keep normalized energy strictly between 0.01 and infinity, irradiance between 200 and 1200 and cell temperature between -50 and 110.", "quantifier": "for all data, filter functions and parameters", "why_tests_cant": "index mismatches and NaN patterns", "anchors": ["rdtools/analysis_chains.py: TrendAnalysis._filter, TrendAnalysis._aggregated_filter", "rdtools/analysis_chains.py: TrendAnalysis._call_clearsky_filter"]}
{"id": "C54", "title": "Results are recorded for completed analyses only, calls do not influence each other, and prerequisites are enforced", "statement": "sensor_analysis and clearsky_analysis replace their own result entry exactly if preprocessing and every requested analysis succeed, by exactly the requested results of the stored performance and insolation, and never touch the inputs or anything of the other case. After any sequence of calls, failing or not, the entry of a case is that of its last call that succeeds on the initial object, and any call ends as on the initial object, with the same attributes if it succeeds. Degradation needs 730 days between first and last aggregated row (else ValueError), soiling daily aggregation (else ValueError); unknown names are ignored. Without measured irradiance every call fails (sensor: ValueError, nothing changed); without expected power, cell and ambient temperature sensor calls raise ValueError; before set_clearsky clear-sky calls and the sensor clear-sky filter raise AttributeError; energy input with a clipping filter, an unknown pv_input, an hour-angle filter without location and clear-sky analysis without clear-sky filter parameters always fail. set_clearsky changes no stored result and no sensor analysis that does not use it.", "quantifier": "for every sequence of calls, with arbitrary success, failure and values of each stage", "why_tests_cant": "histories and failure points", "anchors": ["rdtools/analysis_chains.py: TrendAnalysis.sensor_analysis, clearsky_analysis, set_clearsky", "rdtools/analysis_chains.py: TrendAnalysis._filter_check, _sensor_preprocess, _clearsky_preprocess, _yoy_degradation, _srr_soiling"]}
{"id": "C55", "title": "Deprecated functions behave like the functions they wrap", "statement": "Decoration fails exactly if the object has no name and none is given, if a pending deprecation has a scheduled removal (ValueError), or if the message has an unknown key or an odd per cent sign. Otherwise each call first issues exactly one warning, with the message and a category that depends only on pending, and then does, returns or raises what the wrapped function does for the same arguments and state; only if the warning itself is turned into an exception the function is not called. The default message names object, type, version, removal, alternative and addendum; a message of one's own has the values inserted. The docstring is the old one with a deprecation note before. The deprecated delta_index and check_series_frequency return what the private functions return, and the warning names the private functions.", "quantifier": "for every wrapped function, argument, state and text", "why_tests_cant": "higher-order: all functions and texts", "anchors": ["rdtools/_deprecation.py: deprecated, warn_deprecated, _generate_deprecation_message", "rdtools/normalization.py: delta_index, check_series_frequency"]}
{"id": "C56", "title": "Error bounds of the expected energy", "statement": "Without any time of normal operation the error step fails with IndexError, with one to three such times with ValueError; otherwise the expected power is multiplied by the ratio of the totals over normal operation (so that the totals agree), and the lower and upper error bounds are, for each power of two from 2 to half the number of normal times, the requested percentiles of the relative errors of all windows of that many consecutive normal times; for ordered percentiles the interpolated lower bound never exceeds the upper one.", "quantifier": "for every power, expected power and subsystem loss (NaNs included) on an evenly spaced index and all percentiles", "why_tests_cant": "all patterns of normal operation and missing data, all window lengths", "anchors": ["rdtools/availability.py: AvailabilityAnalysis._calc_error_distributions"]}
{"id": "C57", "title": "Availability does not depend on the unit of the expected power", "statement": "Multiplying the expected power by any positive constant changes none of the results of run: masks, losses, rescaled expectation, error bounds, outages, corrected meter, and availability by period are identical, errors included.", "quantifier": "for all inputs and every positive constant", "why_tests_cant": "relational property over all inputs", "anchors": ["rdtools/availability.py: AvailabilityAnalysis.run"]}
{"id": "C58", "title": "The Theil-Sen fit of a soiling interval is the median of all chord slopes with bounds around it", "statement": "The slope fitted to the positive points of an interval is the median of the slopes of all chords, the intercept makes the line pass through the medians, the bounds are the chord slopes whose ranks are the nearest integers of half the number of chords minus/plus the margin, and low <= slope <= high. Points on a line are fitted exactly with zero width; data that never rise have slope and bounds <= 0; without two different abscissae everything is NaN. An interval with a value that is not finite has missing figures.", "quantifier": "for every list of points and every non-negative margin", "why_tests_cant": "all point sets, ties and rounding of the ranks", "anchors": ["rdtools/soiling.py: SRRAnalysis._calc_result_df (theilslopes)"]}
{"id": "C59", "title": "Shifts and outliers are detected by quartile fences", "statement": "_rolling_median_ce_detection flags exactly the rows where the centred rolling median of the filled series rises by more than the third quartile of the step sizes plus tuner times their interquartile range; _soiling_event_detection flags exactly the rows where it falls below the first percentile minus tuner times the distance to the ninety-ninth percentile of the sizes (absolute values), so that in a perfectly steady decline every row is a soiling event whatever the tuner; _find_numeric_outliers flags exactly the values outside the fences, a missing value hides all of them, and no values end in UnboundLocalError.", "quantifier": "for every series with gaps, window, tuner and fill direction", "why_tests_cant": "all data patterns; the degenerate equal-steps case is never tested", "anchors": ["rdtools/soiling.py: _rolling_median_ce_detection, _soiling_event_detection, _find_numeric_outliers"]}
{"id": "C60", "title": "The pruning rounds of the CODS Kalman filter end for up to 100 iterations", "statement": "With pruning_iterations <= 100, _Kalman_filter_for_SR ends after at most pruning_iterations rounds for every input. With more than 100 it does not end once a round leaves the cleaning events unchanged, because the counter that should stop the loop is set to 100; a constant series is an example.", "quantifier": "for every series, every setting", "why_tests_cant": "non-termination cannot be observed, and the loop depends on all intermediate events", "anchors": ["rdtools/soiling.py: CODSAnalysis._Kalman_filter_for_SR"]}
{"id": "C61", "title": "The Kalman filter and smoother of CODS are the weighted least-squares fit of the constant-rate model", "statement": "For every series (missing values allowed) with positive measurement noise, non-zero process noise and deviations, each run of the filter succeeds (no singular matrix) and its estimates are exact: the least cost of all paths that end in a state is a constant plus the distance of the state from the estimate under its covariance, where the cost adds the distance from the initial line, the squared changes of the rate over the process variance and the squared distances from the measurements over the noise; known jumps of the level enter at events. The smoothed levels and rates between two neighbouring borders (events, soiling events, first and last row) are the unique path of least cost given the estimate at the left border and the measurements strictly between the borders, so the measurement on a border row does not reach back and the last row is not smoothed. The noise is the sample variance around the 13-row medians, the line is Theil-Sen through the first 14 back-filled rows. A later run starts from the same line with the last variances of the run before used as deviations (squared again). With at most 100 pruning iterations the fit returns a result.", "quantifier": "for every series, setting and list of events", "why_tests_cant": "optimality quantifies over all paths; tests only compare a few numbers", "anchors": ["rdtools/soiling.py: CODSAnalysis._Kalman_filter_for_SR", "rdtools/soiling.py: CODSAnalysis._forward_pass", "rdtools/soiling.py: CODSAnalysis._smooth_results", "rdtools/soiling.py: CODSAnalysis._initialize_univariate_model"]}
{"id": "C62", "title": "Cleaning events of the CODS Kalman fit", "statement": "The events to begin with are the given ones if more than four (of another length: ValueError), else the collapsed upward shifts of the 9-row median (fewer than 11 rows: ValueError). During a run an event on row i (7 < i < n-7) that is not the largest step of the 7-row medians between i-4 and i+5 moves to that step if it is positive and no event yet, else is removed; one that is stays if the predicted level and the median three rows later differ by more than half the noise deviation (the level is then shifted by that difference) and is removed otherwise. So events never become more during a run, those within 7 rows of the ends stay, and jumps only happen on rows that are events at the end or soiling events. Between runs events whose following week has an unusually low median are dropped - none if some week is incomplete - and, if more than one row rises faster than max_soiling_rate, the collapsed fast rows are added (fewer than 9 rows: ValueError).", "quantifier": "for every series, setting and list of events", "why_tests_cant": "depends on all intermediate estimates", "anchors": ["rdtools/soiling.py: CODSAnalysis._Kalman_filter_for_SR", "rdtools/soiling.py: CODSAnalysis._set_control_input", "rdtools/soiling.py: CODSAnalysis._forward_pass"]}
{"id": "C63", "title": "The stored performance is the insolation-weighted mean of the rows that pass all filters, on a regular grid from the first to the last kept bin", "statement": "For a successful analysis whose aggregation width divides a day or is a number of days: normalized energy and insolation have one increasing index; the stored filter is true exactly at its rows that pass every configured filter; the kept rows are aggregated into the bins from the one of the first to the one of the last kept row, counted from midnight, with sum(energy*insolation)/sum(insolation) as the value and the sum of insolation as the weight; the stored aggregated filter is true exactly at the bins that pass every aggregated filter; the stored performance and insolation have a row for every step from the first to the last kept bin, with the value of the bin where it is kept and a missing value elsewhere. For any width the stored index is that of the bins counted anew from the midnight before the first kept bin: if the frequency inferred from the kept bins is the width and their number is that of the stored rows, the values are stored in order (too early unless that midnight is on the first grid); otherwise a stored row has a value only if a kept bin starts there, so kept bins may be lost, even all of them.", "quantifier": "for all objects, data, filter functions and parameters, and all positive widths (two cases)", "why_tests_cant": "alignment of four indexes under arbitrary masks", "anchors": ["rdtools/analysis_chains.py: TrendAnalysis._sensor_preprocess, _clearsky_preprocess, _aggregate", "rdtools/aggregation.py: aggregation_insol"]}
{"id": "C64", "title": "Clear-sky irradiance is simulated every minute, averaged over each measurement interval and rescaled", "statement": "When no clear-sky irradiance is given an analysis simulates it at the whole minutes from the first to the last measured time. The value at a time is the mean of the simulated values after the previous time and up to this one (missing if they all are), the first value is missing, and the series is then rescaled to the measured irradiance. The result has the measured times. ValueError exactly if some interval contains no simulated minute, which cannot happen if all steps are at least a minute; also ValueError without data, location or orientation, AttributeError without measured irradiance or with location None.", "quantifier": "for all measured indexes, simulated values and optimisers", "why_tests_cant": "alignment of minutes with irregular intervals", "anchors": ["rdtools/analysis_chains.py: TrendAnalysis._calc_clearsky_poa"]}
{"id": "C65", "title": "A trend analysis does not depend on the unit of power", "statement": "Take a TrendAnalysis built from measured power or energy, and one built from the same data with measured, expected and rated power multiplied by any positive constant. The constructor succeeds or raises alike, and after any sequence of calls, failing ones included, both objects hold the same filters, filter components, performance, insolation and results, provided the clipping filter is unit-free, which the quantile, the logic based and the learned filter are. Without a rating nothing else has to be converted: the energy normalized with rating 1 is divided by the robust 95% quantile of its finite values, whose own robust quantile is then 1 if it was positive. With a rating or an expected power, converting the energy alone multiplies the normalized energy by the constant.", "quantifier": "for all data (missing and infinite values included), positive constants, settings and sequences of calls", "why_tests_cant": "all constants and all chains of interpolation, aggregation, filters and calls", "anchors": ["rdtools/analysis_chains.py: TrendAnalysis.__init__, _pvwatts_norm, sensor_analysis, clearsky_analysis", "rdtools/normalization.py: energy_from_power, normalize_with_expected_power"]}
{"id": "C66", "title": "What the clipping classifier is shown", "statement": "xgboost_clip_filter asks its classifier about exactly these rows: with the data interpolated to their most frequent step (whole minutes), or the means of five minute bins from midnight if that step is under five minutes, a row counts if 3, 2 or 2 values before it and 4, 2 or 1 after it exist (steps under 10, under 60, other minutes) and one of the 5, 3 or 2 values from it on is above the lowest of all data. Each row has sixteen numbers: steps and centred moving averages of the values moved to the range from 0 to 1, the step in minutes (at least 5), the mounting, the highest value of the day and the share of it, the relative range of the window that starts at the row, and spread, mean, median, lowest and highest of the steps in the centred window. They obey fixed bounds. If no row counts (constant or short data) nothing is removed. Multiplying the data by a positive constant and adding any constant does not change the mask, whatever the classifier.", "quantifier": "for all classifiers, sorted series and mountings; the affine statement for all series, infinite values included", "why_tests_cant": "all gaps, steps, series and classifiers; the frame is internal to the function", "anchors": ["rdtools/filtering.py: _calculate_xgboost_model_features", "rdtools/filtering.py: xgboost_clip_filter"]}
{"id": "C67", "title": "What the summary of a degradation analysis shows", "statement": "degradation_summary_plots draws each row of the series divided by the renormalizing factor; a line from 1 at the first row to 1 + rate * whole days / 365.25 / 100 at the last; bars of equal widths from the least to the largest year-on-year value (one unit around the only value), half-open except the last, so that each value is counted once and the heights add up to the number of values; the rate (a median of these values) marked and labelled. There are as many bars as asked for, but not more than values; by default one for 40 values, so with less than 40 values there is no figure (ValueError). With details a point of a sorted series (leap days allowed) is red, green or plain according to its uses as end and as start of pairs, and the label counts the values. A figure exists exactly if the dictionary has the values (KeyError otherwise, as for every analysis with circular blocks), the series has rows (IndexError otherwise), the number of bars is positive, no value is infinite and the colours fit (ValueError otherwise). The unit of the series does not change the figure. If the series is not sorted points get the colours of other points (refuted).", "quantifier": "for all rates, dictionaries, series, numbers of bars, resampling draws and inferred frequencies", "why_tests_cant": "the tests only check that a figure object is returned", "anchors": ["rdtools/plotting.py: degradation_summary_plots", "rdtools/degradation.py: degradation_year_on_year"]}
{"id": "C68", "title": "What the rolling trend of a degradation analysis shows", "statement": "degradation_timeseries_plot draws, at the time of each year-on-year value, the median of the numbers at this row and the rows before it less than rolling_days days away, if there are at least rolling_days // 2 of them, and nothing otherwise; and a level at the median of all values, which after an analysis is the rate. The band has gaps at the same rows; elsewhere, if all values are numbers, its limits are the 2.5 and 97.5 percentiles of medians of numbers drawn from this window, and lie within the window's smallest and largest number. With the same draws the lower limit is not above the upper one; the code draws separately and then it can be (refuted). A figure exists exactly if the dictionary has the values (KeyError otherwise, as for every analysis with circular blocks) and their times ascend or descend (ValueError otherwise); after an analysis with the simple bootstrap of a series without repeated times it always does. With daily values the curve starts at row rolling_days // 2; with values at least three days apart and rolling_days >= 8 it is empty everywhere, although the documentation asks for 50% of the datapoints only (refuted).", "quantifier": "for all dictionaries, positive numbers of days, draws, analysed series and inferred frequencies", "why_tests_cant": "the tests only check that a figure object is returned, for one daily series", "anchors": ["rdtools/plotting.py: degradation_timeseries_plot", "rdtools/degradation.py: degradation_year_on_year"]}
{"id": "C69", "title": "What the figures of a soiling analysis show", "statement": "soiling_monte_carlo_plot and soiling_interval_plot draw each row of the yield divided by the renormalizing factor at its time; the first draws the first n stochastic profiles (all without a number, all but the last -n for a negative one), the second the soiling ratio of the valid intervals. soiling_rate_histogram counts 100 times the slope of every valid interval in bars of equal widths between the least and the largest one (ten by default); it fails (ValueError) exactly if the number of bars is below one, a slope is infinite, or there are valid intervals but none has a number as slope. After a completed analysis of a sorted series every soiling ratio drawn is a number of at most 1, there is at least one valid interval, all rates are numbers that are not above zero, and the histogram exists for every positive number of bars with heights that add up to the number of valid intervals.", "quantifier": "for all yields, factors, profiles, interval tables, fits, draws and options", "why_tests_cant": "the tests only check that figure objects are returned", "anchors": ["rdtools/plotting.py: soiling_monte_carlo_plot", "rdtools/plotting.py: soiling_interval_plot", "rdtools/plotting.py: soiling_rate_histogram", "rdtools/soiling.py: SRRAnalysis.run"]}
{"id": "C70", "title": "What the figure of an availability analysis shows", "statement": "After AvailabilityAnalysis.run, plot succeeds whatever was run before and shows the given powers and meter, the sum of both losses, and one mark per recorded outage: over the rows of the outage the expected production, i.e. the last meter reading before it plus the rescaled expected energy since its first row (gaps where that is missing), and at its last row a bar that reaches |lower error|*expected below and |upper error|*expected above the end of this curve. If the expected energy is not negative and the error bounds lie on both sides of zero, the bar is exactly the confidence interval, and the outage is recorded as real if and only if the meter reading at its end is below the bar (and not more than 5 % of the expected energy below the reading before the outage). Without a run plot fails (TypeError). It is refuted that the bar is always the interval (with a positive lower error bound it is mirrored) and that a failed second run leaves the figure as it was (the new expected production is drawn with the bars of the old outages). A run sets the expected energy, the outages and the total loss in this order, and one that fails keeps the older value of each that it did not reach before it fails.", "quantifier": "for all indexes, powers, meters, expected powers, error bounds, options and histories of runs", "why_tests_cant": "the tests only check that a figure object is returned, and that it fails without a run", "anchors": ["rdtools/plotting.py: availability_summary_plots", "rdtools/availability.py: AvailabilityAnalysis.plot", "rdtools/availability.py: AvailabilityAnalysis.run"]}
{"id": "C71", "title": "What the plots of a TrendAnalysis show", "statement": "After any sequence of sensor and clear-sky analyses of an object, successful or not, plot_degradation_summary, plot_degradation_timeseries and the three soiling plots of a case show the results of the last analysis of this case that succeeds, together with the very performance these were computed from; an analysis that it was not asked for, or a case without success, gives a KeyError, another name than 'sensor' and 'clearsky' a ValueError. With the year-on-year analysis of the library the aggregated performance is sorted, so the trend is always drawn with the rate as its level, the summary is drawn if and only if there are bars (by default for 40 values at least), and its points are the performance divided by the renormalizing factor, coloured by their own uses. plot_pv_vs_irradiance shows irradiance and energy at exactly the times both have. A failing analysis never changes plots of the results alone nor of the other case; it is refuted that it leaves the summary consistent if the filter parameters were changed before it: the old results are drawn with the new performance.", "quantifier": "for all objects, environments, sequences of calls, figures and arguments", "why_tests_cant": "the tests plot once after one successful analysis and only check the type of the figure", "anchors": ["rdtools/analysis_chains.py: TrendAnalysis.plot_degradation_summary", "rdtools/analysis_chains.py: TrendAnalysis.plot_degradation_timeseries", "rdtools/analysis_chains.py: TrendAnalysis.plot_soiling_interval", "rdtools/analysis_chains.py: TrendAnalysis.plot_pv_vs_irradiance"]}
{"id": "C72", "title": "A soiling analysis does not depend on units and dates", "statement": "soiling_srr gives the same soiling ratio, confidence interval, exceedance level, stochastic profiles, interval table (lengths, slopes, bounds, start and end levels, validity) and the same errors when the insolation is measured in another unit (factor > 0), when precipitation and precip_threshold are measured in another unit, when (with recenter=True) the performance metric is measured in another unit, in which case only the renormalizing factor is converted, and when all columns are dated earlier or later by the same time, in which case only dates move. Days without value before the first and after the last value of the performance metric change nothing, and insolation and precipitation are read only on the days of the performance metric. annual_soiling_ratios does not depend on the unit of insolation. Without recentering the unit of the performance metric matters.", "quantifier": "all series (values may be missing or infinite), all factors > 0, all time shifts, all parameters, fits, random draws and iteration orders", "why_tests_cant": "Tests run one fixture in one unit; the invariance is about all data, parameters, random draws and all scale factors at once, including the runs that raise.", "anchors": ["rdtools/soiling.py:60-80", "rdtools/soiling.py:82-213", "rdtools/soiling.py:215-348", "rdtools/soiling.py:350-509", "rdtools/soiling.py:511-680", "rdtools/soiling.py:683-841", "rdtools/soiling.py:856-934"]}
{"id": "C73", "title": "An availability analysis in another unit of power", "statement": "When system power, subsystem powers, the cumulative meter and (if given) the low thresholds and the system power limits are multiplied by one positive constant k, and the expected power by any other positive constant, the whole result of AvailabilityAnalysis.run is converted and nothing else: subsystem and system losses, rescaled expected power and energy, the energies and confidence bounds of the outages, the corrected meter, lost and actual production are multiplied by k; reporting masks, relative errors, the rows and kinds (real, comms, unknown) of outages and every availability are identical; a run that raises raises the same error.", "quantifier": "all inputs (values may be missing or infinite), all positive constants, all options", "why_tests_cant": "Tests compare one data set with stored numbers in one unit; the claim relates two runs for all inputs and all constants.", "anchors": ["rdtools/availability.py:201-294", "rdtools/availability.py:296-385", "rdtools/availability.py:387-519", "rdtools/availability.py:521-564", "rdtools/availability.py:566-618"]}
{"id": "C74", "title": "The Kalman filter of the soiling component in another unit", "statement": "Write the performance index handed to _Kalman_filter_for_SR in another unit (every value times k > 0) and the parameters that carry its dimension too (process_noise, zs_std, rate_std, max_soiling_rates). Then the first cleaning events and the soiling events found are the same, the measurement noise is multiplied by k^2 and starting line and rolling medians by k, and one pass of filter and smoother gives the same events and errors, levels and rates times k and covariances times k^2. For a call whose first pruning round changes no event, soiling ratio, cleaning events and days since cleaning are identical and levels and rates are multiplied by k when cleaning is perfect or the ratio is renormalised; without both and without clipping the ratio is the level and is multiplied too. A call that prunes and filters again is not homogeneous: the code hands the covariance entries of the last estimate to the next pass as standard deviations (refuted with a witness).", "quantifier": "all series (values may be missing or infinite), all parameters, all positive constants", "why_tests_cant": "Tests run the decomposition on one synthetic series around one; a dimension error, such as a variance used as a deviation, shows only in the relation between two runs.", "anchors": ["rdtools/soiling.py:1939-2174", "rdtools/soiling.py:2176-2197", "rdtools/soiling.py:2199-2236", "rdtools/soiling.py:2238-2263", "rdtools/soiling.py:2265-2281", "rdtools/soiling.py:2490-2517", "rdtools/soiling.py:2589-2612"]}
{"id": "C75", "title": "A system that does not degrade shows no degradation", "statement": "If the measured energy is one positive constant times the energy of the modelled power (expected power given by the user, or PVWatts of irradiance and cell temperature, in the sensor or the clear-sky case), with gaps anywhere, then a successful TrendAnalysis that asks for the year-on-year degradation reports exactly 0: every year-on-year value is 0, the rate is 0, both ends of the confidence interval and the exceedance level are 0 for every uncertainty method, and the renormalizing factor is the constant (1 without expected power and rating, and without recentering). On the way: the normalized energy is that constant or missing; the stored aggregated performance is that constant or missing whatever the other filters do, provided the normalized filter is used, which keeps no missing row. Without it the claim is false (refuted): aggregation_insol then counts a missing row as no production at full insolation.", "quantifier": "all energies, models, gaps, filter settings, filter results, aggregation widths that divide a day or are whole days, both cases, all uncertainty methods, random draws and block starts", "why_tests_cant": "The tests check single functions and a few known rates within tolerances; that normalisation, filtering, weighting, resampling and the year-on-year pairing together introduce no trend is a claim about all gaps and filter outcomes.", "anchors": ["rdtools/analysis_chains.py:449-500", "rdtools/analysis_chains.py:541-739", "rdtools/analysis_chains.py:785-818", "rdtools/analysis_chains.py:865-993", "rdtools/normalization.py:15-71", "rdtools/aggregation.py:4-28", "rdtools/degradation.py:180-356", "rdtools/bootstrap.py:17-118"]}
{"id": "C76", "title": "An array that is never soiled is reported as such", "statement": "If every known daily performance has the same positive value and no insolation is negative, with insolation on the days that have a performance, then a soiling analysis (soiling_srr with the Theil-Sen fit) that succeeds reports no soiling at all: the median ratio, both ends of the interval and the exceedance level are 1; every realization is 1 on every day for every method and every random draw; every interval has slope 0 with bounds 0, and its start and end level are 1 (the value itself without recentering); the renormalizing factor is the value (1 without recentering); the profile of perfect cleaning is 1. This holds for any missing days, cleaning criterion, thresholds, rain record and limits. Without missing days, with a criterion that asks for a shift and no negative threshold, the outcome is determined: with trim, or with no more days than min_interval_length, or with a step limit not above zero, NoValidIntervalError; otherwise success with exactly one interval from the first day to the last.", "quantifier": "all performances equal to one positive value or missing, all non-negative insolations, all rain records, criteria, thresholds, methods, random draws, set orders, percentile levels", "why_tests_cant": "Tests use a few synthetic soiled profiles and tolerances; that no random draw, gap or rain-triggered cleaning can produce a loss from data that contain none is a claim about all of them.", "anchors": ["rdtools/soiling.py:60-80", "rdtools/soiling.py:82-213", "rdtools/soiling.py:215-348", "rdtools/soiling.py:350-509", "rdtools/soiling.py:511-680", "rdtools/soiling.py:683-841"]}
{"id": "C77", "title": "Only equipment that stops costs availability", "statement": "If at every time each subsystem gives more than its threshold, or none does and no power is expected, then an AvailabilityAnalysis.run that succeeds reports no outage, zero subsystem and system loss at every time, and the meter unchanged, whatever the times, system powers, expected powers, sizes, limits and thresholds (given or default). At evenly spaced times the outcome is determined: IndexError without, ValueError with fewer than four rows in which power is both expected and given; otherwise success, and then every period from the first to the last is reported with no lost production (missing for the periods before that of the second row), the change of the meter as actual production, and an availability that is 1 exactly if that change is known and not zero and missing otherwise.", "quantifier": "all numbers of subsystems, rows, powers, meters, expected powers, thresholds, sizes, limits, confidence levels in [0,1] and monotone rollup periods", "why_tests_cant": "Tests check a few synthetic days; that no combination of powers, limits, relative sizes and missing readings produces a loss while everything runs is a claim about all of them.", "anchors": ["rdtools/availability.py:201-294", "rdtools/availability.py:296-385", "rdtools/availability.py:387-519", "rdtools/availability.py:521-564", "rdtools/availability.py:566-618"]}
{"id": "C78", "title": "Year-on-year values of the past do not change as the record grows", "statement": "degradation_year_on_year on the rows of a record between two times a and b finds, for every point, exactly the partners that the whole record has, as far as they lie in the part, provided no row from before a lands a year later after a row from a on (true for a at midnight of any day but 29 February, and whenever nothing is cut off at the start). Hence, with equal renormalising factors, a point with one latest-landing partner has a value in the part exactly if it has that value in the whole record and both ends of its pair lie in the part. In particular, without 28/29 February clashes, the values of a record cut off at b are exactly the values of the grown record up to b, and the factor is the same, without recentering always and with recentering as soon as b is 364 days after the first row. That every cut leaves only old values is false: cutting inside 29 February forms new pairs.", "quantifier": "all records with distinct times, all cut times, uncertainty methods, sorts, random draws and inferred frequencies on either side", "why_tests_cant": "Tests run fixed records; that no later row can ever capture or displace an earlier pair is a statement about all records and all continuations.", "anchors": ["rdtools/degradation.py:231-291"]}
{"id": "C79", "title": "The energy of a plant is the sum of the energies of its inverters", "statement": "For power series with the same times and with values at the same times, energy_from_power of any weighted sum of them is the weighted sum of their energies, reported at the same times, and it fails for one series exactly if it fails, with the same error, for all of them and for the sum; the same holds for interpolate with any target. This extends to any number of inverters. Power that is nowhere negative gives energy that is nowhere negative, and power that is nowhere above another gives energy that is nowhere above the other's. If values are missing at different times, the energies need not add up even where all of them are reported. For fixed expected power and irradiance, normalize_with_expected_power and normalize_with_pvwatts are linear in the measured power or energy in the same way, with the same insolation and the same exceptions, where no normalized value is infinite; with infinite values they need not be. For a fixed insolation on the same times, without infinite values, so is aggregation_insol for every width. If the expected power, or the insolation, is nowhere negative, then power or normalized energy that is nowhere above another gives normalized energy, or averages, nowhere above the other's.", "quantifier": "all series (sorted or not), weights, target frequencies, maximal gaps and power types; for signs and order the width used for a single row must not be negative; for normalization all oracles of pd.infer_freq, all expected powers and irradiances and every kind of input, and no infinite normalized value", "why_tests_cant": "Tests add up fixed series; that no gap, resampling or interpolation decision depends on the values is a statement about all series.", "anchors": ["rdtools/normalization.py:341-530", "rdtools/normalization.py:532-686", "rdtools/normalization.py:15-71", "rdtools/normalization.py:122-175", "rdtools/aggregation.py:25-28"]}
{"id": "C80", "title": "A few wrong measurements cannot move the degradation rate far", "statement": "Take two records with the same distinct times that differ in value at some bad times only, both analysed by degradation_year_on_year with the same renormalising factor (in particular without recentering). Every point that is not bad, whose latest-landing partner is unique and not bad has the same value in both analyses. In complete daily data that is every day except bad days, days exactly one calendar year after a bad day, and 28/29 February. If fewer than half of the finite values of the second analysis can lie at the remaining points, its rate lies between any bounds that hold for the other values of the first analysis, whatever the bad values are. With recentering this fails: wrong values in the first year change all values.", "quantifier": "all pairs of records, sets of bad times, uncertainty methods, sorts, random draws and inferred frequencies", "why_tests_cant": "Robustness quantifies over all wrong values and all their positions; tests try some outliers.", "anchors": ["rdtools/degradation.py:231-300"]}
{"id": "C81", "title": "Days without a value hide year-on-year pairs instead of being skipped", "statement": "Compare degradation_year_on_year on a record with distinct times and on only its rows that have a value (not NaN), with the same renormalising factor. At every time with a unique latest-landing partner in both, the first analysis has exactly those values of the second whose pair is not hidden: no row without a value lands later than the partner, at or before the point. In a record with a row for every day, with or without values, and away from 28/29 February, a day has a value exactly if the pair of it and exactly the same day a year before gives a value that is not NaN, and that is the value; the eight-day tolerance never finds a replacement for a missing day. So removing rows without a value changes the result, refuted by witness.", "quantifier": "all records, uncertainty methods, sorts, random draws and inferred frequencies", "why_tests_cant": "Which pairs are formed depends on all positions of missing values; tests with NaNs sample a few and compare with numbers computed by the same code.", "anchors": ["rdtools/degradation.py:231-300"]}
{"id": "C82", "title": "Aggregating in two steps gives what aggregating in one step gives", "statement": "For normalized energy and insolation on one increasing index, without infinite values and with insolation that is missing or not negative: aggregation_insol into bins of width w, followed by aggregation_insol of these bins, weighted by their insolation, into bins of width k*w, equals aggregation_insol into bins of width k*w, bin by bin and including the missing values; the insolation of the wide bins is the sum of that of the narrow ones. With readings below zero this is false (refuted). For right-labelled energy_from_power with widths above the median step, the energy of an interval of width k*w is the sum of the reported energies of its intervals of width w, and missing if none is reported, provided none of those ends inside a step longer than the limit; with such an end the wide interval contains energy that no narrow one reports (refuted).", "quantifier": "all records, widths w, numbers k, limits", "why_tests_cant": "Consistency between aggregation levels relates runs with different widths for all data; tests compare single runs with stored numbers.", "anchors": ["rdtools/aggregation.py:4-28", "rdtools/normalization.py:352-530"]}
{"id": "C83", "title": "The soiling analysis recovers an evenly soiling array exactly", "statement": "If the daily performance is complete, starts each dry period at the clean level a, falls by a constant share (below the step limit) a day and is fully restored on exactly the days that the chosen criterion flags (for the rain criterion: the days with more rain than the threshold), every dry period is longer than the minimum, and the renormalization factor is a, then soiling_srr without trimming and with the methods perfect_clean or half_norm_clean succeeds; its intervals are exactly the dry periods, all valid, with the true slope as slope and as both bounds, level 1 at the start and the true level at the end; every realization, for any random draws, is the performance relative to a; and median, both ends of the confidence interval and exceedance level all equal its insolation-weighted mean. With another renormalization factor r and perfect_clean all losses are multiplied by a/r; so with the default recentering, which divides by the median of the first year, losses are overstated (refuted).", "quantifier": "all records of any length, rates, rain, insolation, thresholds, draws, all four criteria", "why_tests_cant": "Exactness for every sawtooth, every draw and every option value is a statement about the whole chain from daily table to percentiles; tests check a handful of records with stored numbers and tolerances.", "anchors": ["rdtools/soiling.py:33-841"]}
{"id": "C84", "title": "A TrendAnalysis of a system whose output fades evenly reports exactly that rate", "statement": "If the measured energy is a positive factor f(t) times the energy of the modelled power, f(t) being a + slope * (start of the aggregation bin of t), then whatever the insolation, the gaps and the filters (one of which must exclude missing normalized values), the stored performance is on the line k(a + slope*t) for one k > 0, k = 1 if an expected power or a rating is given; and every year-on-year value, the reported rate and, for the simple uncertainty method, both ends of the interval and the exceedance level equal 100*k*slope*365 days/rho, rho being the reported renormalizing factor: 1 without recentering, else between two values of the first year. So the recentered rate is relative to the first year and not to the initial output (refuted).", "quantifier": "all energy records, modelled powers, irradiances, filters, widths, uncertainty methods, both cases", "why_tests_cant": "Exactness end to end, from measured energy through normalization, filters, insolation-weighted aggregation, pairing and bootstrap, for every record and every gap; tests compare single synthetic records within tolerances.", "anchors": ["rdtools/analysis_chains.py:17-960", "rdtools/degradation.py:180-345", "rdtools/normalization.py:21-110", "rdtools/aggregation.py:6-50"]}
{"id": "C85", "title": "With an exact expectation the availability analysis finds every outage and charges it with exactly what it missed", "statement": "If at each of n even times all subsystems run and the system gives c > 0 times the expected power (positive there), or no subsystem runs and it gives none, and at least four rows produce, then: no subsystem loss is reported, the expected power is c times the given one, all error bounds are zero, and the outages are the maximal runs of rows that failed or are separated from a failed row by darkness only (each having expected power after its first row). Each is charged with the energy E it missed: it is real if the meter moved by less than E (with loss E minus that), a communication outage otherwise, unknown if the meter fell by more than 5 % of E or is not known. With a meter that counts what is given and a first row that is not down, every outage is real and costs E, the lost power reported in it is c times the expected one times E over E without the first row, and the corrected meter equals the meter except that the first row of each outage is empty. If every outage starts in the dark, the production reported lost in each period is the energy expected and not given, and the total over all periods is the expected energy minus the metered one.", "quantifier": "all even times, expected powers, factors, sets of failed rows, thresholds, sizes, limits, quantiles and rollup periods", "why_tests_cant": "Exactness of the whole analysis for every pattern of outages and nights; tests use a few simulated outages and tolerances.", "anchors": ["rdtools/availability.py:160-618"]}
{"id": "C86", "title": "Energies and daily values of the past do not change as the record grows", "statement": "Append later rows to a sorted power record. If the limit on steps is the same for both (given explicitly, or equal medians) and the target interval is longer than both median steps, or no longer than either (right-labelled; the default interval being the same), then energy_from_power of the longer record succeeds whenever that of the shorter one does, and both agree on every label up to any time that some known value of the shorter record reaches; for intervals longer than the median this holds for instantaneous power too, and for shorter ones up to the last label with a known value. Interpolated values up to such a time are unchanged for every limit. aggregation_insol agrees on every bin that ends before the new rows and starts no later than the last old one. Dropping the conditions is refuted: with the default limit a past energy can appear when the logging becomes slower, with an interval between the two medians past energies change, the last, incomplete interval changes, and for instantaneous power in short intervals a value held over a gap disappears.", "quantifier": "all sorted records split at any row, all widths, limits, values missing or finite", "why_tests_cant": "A relation between two runs for every possible continuation of the record; tests run one record at a time.", "anchors": ["rdtools/normalization.py: energy_from_power, _aggregate, interpolate", "rdtools/aggregation.py: aggregation_insol"]}
{"id": "C87", "title": "A linear trend shifts the year-on-year rate by exactly its slope", "statement": "Add a + b t to every energy (t in nanoseconds; missing and infinite values stay). Without recentering, degradation_year_on_year with uncertainty_method 'simple' or 'none' raises the same error or gives the same usage counts and every year-on-year value, the rate, both ends of the confidence interval and the exceedance level plus 100 b (365 days): so a constant offset changes nothing at all. With recentering, and positive factors rho before and rho' after, all of these become (rho v + 100 b (365 days)) / rho', for values, rate and usage with every uncertainty method. The interval of the circular block bootstrap does not follow (refuted): it resamples the ratio of the energies to a trend line starting at one.", "quantifier": "all inputs in any order, all a and b, all random draws, all sorting permutations that do not look at the values", "why_tests_cant": "Relates two runs for all data and all trends; tests use a few synthetic series.", "anchors": ["rdtools/degradation.py: degradation_year_on_year", "rdtools/bootstrap.py: _make_time_series_bootstrap_samples"]}
{"id": "C88", "title": "From measured power to the reported degradation", "statement": "TrendAnalysis with pv_input='power'. (1) If the measured power is a fixed share of power_expected, with any steps and any gaps at the same rows, then after the constructor with interp_freq = w and max_timedelta None or at least w, the energy is the same share of the energy of the stored expected power, and a successful sensor_analysis (or clearsky_analysis after set_clearsky with an irradiance) reports rate 0, zero confidence interval and exceedance, and the share as renormalizing factor if recentered. (2) If the power lies on a regular index of at least four rows without missing values and is f(t) times power_expected (or times the PVWatts power of irradiance and cell temperature with a rating), f falling linearly from one aggregation bin to the next, then the constructor without interp_freq succeeds and every rate, value, interval end and exceedance level reported is 100 slope (365 days) / rho, with rho the level of the first year. (3) Interpolating again with the same max_timedelta fills no row that the first interpolation left missing.", "quantifier": "all records, steps, levels, slopes, limits, irradiances, filter parameters, random draws; the normalized filter must not keep missing rows and the aggregation width must divide a day or be a number of days; pandas must recognise the step w in three rows or more", "why_tests_cant": "The whole chain for all inputs; tests run one synthetic data set with approximate expected values.", "anchors": ["rdtools/analysis_chains.py:99-202 TrendAnalysis.__init__", "rdtools/analysis_chains.py:232-305 set_clearsky", "rdtools/analysis_chains.py: sensor_analysis, clearsky_analysis", "rdtools/normalization.py: energy_from_power, interpolate", "rdtools/degradation.py: degradation_year_on_year"]}
{"id": "C89", "title": "A TrendAnalysis of a system that is never soiled reports no soiling", "statement": "If the energy of a TrendAnalysis is always the same share of its modelled energy and the irradiance is never negative, then every successful sensor_analysis or clearsky_analysis that asks for 'srr_soiling' reports median soiling ratio, both ends of the confidence interval and exceedance level 1, every Monte Carlo profile 1 on every day, every interval with slope and slope bounds 0, and as renormalizing factor the level of the system (or 1 without recenter). The same holds from measured power that is a fixed share of power_expected with any steps and any gaps, through the constructor with interp_freq and sensor_analysis (or clearsky_analysis after set_clearsky with an irradiance that is never negative). On the way: energy of power that is never negative is never negative, the insolation of an analysis is never negative if the irradiance is not, and the stored daily performance and insolation have the same rows, with insolation above zero on each day that has a performance.", "quantifier": "all records, gaps, steps, levels, irradiances, filter parameters, random draws, cleaning settings, precipitation and methods of soiling_srr; the normalized filter must not keep missing rows, the aggregation width must divide a day or be a number of days and the minimum interval length is at least one", "why_tests_cant": "It joins interpolation, energy, normalization, filtering, insolation-weighted aggregation, interval detection and the Monte Carlo for every input; tests run each on one data set.", "anchors": ["rdtools/analysis_chains.py:820-863 _srr_soiling", "rdtools/analysis_chains.py:995-1075 sensor_analysis, clearsky_analysis", "rdtools/analysis_chains.py:99-202 TrendAnalysis.__init__", "rdtools/normalization.py: energy_from_power, interpolate", "rdtools/aggregation.py: aggregation_insol", "rdtools/soiling.py: soiling_srr"]}
{"id": "C90", "title": "The order of the subsystems does not matter to an availability analysis", "statement": "Putting the columns of power_subsystem, with their thresholds and relative sizes if given, in another order changes nothing in AvailabilityAnalysis.run but the order of the columns of the reporting mask: the subsystem loss, the rescaled expectation and its error bounds, the outages, the system loss, the corrected meter, the table of availabilities and any exception are the same, the object is left with the same attributes, and the figure differs only in the order of the subsystem curves. With given thresholds and sizes each row is judged by itself, so that the loss of a record is the loss of its parts one after the other. Not so for splitting: replacing a subsystem by two of half its power can change the loss (refuted with a witness), because the size of the smallest part that is offline decides which drop counts.", "quantifier": "all numbers of subsystems and orders, powers (also missing and infinite), thresholds, sizes, limits, meters, expectations, quantiles and periods", "why_tests_cant": "It is a relation between two runs for every permutation; tests use two or three subsystems in one order.", "anchors": ["rdtools/availability.py:201-294 _calc_loss_subsystem", "rdtools/availability.py:566-618 run", "rdtools/availability.py:387-519 _calc_loss_system", "rdtools/plotting.py: availability_summary_plots"]}
{"id": "C91", "title": "The same record at another time", "statement": "If every row of the inputs is d nanoseconds later, for any d, then interpolate, energy_from_power (all kinds, widths and limits), pvwatts_dc_power, normalize_with_expected_power and the filters normalized, poa, tcell, csi, quantile clip, insolation, two-way window, hampel and directional Tukey give exactly their former result with every row d later, or the same exception, and AvailabilityAnalysis.run gives the same result if its periods move as well. aggregation_insol does so if d is a whole number of days; for other d it does not (refuted with a witness), since days are counted from midnight.", "quantifier": "all records (sorted or not, with missing and infinite values), shifts, widths, limits and parameters; for normalize_with_expected_power pd.infer_freq must give the same frequency for shifted times", "why_tests_cant": "A relation between two runs for every shift; tests use fixed dates, so a dependence on the absolute time would go unseen.", "anchors": ["rdtools/normalization.py: interpolate, energy_from_power, normalize_with_expected_power, pvwatts_dc_power", "rdtools/aggregation.py: aggregation_insol", "rdtools/filtering.py: normalized_filter, csi_filter, two_way_window_filter, hampel_filter, directional_tukey_filter", "rdtools/availability.py: run"]}
