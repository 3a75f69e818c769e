{"claims": [
 {"property": "C01", "status": "proved", "theorems": ["C01_ci_ordered", "C01_ci_nested", "C01_ci_full", "C01_ci_percentiles", "C01_ci_rejected", "C01_exceedance_antitone"], "note": "percentile_ci is the construction shared by degradation.py, bootstrap.py and soiling.py"},
 {"property": "C02", "status": "proved", "theorems": ["C02_values_sound", "C02_values_complete", "C02_values_once", "C02_value_available", "C02_pairs", "C02_one_choice", "C02_determined_refuted"], "note": "timestamps naive or fixed offset; sort_values may be unstable (any arrangement sorted by shifted time)"},
 {"property": "C03", "status": "proved", "theorems": ["C03_linear"], "note": "the median and every pair equal the slope; missing rows and energies allowed"},
 {"property": "C04", "status": "proved", "theorems": ["C04_units", "C04_factor"], "note": "equality of whole results including errors, confidence interval and exceedance level, for all draws"},
 {"property": "C05", "status": "proved", "theorems": ["C05_row_order"], "note": "equality of whole results including errors"},
 {"property": "C06", "status": "proved", "theorems": ["C06_short_span", "C06_no_pair", "C06_otherwise_ok", "C06_otherwise_ok_leap", "C06_median", "C06_simple"], "note": "success characterised exactly for recenter=False without uncertainty; the two error cases and the median hold for all settings"},
 {"property": "C07", "status": "proved", "theorems": ["C07_usage", "C07_usage_documented", "C07_usage_leap", "C07_usage_documented_leap", "C07_documented_refuted"], "note": "documented meaning proved when no energy is missing, refuted in general (finding)"},
 {"property": "C08", "status": "proved", "theorems": ["C08_multiplicative", "C08_additive", "C08_exact_fit", "C08_other_decomposition"], "note": "arch's expansion of block starts is part of the model"},
 {"property": "C09", "status": "proved", "theorems": ["C09_irregular", "C09_long_block", "C09_result"], "note": "guards, and the full shape of a successful result"},
 {"property": "C10", "status": "proved", "theorems": ["C10_least_squares", "C10_rate", "C10_succeeds", "C10_exact_line", "C10_ignores_missing", "C10_shift", "C10_scale_rate", "C10_scale", "C10_uncertainty", "C10_empty", "C10_outcomes", "C10_one_time"], "note": "closed form of statsmodels' least squares fit is proved optimal and unique; interval equality under scaling needs draws that scale with their parameters"},
 {"property": "C11", "status": "proved", "theorems": ["C11_frequency_check", "C11_rejects", "C11_gap_rejected", "C11_moving_average", "C11_line", "C11_daily_line", "C11_any_missing_rejected_refuted"], "note": "pandas keeps the index frequency through row selections that form a slice; documented \"no missing data\" refuted (finding)"},
 {"property": "C12", "status": "proved", "theorems": ["C12_statistic", "C12_reversed", "C12_negated", "C12_monotone_transform", "C12_bound", "C12_maximum", "C12_minimum", "C12_trend", "C12_trend_reversed", "C12_trend_negated", "C12_trend_transform", "C12_variance", "C12_variance_inflated", "C12_tie_correction_refuted"], "note": "tie correction adds instead of subtracting (finding, with a witness where the reported trend changes)"},
 {"property": "C13", "status": "proved", "theorems": ["C13_interpolate", "C13_determined", "C13_default_limit", "C13_default_limit_nonneg", "C13_default_limit_few", "C13_negative_limit", "C13_frequency", "C13_errors", "C13_frame", "C13_frame_errors"], "note": "Exact specification (chord of the neighbouring available rows within the limit, else NaN) for every finite-valued series with increasing index; default limit, frequency targets, frames and errors included."},
 {"property": "C14", "status": "proved", "theorems": ["C14_missing_rows", "C14_between", "C14_own_index", "C14_affine", "C14_larger_limit"], "note": "NaN rows irrelevant, values between neighbours, own index, affine maps, monotone in the limit."},
 {"property": "C15", "status": "proved", "theorems": ["C15_energy", "C15_total", "C15_upsampled", "C15_scale", "C15_single"], "note": "Full characterisation of both branches for right-labelled power; fixed-width target frequencies only."},
 {"property": "C16", "status": "proved", "theorems": ["C16_label_in_gap", "C16_gap_ignored", "C16_uncovered", "C16_bad_type", "C16_gap_inside_refuted"], "note": "Masking for all types and widths; the documented NaN for gaps inside an interval is refuted with a witness (partial sums are returned)."},
 {"property": "C17", "status": "proved", "theorems": ["C17_energy", "C17_trapezoids", "C17_upsampled", "C17_upsampled_gaps", "C17_linear", "C17_constant"], "note": "Full characterisation, for long intervals and for intervals up to the median step, with gaps and the held last value."},
 {"property": "C18", "status": "proved", "theorems": ["C18_value", "C18_plain", "C18_linear", "C18_reference", "C18_per_degree"], "note": "Exact rationals; infinite irradiance or temperature excluded; non-zero reference."},
 {"property": "C19", "status": "proved", "theorems": ["C19_ratio", "C19_errors", "C19_one", "C19_self", "C19_units", "C19_pvwatts", "C19_rating"], "note": "Constants are positive (the model has no signed zero). Means of steps are compared exactly, so float rounding of normalization.py:53-57 is not covered. For C19_ratio, C19_one, C19_self and C19_pvwatts the frequency, if any, is assumed to describe the index (freq_ok); the scaling theorems hold for all inputs."},
 {"property": "C20", "status": "proved", "theorems": ["C20_iterative", "C20_no_step", "C20_single", "C20_other", "C20_no_data", "C20_objective", "C20_objective_single", "C20_rows", "C20_least_squares", "C20_proportional"], "note": "The optimiser is an arbitrary function argument; the objective is the squared RMSE, which has the same minimisers."},
 {"property": "C21", "status": "proved", "theorems": ["C21_value", "C21_bounds", "C21_ratio", "C21_missing", "C21_rescaled"], "note": "Both series share one sorted index, as produced by the normalisation functions; fixed-width frequencies."},
 {"property": "C22", "status": "proved", "theorems": ["C22_kept", "C22_quantile", "C22_median", "C22_mean", "C22_range", "C22_scale", "C22_zeros", "C22_dropped", "C22_missing_ignored_refuted"], "note": "Kept values given by robust_part (Spec/Filters.v); C22_missing_ignored_refuted is the witness against the docstrings."},
 {"property": "C23", "status": "proved", "theorems": ["C23_normalized", "C23_poa", "C23_tcell", "C23_not_finite", "C23_nan", "C23_widen"], "note": "For all values and limits including infinities."},
 {"property": "C24", "status": "proved", "theorems": ["C24_mask", "C24_scale", "C24_rejected", "C24_infinite"], "note": "Finite threshold; indexes without duplicates."},
 {"property": "C25", "status": "proved", "theorems": ["C25_mask", "C25_smaller", "C25_scale"], "note": "Series without infinities (scaling and monotonicity without that restriction)."},
 {"property": "C26", "status": "proved", "theorems": ["C26_mask", "C26_no_unit", "C26_sparse", "C26_missing", "C26_scale", "C26_median_unique"], "note": "Series without infinities; strictly increasing index; window a whole number of nanoseconds or rows."},
 {"property": "C27", "status": "proved", "theorems": ["C27_mask", "C27_affine", "C27_missing", "C27_constant", "C27_at_median", "C27_mono"], "note": "Series without infinities (invariance without that restriction); even time windows."},
 {"property": "C28", "status": "proved", "theorems": ["C28_mask", "C28_mono", "C28_affine", "C28_documented_fences_refuted"], "note": "Series without infinities (invariance without that restriction). C28_documented_fences_refuted is the witness against the docstring."},
 {"property": "C29", "status": "proved", "theorems": ["C29_mask", "C29_count", "C29_max", "C29_mono", "C29_scale"], "note": "Series without infinities."},
 {"property": "C30", "status": "proved", "theorems": ["C30_lookup", "C30_range", "C30_mono", "C30_user_values", "C30_call", "C30_no_components"], "note": "pvlib's detect_clearsky is an argument of the model. Frequencies are fixed lengths."},
 {"property": "C31", "status": "proved", "theorems": ["C31_errors", "C31_mask", "C31_detection", "C31_missing", "C31_none", "C31_scale"], "note": "The whole pipeline (regularised series, flat stretches, daily levels, overall 99th percentile rule) equals a declarative specification for a strictly increasing index and no infinities; unit invariance proved for all inputs."},
 {"property": "C32", "status": "proved", "theorems": ["C32_errors", "C32_removed", "C32_bounds", "C32_affine", "C32_own_day_refuted", "C32_none"], "note": "The classifier is an arbitrary function of the interpolated series; the features it is shown are C66, the trained model is outside the model. Assumes steps of at least one minute."},
 {"property": "C33", "status": "proved", "theorems": ["C33_mask", "C33_widen", "C33_dispatch"], "note": "pvlib's hour angle is an argument of the model."},
 {"property": "C34", "status": "proved", "theorems": ["C34_loss", "C34_bounds", "C34_thresholds", "C34_sizes", "C34_sizes_positive"], "note": "Rows of the subsystem frame are lists of values; sizes given by the caller must be positive, estimated sizes are shown to be positive for non-negative thresholds."},
 {"property": "C35", "status": "proved", "theorems": ["C35_runs", "C35_reported", "C35_all_offline_refuted"], "note": "Stated for the positions of rows; the case of a data set entirely in outage is refuted separately."},
 {"property": "C36", "status": "proved", "theorems": ["C36_outage", "C36_real_positive", "C36_meter_before", "C36_bound", "C36_first_row_refuted"], "note": "The error bound at the number of daylight rows is given by bound_at (interpolated points); first-row deviation refuted."},
 {"property": "C37", "status": "proved", "theorems": ["C37_system", "C37_conserved", "C37_single_row", "C37_lost_production_refuted"], "note": "Evenly spaced index; outages of at least two rows with non-zero expected energy after the first row; the other cases are separate theorems and examples. That periods report the outage losses is refuted."},
 {"property": "C38", "status": "proved", "theorems": ["C38_periods", "C38_total", "C38_run", "C38_stages", "C38_formula", "C38_bounds", "C38_decreasing", "C38_indexes"], "note": "Periods are numbered by any monotone function of time; evenly spaced index of at least two rows."},
 {"property": "C39", "status": "proved", "theorems": ["C39_init", "C39_daily", "C39_errors", "C39_intervals"], "note": "Full: daily table, events by criterion, tiling of the days into intervals, trimming, error cases. Finite or missing values; rolling median and carried values specified separately."},
 {"property": "C40", "status": "proved", "theorems": ["C40_table", "C40_formed", "C40_slope_refuted"], "note": "Full for finite values and fits; the claim that valid intervals have a slope is refuted for NaN fits (C40_slope_refuted)."},
 {"property": "C41", "status": "proved", "theorems": ["C41_realization", "C41_run", "C41_formed", "C41_percentiles", "C41_no_runs", "C41_mean", "C41_unbounded", "C41_unknown"], "note": "Full for every visiting order, method and draw; random numbers are arbitrary functions. The half-normal draw enters through its absolute value."},
 {"property": "C42", "status": "proved", "theorems": ["C42_starts", "C42_between", "C42_shared", "C42_order_refuted"], "note": "Proved for ascending visiting order, refuted for other orders (C42_order_refuted)."},
 {"property": "C43", "status": "proved", "theorems": ["C43_annual", "C43_errors", "C43_mean"], "note": "Full, including NaN years and errors."},
 {"property": "C44", "status": "proved", "theorems": ["C44_month", "C44_table", "C44_total", "C44_interest", "C44_days", "C44_all_days", "C44_flat_refuted"], "note": "Full, including sample counts, day counts, range and errors of the level; flat intervals never take part (C44_flat_refuted)."},
 {"property": "C45", "status": "proved", "theorems": ["C45_schedule", "C45_unique", "C45_order", "C45_decomposition", "C45_late_soiling", "C45_soiling_first_refuted"], "note": "Full; the claim of the code comment that soiling comes first after the change is refuted (C45_soiling_first_refuted)."},
 {"property": "C46", "status": "proved", "theorems": ["C46_output", "C46_kalman", "C46_failure", "C46_rows", "C46_days", "C46_clip", "C46_ratio", "C46_rates", "C46_no_rates", "C46_no_rounds", "C46_rate_fit", "C46_season_fit", "C46_soiling_fit", "C46_other_fit", "C46_fit_total"], "note": "Full; the seasonal and trend fits (STL, year-on-year) and the stationarity test are arbitrary functions; ratio formula for levels without missing values."},
 {"property": "C47", "status": "proved", "theorems": ["C47_collapse", "C47_errors", "C47_short", "C47_near", "C47_count", "C47_some", "C47_nothing", "C47_islands", "C47_islands_unique", "C47_island_refuted"], "note": "Full, as an equivalence; the claim that every island leaves an event is refuted (C47_island_refuted)."},
 {"property": "C48", "status": "proved", "theorems": ["C48_repetitions", "C48_combinations", "C48_weights", "C48_between", "C48_estimates", "C48_small", "C48_alternatives", "C48_unstable", "C48_none", "C48_few", "C48_short", "C48_best_refuted"], "note": "Full; the fits, samples and draws are arbitrary functions. That the best fit is returned is refuted (C48_best_refuted)."},
 {"property": "C49", "status": "proved", "theorems": ["C49_complement", "C49_series", "C49_results", "C49_increasing_refuted"], "note": "Full; that the interval is increasing is refuted (C49_increasing_refuted)."},
 {"property": "C50", "status": "proved", "theorems": ["C50_period", "C50_periodic", "C50_repeats", "C50_year", "C50_sample", "C50_samples"], "note": "Full for finite or missing values; random multipliers and shifts are arbitrary functions."},
 {"property": "C51", "status": "proved", "theorems": ["C51_estimate", "C51_band", "C51_missing", "C51_edge", "C51_column", "C51_row", "C51_pixel", "C51_temperature", "C51_swing", "C51_empty"], "note": "Full for time zones with a fixed offset and a fixed frequency width; the cosine and the Gaussian weights are arguments of the model (any weights > 0, any function in [-1,1])."},
 {"property": "C52", "status": "proved", "theorems": ["C52_construct", "C52_set_item", "C52_update", "C52_delete", "C52_pop_item", "C52_pickle", "C52_history", "C52_rejected", "C52_assign", "C52_initial", "C52_initial_aggregated", "C52_accepted", "C52_accepted_aggregated", "C52_bypassed", "C52_always_valid_refuted", "C52_update_iterator_refuted"], "note": "Full. Refuted: that every inherited operation keeps the keys valid; that an update from an iterator puts its items."},
 {"property": "C53", "status": "proved", "theorems": ["C53_filter", "C53_aggregated", "C53_none", "C53_aggregated_none", "C53_more", "C53_aggregated_more", "C53_default"], "note": "Full for strictly increasing time stamps in one time zone; the filter functions are arguments (their own properties are C22-C32)."},
 {"property": "C54", "status": "proved", "theorems": ["C54_entry", "C54_history", "C54_repeated", "C54_run", "C54_request", "C54_request_fails", "C54_needs_poa", "C54_needs_temperature", "C54_needs_clearsky", "C54_needs_clearsky_filter", "C54_needs_measured", "C54_needs_power", "C54_needs_location", "C54_needs_energy", "C54_needs_clearsky_setting", "C54_needs_settings", "C54_set_clearsky"], "note": "Full: methods are functions on the state of the object; pvlib, filters and the two final analyses are arguments. Messages and warnings are not modelled."},
 {"property": "C55", "status": "proved", "theorems": ["C55_decorated", "C55_rejected", "C55_default_message", "C55_own_message", "C55_interpolate", "C55_missing_value", "C55_incomplete", "C55_documented", "C55_warn", "C55_normalization"], "note": "Full; formats other than %(name)s and %% are left to an argument of the model."},
 {"property": "C56", "status": "proved", "theorems": ["C56_none", "C56_errors", "C56_calibration", "C56_ordered"], "note": "Evenly spaced index; scipy interp1d with a single point is taken as constant."},
 {"property": "C57", "status": "proved", "theorems": ["C57_unit"], "note": "Whole model of run, errors included."},
 {"property": "C58", "status": "proved", "theorems": ["C58_fit", "C58_exists", "C58_line", "C58_sign", "C58_below", "C58_values", "C58_missing", "C58_nearest"], "note": "Full for finite points; the margin (normal quantile times the deviation of Kendall's S) is any non-negative number."},
 {"property": "C59", "status": "proved", "theorems": ["C59_cleaning", "C59_soiling", "C59_steady", "C59_outliers", "C59_outliers_missing", "C59_filled_unique"], "note": "Full for finite or missing values."},
 {"property": "C60", "status": "proved", "theorems": ["C60_ends", "C60_forever", "C60_constant_forever", "C60_ends_refuted"], "note": "Full for up to 100 iterations; in general refuted (C60_ends_refuted)."},
 {"property": "C61", "status": "proved", "theorems": ["C61_run", "C61_setup", "C61_fit"], "note": "Full for exact arithmetic and finite settings; filterpy's predict, update and rts_smoother are modelled for two states. Hypotheses: non-zero process noise and deviations, positive noise, a complete week, a known value from the fourteenth row on."},
 {"property": "C62", "status": "proved", "theorems": ["C62_first", "C62_kept", "C62_short", "C62_pass"], "note": "Full for series without infinite values and finite thresholds."},
 {"property": "C63", "status": "proved", "theorems": ["C63_pipeline", "C63_any_width", "C63_any_width_refuted"], "note": "Full for finite values (values of bins) and fixed widths of nanoseconds; C63_any_width_refuted shows that the grid of C63_pipeline needs the restriction on the width, C63_any_width says what holds for all positive widths."},
 {"property": "C64", "status": "proved", "theorems": ["C64_value", "C64_index", "C64_errors", "C64_averages", "C64_minutes"], "note": "Full for strictly increasing indexes and finite or missing simulated values; pvlib and the optimiser are arguments."},
 {"property": "C65", "status": "proved", "theorems": ["C65_whole", "C65_object", "C65_call", "C65_calls", "C65_clearsky", "C65_unrated", "C65_rated", "C65_clip"], "note": "Full over exact numbers; the clipping filter of the environment must be unit-free on the power of the object, proved for the quantile, logic based and learned filters."},
 {"property": "C66", "status": "proved", "theorems": ["C66_filter", "C66_frame", "C66_bounds", "C66_needs", "C66_nothing", "C66_affine"], "note": "Full over exact numbers; the standard deviation column is represented by the variance, the trained classifier is an arbitrary function of a row."},
 {"property": "C67", "status": "proved", "theorems": ["C67_figure", "C67_drawn", "C67_errors", "C67_all_counted", "C67_color", "C67_rate", "C67_run_drawn", "C67_blocks", "C67_unit", "C67_unsorted_refuted"], "note": "Full over exact numbers for the data handed to matplotlib; histogram and scatter of the library are modelled, styling is left out."},
 {"property": "C68", "status": "proved", "theorems": ["C68_figure", "C68_band", "C68_same_draws", "C68_sparse", "C68_daily", "C68_run", "C68_blocks", "C68_crossed_refuted", "C68_half_refuted"], "note": "Full over exact numbers for the data handed to matplotlib; the time-based rolling window of pandas is modelled (right-closed, rows up to the current one), styling is left out."},
 {"property": "C69", "status": "proved", "theorems": ["C69_monte_carlo", "C69_intervals", "C69_rates", "C69_run", "C69_always"], "note": "Full over exact numbers for the data handed to matplotlib; the fit of the slopes is an argument whose finite lower bound is not above its slope (proved for theilslopes in C40/C41)."},
 {"property": "C70", "status": "proved", "theorems": ["C70_outage", "C70_type", "C70_run", "C70_object", "C70_history", "C70_before", "C70_staged", "C70_mirrored_refuted", "C70_failed_refuted"], "note": "Full over exact numbers for the data handed to matplotlib; index strictly increasing, slices by position as in C36."},
 {"property": "C71", "status": "proved", "theorems": ["C71_history", "C71_failed", "C71_other", "C71_name", "C71_scatter", "C71_figures", "C71_mixed_refuted"], "note": "Full for the data handed to the plotting functions; drawing functions are arguments except for the two degradation figures, which are those of C67 and C68."},
 {"property": "C72", "status": "proved", "theorems": ["C72_units", "C72_annual", "C72_ends", "C72_other_days", "C72_plain_refuted"], "note": "Full; without recentering the claim for the performance metric is refuted (C72_plain_refuted)."},
 {"property": "C73", "status": "proved", "theorems": ["C73_units"], "note": "Full; whole model of run, errors included."},
 {"property": "C74", "status": "proved", "theorems": ["C74_run", "C74_setup", "C74_events", "C74_call", "C74_rerun_refuted"], "note": "Full; the claim for calls that filter again is refuted (C74_rerun_refuted), see DESIGN.md."},
 {"property": "C75", "status": "proved", "theorems": ["C75_rate", "C75_data", "C75_stored", "C75_filter", "C75_analysis", "C75_unfiltered_refuted"], "note": "Full; the claim without the normalized filter is refuted (C75_unfiltered_refuted), see DESIGN.md."},
 {"property": "C76", "status": "proved", "theorems": ["C76_clean", "C76_whole"], "note": "Full, for the Theil-Sen fit with a non-negative margin and min_interval_length of at least 1."},
 {"property": "C77", "status": "proved", "theorems": ["C77_nothing_lost", "C77_available"], "note": "Full; the outcome by period is for evenly spaced times and data without infinities."},
 {"property": "C78", "status": "proved", "theorems": ["C78_partners", "C78_midnight", "C78_window", "C78_past", "C78_any_cut_refuted"], "note": "Full; the claim for arbitrary cuts is refuted by C78_any_cut_refuted."},
 {"property": "C79", "status": "proved", "theorems": ["C79_energy", "C79_interpolated", "C79_plant", "C79_not_negative", "C79_monotone", "C79_interpolated_monotone", "C79_normalized", "C79_pvwatts", "C79_daily", "C79_normalized_monotone", "C79_daily_monotone", "C79_infinite_refuted", "C79_gaps_refuted"], "note": "Full; without common gaps refuted by C79_gaps_refuted; the statements about normalization and averages need results without infinite values (without it C79_infinite_refuted, shown for C79_normalized)."},
 {"property": "C80", "status": "proved", "theorems": ["C80_local", "C80_daily", "C80_rate", "C80_recentering_refuted"], "note": "Full; with recentering refuted by C80_recentering_refuted."},
 {"property": "C81", "status": "proved", "theorems": ["C81_rows", "C81_daily", "C81_only_known_refuted"], "note": "Full; that rows without a value are skipped is refuted by C81_only_known_refuted."},
 {"property": "C82", "status": "proved", "theorems": ["C82_insolation", "C82_normalized", "C82_energy", "C82_negative_refuted", "C82_long_steps_refuted"], "note": "Full; negative insolation and long steps at the end of a narrow interval refuted by C82_negative_refuted, C82_long_steps_refuted."},
 {"property": "C83", "status": "proved", "theorems": ["C83_recovered", "C83_rain", "C83_recentered", "C83_default_refuted"], "note": "Full for perfect_clean and half_norm_clean without trimming; the overstated losses under default recentering are C83_default_refuted and quantified by C83_recentered."},
 {"property": "C84", "status": "proved", "theorems": ["C84_rate", "C84_data", "C84_stored", "C84_analysis", "C84_daily", "C84_initial_refuted"], "note": "Full; the initial-output reading of the recentered rate is C84_initial_refuted."},
 {"property": "C85", "status": "proved", "theorems": ["C85_outages", "C85_meter", "C85_total"], "note": "Full; that the lost production exceeds the loss for an outage that starts in daylight is C85_daylight (an example, cf. C37_lost_production_refuted)."},
 {"property": "C86", "status": "proved", "theorems": ["C86_aggregated", "C86_trapezoids", "C86_upsampled", "C86_upsampled_trapezoids", "C86_interpolated", "C86_daily", "C86_upsampled_hold_refuted", "C86_default_limit_refuted", "C86_any_interval_refuted", "C86_last_interval_refuted"], "note": "Full; the conditions on median, limit and known labels are necessary (four refutations)."},
 {"property": "C87", "status": "proved", "theorems": ["C87_trend", "C87_offset", "C87_recentered", "C87_circular_refuted"], "note": "Full; the circular block interval is refuted with a witness."},
 {"property": "C88", "status": "proved", "theorems": ["C88_twice", "C88_proportional", "C88_steady", "C88_steady_clearsky", "C88_follows", "C88_fading", "C88_fading_clearsky", "C88_fading_pvwatts"], "note": "Full for the stated records; power with gaps and a fade together is not covered."},
 {"property": "C89", "status": "proved", "theorems": ["C89_energy", "C89_insolation", "C89_stored", "C89_clean", "C89_power", "C89_power_clear"], "note": "Full for runs that succeed."},
 {"property": "C90", "status": "proved", "theorems": ["C90_loss", "C90_run", "C90_object", "C90_plot", "C90_local", "C90_split_refuted"], "note": "Full. The equality of sums in another order relies on exact arithmetic; splitting a subsystem is refuted."},
 {"property": "C91", "status": "proved", "theorems": ["C91_interpolate", "C91_energy", "C91_pvwatts", "C91_normalize", "C91_days", "C91_filters", "C91_availability", "C91_hours_refuted"], "note": "Full; no assumption on the records."}
]}
