# Formal model of rdtools in Rocq: design

The source is `/repo/rdtools` (read as text, never run).  The model lives in
`rocq/theories`, logical name `Verif`.

## Layout

| directory | contents |
|---|---|
| `theories/Base`  | numbers, float special values, lists, sorting, quantiles, calendar; no rdtools code |
| `theories/Model` | one file per rdtools module (or part of one); definitions only, each citing file and lines |
| `theories/Spec`  | small independent specifications used in theorem statements |
| `theories/Proofs`| lemmas |
| `theories/Props` | the property theorems: `Theorem CNN_... . Proof. exact lemma. Qed.`, `Print Assumptions`, and `Example`s on concrete data |

## Common modelling decisions (apply to every file)

* **Numbers.** Floating point values are modelled as `fl := NaN | NInf | Fin q | PInf`
  with `q : Qc` an exact rational in canonical form (Coq.QArith.Qcanon, no axioms).
  IEEE rules for NaN and infinities are modelled (`0/0`, `x/0`, `inf-inf`,
  comparisons with NaN are false); rounding, overflow and the sign of zero are not
  (`x/0` is treated as division by `+0`).  Where the code can only see finite values
  the model uses `Qc` directly and says so.
* **Time.** Timestamps are `Z` nanoseconds since the epoch, in one fixed-offset time
  zone.  Calendar functions (`DateOffset(years=1)`, month, year, day of year) use the
  proleptic Gregorian calendar on `Z`.  Daylight saving changes are not modelled.
* **Series.** A pandas Series is a list of (timestamp, value) rows in index order.
  The index is unique unless stated.
* **Randomness and external code.** `np.random.*`, the optimiser, xgboost, pvlib,
  statsmodels fits and STL are function arguments ("oracles") of the
  model; theorems quantify over them, with explicit hypotheses where the library
  documents a range (for instance a uniform draw lies between its bounds).
* **Exceptions** are values of `result A := Ok a | Raise e`.  Warnings are not modelled
  except where a property is about them.
* **Square roots** are avoided by comparing squares (`sqrt R / 2 < |u|` iff `R < 4 u^2`).

## Trusted base

* the Coq 8.16.1 kernel (and `coqchk`);
* what `Print Assumptions` prints under every property theorem: "Closed under the
  global context" is the intended outcome for every theorem (exact rationals, no Reals);
* the reading of the Python text recorded in the comments of `theories/Model`;
* the pandas/numpy semantics written down in `theories/Base` and in those comments
  (`quantile`/`percentile` with linear interpolation, `resample`, `rolling`,
  `merge_asof`, `reindex`, alignment of indexes, `fillna`).

Not modelled at all: the look of plots (plotting.py: only the data shown), _version.py, data and model files, float rounding,
time zones with daylight saving, printing, progress bars, performance.

## Disagreements between the code and what a reader would expect

Each is proved as a theorem with suffix `_refuted` (witness) or is part of the
statement of the property.

* C02: 28 and 29 February land on the same instant one year later.  Which of them is the partner depends on the order in
  which `sort_values` (numpy's default, unstable sort, degradation.py:277) leaves equal keys; the model takes any sort that
  meets the contract, and two such sorts give different rates (`C02_determined_refuted`).  The theorems on pairs, errors,
  usage and colours (`C02_pairs`, `C06_otherwise_ok_leap`, `C07_usage_leap`, `C67_color`) hold for every such sort.
* C07: usage_of_points differs from its documentation when energies are missing.
* C11: degradation.py:119-123 says "no missing data" but a missing stretch at either end
  (or evenly spaced rows) is accepted; and when the step divides half a year the moving
  average window is one row longer on the right, which moves the intercept by half a step.
* C12: degradation.py:404-405 adds the tie terms to the variance instead of subtracting.
* C16: normalization.py:358-360 and 371-374 say that intervals containing a gap longer than
  `max_timedelta` give NaN; in fact a gap wholly inside a target interval is left out and
  the rest is summed.  Only a label lying in a long step is NaN.
* C17: with instantaneous power the last available value is held to the end of the last
  target interval, also over trailing missing rows (`C17_trailing_hold`), and the first
  piece after a long gap is lost.
* C19: normalization.py:53-57 compares float means of steps; for equal frequencies rounding could
  trigger an interpolation (exact in the model).
* C20: a first guess within the threshold of 1 (or NaN) is used without any optimisation.
* C21: rows without energy keep their insolation weight and pull the mean towards zero
  (`C21_missing`).
* C22: the docstrings of utilities.py say that NaNs do not matter; leaving them out can
  change the result (`C22_missing_ignored_refuted`), replacing them by zeros cannot.
* C24: an infinite clear-sky value has index 0 and is kept when the threshold is >= 1.
* C26: missing values and points with sparse windows are kept; if the 99th percentile is 0
  nothing is filtered.
* C28: filtering.py:1032 hard-codes the lower fence at 1.5 IQR; the documented symmetric
  fences are refuted (`C28_documented_fences_refuted`).
* C32: filtering.py:890-897 fills daily thresholds forward, so a day without any prediction
  can lose rows (`C32_own_day_refuted`).
* C35: availability.py:425-432 takes starts and ends from changes of the outage flag, so a
  data set that is entirely in outage has no outage (`C35_all_offline_refuted`).
* C36: availability.py:442 uses position -1 for an outage that starts at the first row, the
  reading at the end of the data (`C36_first_row_refuted`).
* C37: availability.py:505-507 normalises the lost power by the energy of the rows after the
  first one, as the first row of energy_from_power is missing; the later energy of the lost
  power includes the first row, so that more is reported lost than the losses of the outages
  (`C37_lost_production_refuted`); if only the first row has expected power the lost power is
  infinite (`C37_infinite_loss`), and an outage of a single row is a ValueError unless the index has
  a declared frequency (`C37_single_row`).
* C38: the first period has no known loss if it ends before the second row (`C38_first_period`).
* C40: soiling.py:270 compares with `>` although min_interval_length is documented as a minimum; a
  fit with NaN slope passes every criterion (`C40_slope_refuted`), and the analysis then ends in
  an OverflowError (`C41_unbounded`).
* C42: soiling.py:468-482 collects the levels in set order but assigns them by position
  (`C42_order_refuted`).
* C44: an interval whose slope and bounds are all zero has a NaN relative error and is left out
  (`C44_flat_refuted`), while soiling.py:295 keeps it as valid.
* C45: the comment at soiling.py:1458 says the order is changed so that soiling is fitted first; the
  first component of the given order is (`C45_soiling_first_refuted`).  An order with soiling
  later than second never succeeds (`C45_late_soiling`).
* C46: without clipping the soiling rates are never set (`C46_no_rates`); with renormalisation and no
  events the ratio is missing throughout; equal spreads of zero in the residuals end in a
  ZeroDivisionError (`C46_failure`).
* C47: an island of detected rows may leave no event (`C47_island_refuted`).
* C48: the frame completed in stage 3 is that of the last initial fit (`df_out`), not the one with the
  largest weight (`C48_best_refuted`); a single initial fit that fails the test ends the run in a
  KeyError (`C48_short`), a fit that raises ValueError in an IndexError (`C48_few`).
* C49: the interval of the soiling ratio is decreasing (`C49_increasing_refuted`); the loss bound for a
  small signal is a fraction but treated as per cent.
* C60: pruning_iterations above 100 may never end (`C60_ends_refuted`).
* C61: the covariance entries of the last estimate are handed to the next run as standard deviations
  and squared again (soiling.py:2195, 2273); the measurement on a border row and all later ones do
  not reach back over the border, and the last row is not smoothed.
* C62: the list of events built in soiling.py:2224 has no effect; events are removed from the list the
  caller holds.  One incomplete week after an event keeps all events.
* C15: upsampling right-labelled power interpolates and does not conserve energy
  (`C15_upsampling_loses`).
* C51: within half a cell west of the date line (and of the south pole) the rounded index is one past
  the grid and everything is missing, although the first column would be the nearest (`C51_edge`);
  seconds of the times are ignored (`C51_estimate`).
* C52: `update` with an iterator checks the items and then puts none of them
  (`C52_update_iterator_refuted`); `setdefault` and `|=` do not check, and such an object cannot be
  unpickled (`C52_bypassed`).
* C55: the warnings of `delta_index` and `check_series_frequency` name the private functions
  (`C55_normalization`).
* C53: a missing value in an ad hoc filter is written back as False into the caller's series; the
  default normalized filter drops +inf but a row of a component outside the energy index is never
  kept, although the documentation speaks of the conjunction of all filters (`C53_filter`).
* C54: an unknown `pv_input` is accepted by the constructor and every analysis then fails with
  AttributeError (`C54_needs_energy`); the default parameters make every analysis of `pv_input='energy'`
  fail with ValueError until the clipping filter is removed (`C54_needs_power`); unknown names of
  analyses give an empty result (`C54_request`); clear-sky analysis without measured irradiance fails
  although clear-sky data are given (`C54_needs_measured`).
* C63: after the aggregated filters the series is resampled again, from the midnight before its first
  remaining bin.  For a width that neither divides a day nor is a number of days the new bins need not
  be the old ones: every kept value can be lost without an error (`C63_any_width_refuted`).
* C64: measured data with an interval that contains no whole minute (counted from the first time), for
  example any data every 30 s, make the clear-sky analysis fail with a ValueError about lengths
  (`C64_minutes`); the documentation does not mention a smallest step.
* C66: the range column (filtering.py:744-746) describes the window that starts at the row, while all
  other windows are centred; and a row whose window from it on is at the lowest value of the data is
  dropped (0/0), so the classifier never sees nights at zero.
* C67: by default the summary fails for less than 40 year-on-year values (0 bins, plotting.py:75), and
  always for circular blocks, whose dictionary has no YoY_values.  The colours of the detailed summary
  are given by position, but usage_of_points is sorted: for an unsorted series they are wrong.
* C68: `min_periods=rolling_days//2` counts rows against days, so weekly or monthly values give an empty
  figure although every window is complete; the docstring says 50% of the datapoints.  The two limits of
  the band are drawn separately and can cross.
* C70: the bar at the end of an outage has the absolute lengths |expected - bound|; with a lower error bound above zero
  (lower quantile above the middle) it is mirrored and no longer the interval used for the classification
  (`C70_mirrored_refuted`).  A second `run` that fails after line 335 leaves the new expected energy with the old outages, and
  `plot` draws the mixture (`C70_failed_refuted`).
* C71: the aggregated performance is assigned before the analyses run, the results after them.  If filter parameters are changed
  and the next call fails, `plot_degradation_summary` draws the old results with the new performance (`C71_mixed_refuted`).
* C72: with `recenter=False` a performance metric in another unit gives another ratio (`C72_plain_refuted`): the slopes are
  converted but clean panels are at one by definition.  The code does not check that the metric is near one.
* C74: because of that (C61), a call that prunes events and filters again depends on the unit of the index
  (`C74_rerun_refuted`); a call settled by its first round does not.
* C75: without the normalized filter a missing row lowers the performance of its bin (aggregation.py:25-26 sums the
  insolation of all rows but the energy of the known ones), so a system without degradation can show one
  (`C75_unfiltered_refuted`).
* C76: a record without any soiling is one single interval, so trimming the first and the last interval leaves
  nothing and the analysis raises NoValidIntervalError (soiling.py:241-245, 286; part of `C76_whole`).
* C77: a period in which the meter does not move (a dark one) has a missing availability, not 1
  (availability.py:561 divides zero by zero).
* C78: moving a time one calendar year forward is not monotone within 28/29 February (28 February 23:00 lands
  after 29 February 1:00), so a cut there can create pairs the whole record does not have
  (`C78_any_cut_refuted`).
* C79: inverters that miss different reports have energies that do not add up to the energy of the plant, although
  all are reported as known (`C79_gaps_refuted`): a missing power is filled from the next one.
  Where no power is expected, normalized energies are infinite and not linear (`C79_infinite_refuted`).
* C80: the rate is robust only without recentering: the factor is the median of the first year, so wrong values
  there change every value (`C80_recentering_refuted`).
* C81: a row without a value still is the partner of a later point, so it hides neighbours within eight days that
  have values; in an index of all days the eight-day tolerance is of no use (`C81_only_known_refuted`).
* C82: narrow intervals can report less energy in total than wide ones: an interval that ends inside a long step is
  missing, with all energy before that step (`C82_long_steps_refuted`).
* C83: the default `recenter=True` divides by the median of the first year, which is below the clean level if it soils;
  with perfect cleaning every loss is then overstated by the ratio of the two (`C83_recentered`, `C83_default_refuted`).
* C84: the recentered rate is relative to a level of the first year, so a system that loses 1 % of its initial output a year
  is reported with a larger rate (`C84_initial_refuted`).
* C85: an outage that starts in daylight is charged with more lost production than it missed (its first row counts in the
  expected energy but not in the energy that the loss is spread over), one that starts in the dark with exactly it.
* C86: with the default `max_timedelta` (the median step of the whole record) or a target interval near the median step, the
  energies of the past depend on data recorded later (C86_default_limit_refuted, C86_any_interval_refuted).
* C17: with target intervals up to the median step, the first interval after a gap gets no instantaneous energy although both its
  ends are known (the step before its start is missing), and the last value is held over all missing labels at the end
  (C17_upsampled_gaps, C17_gaps_example).
* C87: adding a constant to un-recentered energies leaves rate and values alone but changes the confidence interval of the circular
  block method (C87_circular_refuted).
* C90: replacing a subsystem by two of half its power can change the subsystem loss: a drop of the system counts from three quarters
  of the smallest part that is offline (C90_split_refuted).

## Wrong programs (seeded/LOG.jsonl)

Each line is one edit of the model, built in a copy outside this directory. How to read the log:

* An edit counts as caught if the build fails. Lines up to about 1850 were written without checking first that the
  unchanged copy builds, and without telling a failed proof from a build that was killed or timed out. Later lines were.
* Lines 923 and 1496 say caught but name no failing statement. Repeated, the edit of 923 fails in Proofs/SoilP12.v.
  The edit of 1496 only ran out of time: two limits were compared by computation. The proof of `clearsky_value` now
  fails at once for it, and `C64_limit` shows that the limit matters (last repeat: line 1854).
* Lines that named only an example or a file of Props (35 more) were repeated without Props; in all of them a proof fails.
* A failing proof shows that the theorem as proved does not go through for the edited model. It was not shown for every
  edit that the theorem is false of it.

## Per property

Status of each claim and the theorem names are in `MANIFEST.json`.

| id | modelled code | proof idea |
|---|---|---|
| C01 | numpy linear percentile, CI construction | sorted-list interpolation is monotone in the level; extreme levels are min and max |
| C02 | year_on_year pairing | as-of join characterised by a relation, and by a choice function when landing times clash (YoYP3.v); calendar lemma 365 <= one year <= 366 |
| C03 | year_on_year | every pair gives the same quotient; median of a constant list |
| C04 | year_on_year, robust_median | equivariance of quantile under positive scaling, lifted through the pipeline; the factor itself characterised through `robust_part` (UncertaintyP.v) |
| C05 | year_on_year | sort of a permutation with distinct keys is the same list |
| C06 | year_on_year | case analysis; median between min and max; simple bootstrap percentiles of resampled medians (UncertaintyP.v) |
| C07 | usage_of_points | counting characterisation plus refutation witness |
| C08 | bootstrap samples | index arithmetic mod n |
| C09 | year_on_year circular_block | guards |
| C10 | degradation_ols, _degradation_CI | closed form proved optimal and unique against `sq_error` (Spec/Regression.v); lines, shift, scale by algebra on the sums; covariance against the normal matrix (UncertaintyP.v); all outcomes and the case of one single time in RegressionP2.v |
| C11 | classical decomposition | frequency check equivalent to `evenly_spaced`; window index arithmetic for regular lines, then C10 |
| C12 | _mk_test | pair sums by induction; variance against `mann_kendall_variance`; tie witness |
| C13, C14 | interpolate | merged-index algorithm proved equal to a declarative bracketing specification |
| C15, C16, C17 | energy_from_power, _aggregate | the union-index computation is shown to cut each step between available values into pieces, and pieces are regrouped by telescoping; fixed-width frequencies only |
| C18 | pvwatts_dc_power | alignment characterised by `value_at`; field identities |
| C19 | normalize_with_expected_power, normalize_with_pvwatts, _check_series_frequency | `normalize_spec` unfolds the pipeline into a relation; unit scaling lifted through interpolation (default limit included), energy_from_power and alignment |
| C20 | irradiance_rescale | loop proved equivalent to a trace of tried factors (`tried`); objective against `mean_sq` over `picked` rows; least squares by completing the square |
| C21 | aggregation_insol | resample bins against `in_bin`; weighted sums `bin_energy`, `bin_weight`, `bin_known`; inequalities on sums |
| C22 | robust_* | filter and quantile bounds; refutation for NaN insensitivity |
| C23-C25, C29 | pointwise filters | mask row by row against `mask_is`; quantiles against `is_percentile`; scaling by equivariance of quantiles |
| C26-C28 | window filters | Base/Rolling.v windows shown to select the rows of the declarative window (`selected`), medians against `is_median`; affine equivariance of rolling medians |
| C30 | pvlib_clearsky_filter | table lookup against `on_table`; detector is an argument |
| C33 | hour_angle_filter, clip_filter, clearsky_filter | pointwise; strings |
| C31 | logic_clip_filter | pipeline of regularising, stretch detection, transfer of flags and daily levels proved equal to declarative relations (`flagged`, `level_clipped`, `overall_clipped`); unit change by equivariance of every stage |
| C32 | xgboost_clip_filter | the predictions are an arbitrary function; mask proved equal to `learned_clipped`; features are in C66, the pickled model is not modelled |
| C34 | _calc_loss_subsystem | each row reduced to a list of `subsystem` records, then case analysis and inequalities on weighted sums; default thresholds and sizes against `is_percentile`, `is_median` |
| C35 | outage runs | forward and backward fill against `last_daylight`, `next_daylight`; runs against `maximal_run` by induction |
| C36 | outage classification | direct; interpolated bounds against `clamped` |
| C37 | loss reconstruction | energy of a slice of an evenly spaced index (EnergyP7.v) is a row-wise sum; outages are disjoint, so rows are settled one outage at a time |
| C38 | _combine_losses, index check | periods are numbered by any monotone function of time; sums regrouped by period |
| C56 | _calc_error_distributions | windows of the selected rows against `windows`; percentiles against `is_percentile`; order by monotonicity of percentiles and of interpolation |
| C57 | run | every use of the expected power is homogeneous of degree 0 or 1, checked on floats with infinities and NaN |
| C39 | SRRAnalysis.__init__, _calc_daily_df | filled values against `carried`, steps against `window_median`, gaps against runs of missing rows; interval numbers count events, hence `tiles` |
| C40 | _calc_result_df | one record per tile proved `described`; the fit is any function |
| C41, C42 | _calc_monte, run, soiling_srr | induction over the interval list with random numbers as functions; group levels by position are levels by group for ascending order (SoilP6-P8); witness for another order |
| C43, C44 | annual_soiling_ratios, monthly_soiling_rates, _count_month_days | weighted means over `year_rows`; `has_days` by duplicate-free lists; ceilings summed; sample lists against `is_median`, `is_percentile` |
| C58 | scipy theilslopes as called | chords by `list_prod`; ranks against `nearest_even`; medians between order statistics; affine equivariance of medians |
| C45 | iterative_signal_decomposition schedule | loop on explicit state with an arbitrary step function; invariant relating the rotated order to `scheduled`; the run is shown unique |
| C46 | iterative_signal_decomposition output, _Kalman_filter_for_SR frame | columns row by row against `composed`, `linear`, `seasonal`; events of the filter stay sorted row numbers, days and ratios against `latest_event`, `perfect_ratio`; each fit against `quotient`, `over`, `either` (Spec/CodsStep.v) |
| C47 | _collapse_cleaning_events | measure: number of remaining flags; islands against maximal runs, result as an equivalence |
| C48, C49 | CODSAnalysis.__init__, run_bootstrap, soiling_cods | fits, samples and draws are arbitrary functions; weights against `inverse_weights`, intervals against `is_percentile`; counting arguments for the error cases |
| C50 | _force_periodicity, _make_seasonal_samples | days of the year grouped; medians over years; index arithmetic |
| C59 | _rolling_median_ce_detection, _soiling_event_detection, _find_numeric_outliers | quartile fences against `is_percentile`; rolling windows as in C26 |
| C60 | loop of _Kalman_filter_for_SR | induction on the rounds left; counter set to 100 never reaches more than 100 |
| C61 | _Kalman_filter_for_SR, _forward_pass, _smooth_results, _initialize_univariate_model, filterpy predict/update/rts_smoother for two states | completing squares: `distance` and `cost` are quadratic, each filter step is the exact minimum over the previous state (`estimated`), the smoother the unique minimum (`best_path`); chain of runs `fitted`.  Smoothed covariances are modelled but not used by any caller |
| C62 | first_events, keep_events, _set_control_input | row by row against `row_events`, multisets of events (`taken_out`, `put_in`); C47, C59 for collapsing and detection |
| C63 | _sensor_preprocess, _clearsky_preprocess, aggregation, asfreq | `run_of` unfolded; masks against `kept` (C53), bins against `bin_of`/`bin_energy` (C21), regular grid by alignment of bins at midnights; for any width (`C63_any_width`) the bins counted anew from the midnight of the first kept bin (`rows_anew`), with the two branches of pandas' upsampling |
| C64 | _calc_clearsky_poa | `averaged`, `covered`, `whole_minute` of Spec/ClearskyPoa.v; groups as intervals between consecutive times, count of non-empty groups |
| C65 | whole TrendAnalysis, energy_from_power, normalize_with_expected_power | `object_in` of Spec/Units.v; each method commutes with the conversion; interpolation, energies and quotients commute for all values, infinite ones included |
| C66 | _calculate_xgboost_model_features, the frame of xgboost_clip_filter | `shown` and `numbers_shown` of Spec/ClipFeatures.v by row numbers; each column is a partial function of the row number; affine maps commute with interpolation and means |
| C67 | degradation_summary_plots, numpy/matplotlib histogram and scatter colours | `summary_shows` of Spec/Plots.v; bars by counting (`tally`), no floor function; usage counts from C07 |
| C68 | degradation_timeseries_plot, pandas rolling over days, bootstrap of the band | `last_days` (rows by position and time), `enough`, `curve_shows`, `resampled` of Spec/Plots.v; counting of spaced and of daily rows |
| C69 | soiling_monte_carlo_plot, soiling_interval_plot, soiling_rate_histogram after SRRAnalysis.run | Spec/SoilingPlots.v (`in_multiples`, `first_ones`, `valid_rates`), histogram of C67, tables of C40/C41 |
| C70 | availability_summary_plots, AvailabilityAnalysis.plot and the attributes run sets | Spec/AvailabilityPlots.v (`production_shown`, `bar_from`), outages of C35/C36 |
| C71 | TrendAnalysis.plot_* | histories of C54 (`last_successful`), figures of C67/C68 composed with the analysis; sortedness of the aggregated performance; `paired` of Spec/TrendPlots.v |
| C72 | soiling_srr as a whole, annual_soiling_ratios | simulation: every table of the rewritten run is the rewritten table (Proofs/SoilP15.v); fit, draws and set order are arbitrary functions, never assumed equivariant, because they are shown identical inputs |
| C73 | run | every step of the model is homogeneous of degree 0 or 1 in power and energy, on floats with infinities and NaN (Proofs/AvailP13.v); what is converted is listed in Spec/AvailabilityUnits.v |
| C74 | _Kalman_filter_for_SR with the functions it calls | homogeneity of every step, degree 1 for states and 2 for covariances, on floats with infinities and NaN (Proofs/KalP8.v); what is converted is listed in Spec/KalmanUnits.v; thirteen days as the witness against a second pass |
| C75 | the whole chain: normalisation, filters, aggregation, degradation_year_on_year | C19, C63, C54 and C03 put together: constants are followed through each stage (Proofs/SteadyP.v, SteadyP2.v); the year-on-year function of the environment is the modelled one, the other filters stay arbitrary |
| C76 | soiling_srr as a whole | the constant is followed through the daily table, the fits, the interval table and the realizations (Proofs/CleanP.v); well-formedness of the table from C39, realizations from C41 |
| C77 | AvailabilityAnalysis.run as a whole | losses and outage flags vanish row by row (Proofs/AvailP14.v), then C56 for the error distributions and C38 for the periods; Spec/Available.v |
| C78 | degradation_year_on_year on a record and on a part of it | from the pairs of C02; landing is strictly increasing over midnights but 29 February (Proofs/WindowP.v); Spec/Window.v |
| C79 | energy_from_power and interpolate on weighted sums | each function commutes with evaluating a series of coefficient pairs at any weights (Proofs/SuperP.v), signs by a value-wise invariant (SuperP2.v), normalization by looking up both quotients at each time (NormLinP.v), daily values by sums over bins that depend on times only (AggLinP.v), order by the sign of the difference (NormMonoP.v); Spec/Superposition.v |
| C80 | degradation_year_on_year on records that differ at some times | partners depend on times only; median of a list with a majority between bounds; landing of midnights (Proofs/WrongP.v); Spec/Wrong.v |
| C81 | degradation_year_on_year on a record and on its rows with a value | partners in the rows with a value; landing of midnights (Proofs/UnknownP.v); Spec/Unknown.v |
| C82 | aggregation_insol and energy_from_power with a width and a multiple of it | narrow bins partition wide ones, sums swapped (Proofs/TwoStepsP.v); rectangles cut at labels (Proofs/TwoStepsP2.v) |
| C83 | soiling_srr on a sawtooth | order statistics of shifted windows bound the median steps (Proofs/SawP.v); daily table, Theil line, intervals, realisations and percentiles chained (Proofs/SawP2.v, SawP3.v) |
| C84 | TrendAnalysis on an evenly fading system | normalized energy follows the factor, bins put it on a line, the pairing of a line gives one value (Proofs/FadingP.v on the pipeline of C63 and the line theorem of C03) |
| C85 | AvailabilityAnalysis.run with an exact expectation | errors of all windows vanish, so the bounds are zero; composition of C34, C35, C36, C37, C38 and C56 (Proofs/AvailP15.v); rows that failed or touch a failed row through darkness are specified in Spec/Outages.v |
| C86 | energy_from_power, interpolate and aggregation_insol on a record and on a longer one | the sums and conditions of C13, C15, C17 and C21 only involve rows before the time in question; those properties determine the value, so both runs give the same (Proofs/GrowP.v, GrowP2.v, GrowP3.v) |
| C87 | degradation_year_on_year on a series and on the series plus a line | all rows are mapped by one affine map per timestamp; the merge only looks at timestamps, so each pair value is mapped by one affine map, which commutes with median and percentiles, infinities included (Proofs/YoYP4.v) |
| C88 | the constructor from power, set_clearsky, both analyses and the year-on-year degradation in one chain | interpolation and energy are linear (C79 lemmas), the interpolated index is regular, two limits that agree on the grid give the same energy, interpolating twice adds nothing; then C75_analysis and C84_analysis (Spec/RawPower.v, Proofs/RawP.v) |
| C89 | the constructor from power, both analyses, the insolation-weighted daily aggregation and soiling_srr in one chain | interpolation and energy keep the sign; the aggregated insolation of a bin with a performance is the weight of the bin and so above zero; then C76 on the stored series (Spec/CleanRun.v, Proofs/CleanRunP.v) |
| C90 | run, its object and its figure with the subsystems in another order | a permutation of column numbers commutes with everything done row by row and column by column; sums, means, smallest values and quantifiers do not depend on the order, also with missing and infinite values; `C90_split_refuted` records that splitting a subsystem is not neutral (Spec/Reorder.v, Proofs/AvailP16.v) |
| C91 | interpolation, energy, normalization, filters and availability of a record with all times shifted | every time operation (lookup, bins, unions, windows, labels) commutes with adding d; days commute for whole days only, `C91_hours_refuted` (Spec/Delay.v, Proofs/DelayP.v, DelayP2.v) |
| C51 | get_clearsky_tamb, _get_pixel_value, _get_temperature | rounding against `nearest_even`; weighted windows are complete because of the buffer; between midnights by the chord lemmas of C06; nearest grid point by index arithmetic.  Cosine and weights are arguments |
| C52 | ValidatedFilterDict, initial parameters | dictionaries as lists against `binds`; invariant over histories; refutations for setdefault, in-place union and iterators |
| C53 | _filter, _aggregated_filter, _call_clearsky_filter | components against `parts_of`/`parts_fail` with what each filter `lacks` and its `call`; union index by sorting; mask against `kept` |
| C54 | TrendAnalysis: __init__, set_clearsky, calculations, preprocessing, analyses (99-1074) | methods as state functions; `completion` (all attributes that can be computed) is invariant, so each call is a function `run_of` of it; histories by induction |
| C55 | _deprecation.py; delta_index, check_series_frequency | callables with state and warnings as values; %-formatting as a parser, proved inverse to writing pieces |
