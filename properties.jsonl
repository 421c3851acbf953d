{"id": "C01", "title": "Mean collocation averages exactly the closed window", "statement": "temporal_collocation(..., method='mean') with chronologically sorted reference and other timestamps returns, for every reference timestamp t, the mean of the non-missing values of `other` whose timestamp lies in the closed interval [t-window, t+window], and a missing value when there is no such observation; one output per reference timestamp, in order.", "quantifier": "all sorted timestamp lists (with ties), all values incl. NaN, all sorted reference lists, all window sizes >= 0", "why_tests_cant": "The kernel keeps two moving pointers across reference timestamps; a stale pointer only shows for particular interleavings of gaps, ties and window edges, of which tests sample a handful.", "anchors": ["src/pytesmo/temporal_matching.py:resample_mean", "src/pytesmo/temporal_matching.py:temporal_collocation"]}
{"id": "C02", "title": "Nearest collocation picks a nearest observation within the tolerance", "statement": "temporal_collocation(..., method='nearest') returns one row per distinct reference timestamp in first-occurrence order; the row carries the values of an observation of `other` at minimal absolute time distance (ties go to the later timestamp; of duplicated timestamps the first row is used) if that distance is <= window, and is missing otherwise. If the timestamps of `other` are neither increasing nor decreasing after removing duplicates the call raises.", "quantifier": "all reference timestamp lists, all monotone `other` series with duplicates, all windows", "why_tests_cant": "Optimality is a statement about every competitor observation for every input; tests only check hand-picked neighbours.", "anchors": ["src/pytesmo/temporal_matching.py:temporal_collocation"]}
{"id": "C03", "title": "Flagged observations are only used as a documented fallback", "statement": "With a validity flag and nearest collocation, a value of a flagged observation appears in the output only if use_invalid=True and the unflagged observations supplied no value for that cell; with use_invalid=False the output equals the collocation of the unflagged observations alone.", "quantifier": "all references, all observations, all flag arrays of accepted length, both values of use_invalid", "why_tests_cant": "Requires comparing with the run on the filtered series for all inputs.", "anchors": ["src/pytesmo/temporal_matching.py:temporal_collocation"]}
{"id": "C04", "title": "A flag array has one entry per observation", "statement": "A caller can pass `flag` with exactly one entry per row of `other` and get each entry applied to its row, whatever the number of reference timestamps and whether or not `other` contains duplicated timestamps; with method='mean' flagged rows are left out of the mean.", "quantifier": "all pairs of lengths of reference and other, all flag arrays", "why_tests_cant": "Existing tests use reference and other of equal length without duplicates, where the length confusion is invisible.", "anchors": ["src/pytesmo/temporal_matching.py:temporal_collocation", "src/pytesmo/temporal_matching.py:resample_mean"]}
{"id": "C05", "title": "Combined collocation keeps exactly the common or the union rows", "statement": "combined_temporal_collocation places the columns of the reference (if requested) and of every other frame side by side on one time axis; with combined_dropna='any' a timestamp is kept iff every column has a value there, with 'all' iff at least one column has a value, with False iff it occurs in one of the collocated frames; values are never altered or moved to another timestamp.", "quantifier": "any number of frames, all contents, all dropna/combined_dropna settings", "why_tests_cant": "The number of frames and the missing-value pattern are unbounded.", "anchors": ["src/pytesmo/temporal_matching.py:combined_temporal_collocation"]}
{"id": "C06", "title": "Asymmetric search windows of df_match", "statement": "df_match with a window keeps a match at signed distance d (other minus reference) iff |d|<=window (default), iff -window<d<=window for asym_window='<=', iff -window<=d<window for asym_window='>='; rejected rows become missing and the retained distances are the true distances of a nearest neighbour. With dropduplicates each row of the other frame is kept for at most one reference row, one at the smallest distance.", "quantifier": "all references, all other frames, all windows and modes", "why_tests_cant": "Boundary behaviour at exactly +-window and the uniqueness of kept rows quantify over all inputs.", "anchors": ["src/pytesmo/temporal_matching.py:df_match", "src/pytesmo/temporal_matching.py:matching"]}
{"id": "C07", "title": "Boxcar moving average equals the centred window mean", "statement": "For chronologically sorted input, the moving average at a position is the mean of all non-missing values whose time distance is at most half the window, provided there are at least min_obs of them; otherwise, and at missing positions when fillna is off, the output is missing. The output has the length of the input.", "quantifier": "all sorted time/value arrays incl. NaN, all window sizes, min_obs >= 1, both fillna settings", "why_tests_cant": "The implementation scans outward and stops at the first value beyond the window; whether that ever skips or includes a wrong sample depends on arbitrary gap patterns.", "anchors": ["src/pytesmo/time_series/filters.pyx:boxcar_filter", "src/pytesmo/time_series/filtering.py:moving_average"]}
{"id": "C08", "title": "Exponential filter is a running convex combination", "statement": "The exponential filter leaves exactly the missing inputs missing, returns the first valid value unchanged, and every other output lies between the minimum and the maximum of the valid inputs seen so far; a constant series is returned unchanged; later inputs never influence earlier outputs.", "quantifier": "all strictly increasing time axes, all value arrays incl. NaN, all characteristic time lengths > 0", "why_tests_cant": "A recursive filter: the claim is an invariant over arbitrarily long inputs.", "anchors": ["src/pytesmo/time_series/filters.pyx:exp_filter"]}
{"id": "C09", "title": "Anomaly plus removed reference gives back the series", "statement": "calc_anomaly without climatology returns a series on the same time index where each value is the input value minus the centred moving average at that time (missing exactly when the input or the average is missing), so adding the moving average restores the input.", "quantifier": "all series, all window sizes", "why_tests_cant": "Index alignment and missing-value propagation for all inputs.", "anchors": ["src/pytesmo/time_series/anomaly.py:calc_anomaly", "src/pytesmo/time_series/filtering.py:moving_average"]}
{"id": "C10", "title": "Climatology smoothing treats the year as a circle", "statement": "calc_climatology(..., wraparound=True) returns one value per day of year 1..366 (or month 1..12), equal to the centred moving average over the circular sequence of per-day means/medians, so that 31 December and 1 January are neighbours, for every smoothing window of at least one and at most the length of the year.", "quantifier": "all series, all window sizes in range, day and month units", "why_tests_cant": "Padding and re-indexing arithmetic must be right at every offset; tests look at single series.", "anchors": ["src/pytesmo/time_series/anomaly.py:calc_climatology"]}
{"id": "C11", "title": "Anomalies subtract the climatology of the same calendar day", "statement": "Using a climatology computed with the default options in calc_anomaly with the default options (as AnomalyClimAdapter does) subtracts, for every observation, the climatology value that was computed from observations of the same calendar day (month, day).", "quantifier": "all dates of leap and non-leap years", "why_tests_cant": "Needs agreement of two day-of-year conventions over the whole calendar; a test on one leap-year series or one date before March passes.", "anchors": ["src/pytesmo/time_series/anomaly.py:calc_anomaly", "src/pytesmo/time_series/anomaly.py:calc_climatology", "src/pytesmo/validation_framework/adapters.py:AnomalyClimAdapter"]}
{"id": "C12", "title": "Leap-day interpolation replaces one day by the mean of its neighbours", "statement": "With interpolate_leapday the climatology value of 29 February (or of the last day when leap years are not distinguished) is the mean of the two neighbouring days' climatology, and all other days as well as the standard-deviation column are computed independently of it.", "quantifier": "all series, with and without the std option", "why_tests_cant": "Holds or fails depending on an option combination and on data.", "anchors": ["src/pytesmo/time_series/anomaly.py:calc_climatology"]}
{"id": "C13", "title": "Day-bin grouping labels every date with the boundary of its own bin", "statement": "group_by_day_bin/grouped_dates_between label each date with the first (start=True) or last day of the day-bin of its own month that contains it, clipped to the month's length; labels are monotone in the date, the labelled bin contains the date, and grouped_dates_between lists each label between the two dates exactly once in chronological order.", "quantifier": "all calendar dates of all years, all increasing bin definitions that start at day 1 and reach past day 31", "why_tests_cant": "Month lengths, leap years and bin edges interact; quantifies over the calendar.", "anchors": ["src/pytesmo/time_series/grouping.py:group_by_day_bin", "src/pytesmo/time_series/grouping.py:grp_to_datetimeindex", "src/pytesmo/time_series/grouping.py:grouped_dates_between"]}
{"id": "C14", "title": "YearlessDatetime is a total order on the calendar and converts faithfully", "statement": "The comparison operators of YearlessDatetime form a total order that agrees with chronological order within any leap year; to_datetime(year) yields the same month, day and time in that year, and yields nothing only for 29 February in a non-leap year.", "quantifier": "all valid yearless dates, all years", "why_tests_cant": "Totality and transitivity are statements about all triples.", "anchors": ["src/pytesmo/time_series/grouping.py:YearlessDatetime"]}
{"id": "C15", "title": "TsDistributor selects exactly the union of its conditions", "statement": "TsDistributor.filter marks a timestamp iff it falls on one of the listed dates or inside one of the listed date ranges (endpoints included, order of endpoints irrelevant); select keeps exactly the marked rows in order, or with set_nan keeps all rows and blanks exactly the unmarked ones.", "quantifier": "all indices, all date and range lists", "why_tests_cant": "Set semantics over arbitrary condition lists.", "anchors": ["src/pytesmo/time_series/grouping.py:TsDistributor"]}
{"id": "C16", "title": "Yearless ranges select by season in every year", "statement": "With yearless_date_ranges a timestamp is selected iff its month/day/time-of-day lies in one of the yearless ranges, in every year covered by the data, including ranges that wrap around New Year and ranges starting or ending on 29 February.", "quantifier": "all timestamps, all year spans of the index, all yearless ranges", "why_tests_cant": "The set of years in the index and wrap-around ranges are unbounded combinations.", "anchors": ["src/pytesmo/time_series/grouping.py:TsDistributor"]}
{"id": "C17", "title": "Seasonal metric subsets partition the data", "statement": "MonthsMetricsAdapter with the default seasons assigns every observation (whole-second timestamps) to exactly one of DJF, MAM, JJA, SON, to the season of its month, and to ALL.", "quantifier": "all timestamps in all years incl. leap days", "why_tests_cant": "Quantifies over the calendar, and month-length tables are for leap years.", "anchors": ["src/pytesmo/validation_framework/metric_calculators_adapters.py:MonthsMetricsAdapter"]}
{"id": "C18", "title": "min_max scaling reaches the reference range", "statement": "min_max maps a non-constant source so that its minimum and maximum equal those of the reference, every scaled value lies in the reference range, and the order of values is preserved.", "quantifier": "all non-constant sources, all references", "why_tests_cant": "Universally quantified algebra.", "anchors": ["src/pytesmo/scaling.py:min_max"]}
{"id": "C19", "title": "mean_std scaling matches mean and standard deviation", "statement": "mean_std maps a non-constant source to a series with exactly the mean and the (population) standard deviation of the reference.", "quantifier": "all non-constant sources, all references", "why_tests_cant": "Universally quantified algebra.", "anchors": ["src/pytesmo/scaling.py:mean_std"]}
{"id": "C20", "title": "Linear-regression scaling preserves the reference mean", "statement": "linreg scaling produces a series whose mean is the mean of the reference (as a least-squares fit does).", "quantifier": "all non-constant sources and references of equal length", "why_tests_cant": "Depends on the sign of the slope; typical tests use positively correlated data.", "anchors": ["src/pytesmo/scaling.py:linreg", "src/pytesmo/scaling.py:linreg_params", "src/pytesmo/scaling.py:linreg_stored_params"]}
{"id": "C21", "title": "scale() rescales every other column and leaves the reference alone", "statement": "scale(df, method, reference_index) returns a frame with the same column names in the same order, the reference column unchanged at its position and every other column replaced by the scaled version against that reference.", "quantifier": "all column counts, all reference positions", "why_tests_cant": "Column bookkeeping for arbitrary positions.", "anchors": ["src/pytesmo/scaling.py:scale", "src/pytesmo/scaling.py:add_scaled"]}
{"id": "C22", "title": "CDF matching is monotone and keeps gaps", "statement": "A fitted CDF matching with increasing source percentiles and non-decreasing reference percentiles maps larger inputs to at least as large outputs (including the linear extrapolation outside the fitted range), maps the i-th source percentile to the i-th reference percentile, and returns missing exactly for non-finite inputs.", "quantifier": "all percentile tables, all inputs", "why_tests_cant": "Piecewise interpolation over arbitrary tables.", "anchors": ["src/pytesmo/cdf_matching.py:CDFMatching.predict"]}
{"id": "C23", "title": "cdf_match respects the requested value range", "statement": "cdf_match with min_val and max_val never returns a value outside [min_val, max_val] when min_val <= max_val and does not move values already inside.", "quantifier": "all sources, references, bounds", "why_tests_cant": "Clamping for all inputs.", "anchors": ["src/pytesmo/scaling.py:cdf_match"]}
{"id": "C24", "title": "CDF bins hold the required number of observations", "statement": "When bins are resized because too few observations are available, the number of bins is between 1 and the requested number, percentiles run from 0 to 100 with equal spacing, and each bin represents at least minobs observations whenever at least minobs observations exist.", "quantifier": "all sample sizes, all minobs, all requested bins", "why_tests_cant": "Integer arithmetic over all sizes.", "anchors": ["src/pytesmo/cdf_matching.py:CDFMatching._calc_percentiles"]}
{"id": "C25", "title": "Percentile values come from the data range and are ordered", "statement": "The percentile values computed for a sorted sample are non-decreasing in the percentile, lie between the sample minimum and maximum, equal the minimum at 0 and the maximum at 100.", "quantifier": "all sorted samples, all percentiles in [0,100]", "why_tests_cant": "All sample sizes and percentile lists.", "anchors": ["src/pytesmo/cdf_matching.py:_matlab_percentile_values_from_sorted"]}
{"id": "C26", "title": "array_dropna drops positions missing in any array", "statement": "array_dropna(*arrs) returns the arrays restricted to exactly those positions at which none of the given arrays is missing, in order.", "quantifier": "any number of arrays of equal length", "why_tests_cant": "The number of arrays is a parameter; a test with two arrays does not cover it.", "anchors": ["src/pytesmo/utils.py:array_dropna"]}
{"id": "C27", "title": "Result names enumerate every dataset combination once", "statement": "get_result_names(ds_dict, refkey, n) returns each way of choosing one column of the reference and columns of n-1 different other datasets exactly once, each sorted by dataset name, and nothing else.", "quantifier": "any number of datasets and columns, any n", "why_tests_cant": "Combinatorial completeness over arbitrary dictionaries.", "anchors": ["src/pytesmo/validation_framework/data_manager.py:get_result_names", "src/pytesmo/validation_framework/data_manager.py:flatten"]}
{"id": "C28", "title": "DataManager delivers the reference or nothing", "statement": "get_data returns an empty mapping if the reference has no data or no other dataset has data; otherwise it contains the reference and exactly those other datasets that could be read, each read once at the point selected by its spatial look-up (same point if grids match, upscaled set, look-up table entry, or nearest point within the maximal distance).", "quantifier": "all reader behaviours, all look-up tables, any number of datasets", "why_tests_cant": "Readers are arbitrary; all combinations of missing data.", "anchors": ["src/pytesmo/validation_framework/data_manager.py:DataManager.get_data", "src/pytesmo/validation_framework/data_manager.py:DataManager.get_other_data", "src/pytesmo/validation_framework/upscaling.py:MixinReadTs.read_ds"]}
{"id": "C29", "title": "Result combinations depend only on the configured set of datasets", "statement": "get_results_names/get_result_combinations is independent of the order in which combinations are generated: the list is sorted, duplicate free and contains a combination iff some reference choice generates it.", "quantifier": "all dataset dictionaries", "why_tests_cant": "Set reasoning over arbitrary dictionaries.", "anchors": ["src/pytesmo/validation_framework/data_manager.py:get_result_combinations"]}
{"id": "C30", "title": "Combinatory matcher covers all dataset combinations", "statement": "BasicTemporalMatching.combinatory_matcher returns exactly one frame per (n-1)-subset of the non-reference datasets that has at least one matched row, keyed by the reference followed by the sorted names; every frame holds columns of exactly these datasets.", "quantifier": "any number of datasets, any n", "why_tests_cant": "Combinatorial completeness.", "anchors": ["src/pytesmo/validation_framework/temporal_matchers.py:BasicTemporalMatching.combinatory_matcher"]}
{"id": "C31", "title": "Combined matcher returns only complete rows", "statement": "The matcher made by make_combined_temporal_matcher returns either nothing (wrong number of datasets) or one frame whose timestamps all belong to the reference and at which every column of every dataset has a value, found within the window of the reference time.", "quantifier": "all dataset dictionaries, all windows", "why_tests_cant": "All missing patterns.", "anchors": ["src/pytesmo/validation_framework/temporal_matchers.py:make_combined_temporal_matcher", "src/pytesmo/validation_framework/temporal_matchers.py:dfdict_combined_temporal_collocation"]}
{"id": "C32", "title": "Validation.calc yields one aligned entry per grid point", "statement": "With handle_errors='ignore', Validation.calc returns for every result key arrays with exactly one entry per input grid point, in input order, so that the k-th entry of every metric belongs to the k-th grid point.", "quantifier": "all grid point lists, all failure patterns of readers, matchers, scalers and calculators", "why_tests_cant": "Failure patterns are unbounded histories; misalignment only shows when some point takes an unusual path.", "anchors": ["src/pytesmo/validation_framework/validation.py:Validation.calc", "src/pytesmo/validation_framework/validation.py:Validation.perform_validation"]}
{"id": "C33", "title": "Failure codes identify the failing stage", "statement": "With handle_errors='ignore' a grid point whose data retrieval, temporal matching, scaling or metric calculation fails is reported with the status code of that stage (8/7, 3/4, 5, 2) and with otherwise empty metrics; with handle_errors='raise' the first failure aborts the run.", "quantifier": "all failure patterns", "why_tests_cant": "All combinations of failing stages.", "anchors": ["src/pytesmo/validation_framework/validation.py:Validation.calc", "src/pytesmo/validation_framework/error_handling.py"]}
{"id": "C34", "title": "Masking removes exactly the masked observations", "statement": "When masking datasets are configured, Validation removes from the reference exactly those observations for which a temporally matched masking value is True, and keeps those matched with False.", "quantifier": "all reference series, all masking series", "why_tests_cant": "The outcome depends on the mask values; a test whose masks are all True at matched times cannot tell.", "anchors": ["src/pytesmo/validation_framework/validation.py:Validation.mask_dataset"]}
{"id": "C35", "title": "Processing jobs cover the grid exactly once", "statement": "get_processing_jobs partitions the grid points of the spatial reference into jobs so that every (active) grid point occurs in exactly one job.", "quantifier": "all cell grids", "why_tests_cant": "All partitions of grids into cells.", "anchors": ["src/pytesmo/validation_framework/validation.py:Validation.get_processing_jobs"]}
{"id": "C36", "title": "Data handed to the metric calculator belongs to the requested combination", "statement": "get_data_for_result_tuple returns a frame holding exactly the requested columns of the requested datasets, taken from a matched set that contains all of them, without any missing value, or an empty result.", "quantifier": "all matched-data dictionaries, all result tuples", "why_tests_cant": "Which matched set is used depends on arbitrary dictionaries.", "anchors": ["src/pytesmo/validation_framework/validation.py:Validation.get_data_for_result_tuple", "src/pytesmo/validation_framework/validation.py:Validation.k_datasets_from"]}
{"id": "C37", "title": "Location results are appended and never overwritten", "statement": "For every sequence of add_metrics_results calls, location indices are 0,1,2,... without gaps, earlier longitudes, latitudes and metric values stay unchanged, and every value can be read back at the index returned by the call that stored it.", "quantifier": "all call histories, including calls that introduce new variables", "why_tests_cant": "A history property: depends on when a variable first appears.", "anchors": ["src/pytesmo/validation_framework/results_manager.py:PointDataResults.add_metrics_results", "src/pytesmo/validation_framework/results_manager.py:PointDataResults.read_loc"]}
{"id": "C38", "title": "Time series results round-trip", "statement": "For every sequence of add_result calls, read_ts(idx) returns the time stamps and the time series values stored for location idx.", "quantifier": "all call histories incl. locations without time series and variables introduced late", "why_tests_cant": "A history property over ragged arrays.", "anchors": ["src/pytesmo/validation_framework/results_manager.py:PointDataResults.add_ts_results", "src/pytesmo/validation_framework/results_manager.py:PointDataResults.read_ts", "src/pytesmo/validation_framework/results_manager.py:PointDataResults.add_result"]}
{"id": "C39", "title": "Result file names are short and distinguish dataset combinations", "statement": "build_filename returns a path of at most 255 characters and maps different dataset combinations in the same directory to different files.", "quantifier": "all roots and keys", "why_tests_cant": "Length arithmetic and injectivity over all strings.", "anchors": ["src/pytesmo/validation_framework/results_manager.py:build_filename"]}
{"id": "C40", "title": "Stored scaling parameters make scaling reproducible", "statement": "With CDFStoreParamsScaler the parameters used for a grid point are those computed at the first scaling of that point and never change afterwards; scaling the same data at the same point twice gives the same result, and points do not influence each other.", "quantifier": "all histories of scale calls over grid points", "why_tests_cant": "A history property.", "anchors": ["src/pytesmo/validation_framework/data_scalers.py:CDFStoreParamsScaler"]}
{"id": "C41", "title": "Masking adapters keep exactly the rows satisfying the conditions", "statement": "SelfMaskingAdapter keeps exactly the rows whose column satisfies the comparison; AdvancedMaskingAdapter keeps exactly the rows satisfying all filters (optionally treating a missing filter value as satisfied) and holding at least one value; row order and contents are unchanged.", "quantifier": "all frames incl. missing values, all filter lists, all operators", "why_tests_cant": "Any number of filters and rows.", "anchors": ["src/pytesmo/validation_framework/adapters.py:SelfMaskingAdapter", "src/pytesmo/validation_framework/adapters.py:AdvancedMaskingAdapter", "src/pytesmo/validation_framework/adapters.py:MaskingAdapter"]}
{"id": "C42", "title": "TimestampAdapter computes the exact observation time", "statement": "TimestampAdapter replaces the time of every observation having a base time by base time plus the sum of all offset fields in their units (missing offsets count as zero), keeps one row per such observation and drops the others.", "quantifier": "all frames, all offset fields and units, one unit per field", "why_tests_cant": "Sub-second units, repeated timestamps and field counts are all parameters.", "anchors": ["src/pytesmo/validation_framework/adapters.py:TimestampAdapter"]}
{"id": "C43", "title": "Upscaled series stay within the range of their stations", "statement": "Each value of the upscaled (averaged) series lies between the smallest and largest station value matched to that time stamp and is missing only if all stations are missing there; no station gives None, a single station is passed through.", "quantifier": "any number of stations, all series", "why_tests_cant": "Arbitrary station counts and gaps.", "anchors": ["src/pytesmo/validation_framework/upscaling.py:Upscaling.get_upscaled_ts", "src/pytesmo/validation_framework/upscaling.py:Upscaling.temporal_match", "src/pytesmo/validation_framework/upscaling.py:Upscaling.upscale"]}
{"id": "C44", "title": "Upscaling matches to the longest series", "statement": "Upscaling.temporal_match uses as time axis a series with the maximal number of observations among the stations (the first one in case of ties).", "quantifier": "any number of stations", "why_tests_cant": "Arg-max over arbitrary lists.", "anchors": ["src/pytesmo/validation_framework/upscaling.py:Upscaling.temporal_match"]}
{"id": "C45", "title": "One-pass moments equal the textbook moments", "statement": "The one-pass (Welford) moments used by the metric calculators equal mean, population variance and population covariance of the inputs (in exact arithmetic).", "quantifier": "all non-empty arrays of any length", "why_tests_cant": "Induction over the length; tests compare a few arrays.", "anchors": ["src/pytesmo/metrics/_fast_pairwise.pyx:_moments_welford"]}
{"id": "C46", "title": "MSE decomposition adds up", "statement": "mse_corr, mse_var and mse_bias are non-negative and add up to the mean square difference of the two series.", "quantifier": "all non-empty arrays", "why_tests_cant": "Requires the Cauchy-Schwarz inequality for arbitrary lengths.", "anchors": ["src/pytesmo/metrics/_fast_pairwise.pyx:mse_decomposition", "src/pytesmo/metrics/_fast_pairwise.pyx:mse_corr", "src/pytesmo/metrics/_fast_pairwise.pyx:mse_var", "src/pytesmo/metrics/_fast_pairwise.pyx:mse_bias", "src/pytesmo/metrics/pairwise.py:msd"]}
{"id": "C47", "title": "Pearson correlation from moments is bounded and invariant", "statement": "The correlation computed from moments is in [-1,1], the clamping is never active in exact arithmetic, it is symmetric in its arguments, invariant under positive linear rescaling of either series, changes sign under negative rescaling, and is undefined exactly when a series is constant.", "quantifier": "all arrays, all rescalings", "why_tests_cant": "Algebraic laws for all inputs.", "anchors": ["src/pytesmo/metrics/_fast_pairwise.pyx:_pearsonr_from_moments", "src/pytesmo/metrics/_fast_pairwise.pyx:_moments_welford"]}
{"id": "C48", "title": "RMSD, ubRMSD and bias are consistent", "statement": "rmsd^2 = ubrmsd^2 + bias^2; rmsd is symmetric, non-negative and zero iff the series are equal; bias(x,y) = -bias(y,x); ubrmsd is unchanged by adding constants; aad <= rmsd.", "quantifier": "all non-empty arrays of equal length", "why_tests_cant": "Algebraic laws for all inputs.", "anchors": ["src/pytesmo/metrics/pairwise.py:rmsd", "src/pytesmo/metrics/pairwise.py:ubrmsd", "src/pytesmo/metrics/_fast_pairwise.pyx:bias", "src/pytesmo/metrics/_fast_pairwise.pyx:_ubrmsd", "src/pytesmo/metrics/pairwise.py:aad"]}
{"id": "C49", "title": "Efficiency scores have their documented ranges", "statement": "Nash-Sutcliffe efficiency is at most 1 and equals 1 iff prediction and observation agree; the index of agreement lies in [0,1].", "quantifier": "all arrays with a non-constant observation", "why_tests_cant": "Inequalities for all inputs.", "anchors": ["src/pytesmo/metrics/pairwise.py:nash_sutcliffe", "src/pytesmo/metrics/pairwise.py:index_of_agreement"]}
{"id": "C50", "title": "Rolling metrics equal the metrics of each window", "statement": "rolling_pr_rmsd returns at each time stamp the RMSD and the Pearson correlation of exactly the samples in the (centred or trailing) window at that time stamp, missing if there are fewer than min_periods samples, for chronologically sorted time stamps.", "quantifier": "all sorted time axes, all values, all window sizes > 0", "why_tests_cant": "Values are updated incrementally by adding and removing samples; errors accumulate over arbitrary histories.", "anchors": ["src/pytesmo/metrics/_fast_pairwise.pyx:rolling_pr_rmsd"]}
{"id": "C51", "title": "Triple collocation recovers signal and error under its error model", "statement": "If three series have covariances generated by a common signal with independent errors (cov(i,j)=b_i b_j s for i<>j, var(i)=b_i^2 s+e_i), tcol_metrics returns beta_i=b_ref/b_i, error variance (scaled) e_i beta_i^2 and an SNR equal to the true ratio b_i^2 s/e_i in dB, for every choice of the reference dataset.", "quantifier": "all positive signal variances, nonzero gains, positive error variances, all reference choices", "why_tests_cant": "Algebra over all parameters.", "anchors": ["src/pytesmo/metrics/tcol.py:tcol_metrics", "src/pytesmo/metrics/tcol.py:_tcol_metrics_from_cov"]}
{"id": "C52", "title": "Data-frame triple collocation uses the requested reference column", "statement": "df_metrics.tcol_metrics(df, ref_ind) evaluates every triple of columns containing column ref_ind with that column as scaling reference (its beta is 1), for any position of the reference column.", "quantifier": "all column counts, all reference positions", "why_tests_cant": "Fails only for particular positions; tests use ref_ind=0.", "anchors": ["src/pytesmo/df_metrics.py:tcol_metrics", "src/pytesmo/df_metrics.py:nwise_apply"]}
{"id": "C53", "title": "nwise_apply evaluates every column combination on its complete cases", "statement": "nwise_apply(df, method, n) calls the method for every n-combination (or n-permutation if not commutative) of columns that satisfies must_include, once each, with exactly the rows at which all n columns are finite, and reports missing for combinations without such rows.", "quantifier": "all frames, all n, all must_include lists", "why_tests_cant": "n and the missing pattern are parameters; tests with complete data or n=2 do not see the failure.", "anchors": ["src/pytesmo/df_metrics.py:nwise_apply", "src/pytesmo/df_metrics.py:n_combinations"]}
{"id": "C54", "title": "Pairwise result matrix is symmetric for commutative metrics", "statement": "nwise_apply(..., n=2, comm=True, as_df=True) returns a matrix whose (i,j) and (j,i) entries are both the metric of columns i and j.", "quantifier": "any number of columns", "why_tests_cant": "Fails from four columns on.", "anchors": ["src/pytesmo/df_metrics.py:_to_df"]}
{"id": "C55", "title": "Bootstrap confidence intervals are ordered and resample pairs", "statement": "with_bootstrapped_ci raises for fewer than the minimal number of samples; otherwise percentile and basic intervals satisfy lower <= upper for 0<=alpha<=1, the percentile bounds lie within the range of the bootstrapped metric values, and every bootstrap sample consists of index-aligned pairs of the input of the original length.", "quantifier": "all inputs, all metrics, all random draws, all alpha in [0,1]", "why_tests_cant": "Quantifies over all random draws.", "anchors": ["src/pytesmo/metrics/confidence_intervals.py:with_bootstrapped_ci", "src/pytesmo/metrics/confidence_intervals.py:_percentile_bs_ci", "src/pytesmo/metrics/confidence_intervals.py:_basic_bs_ci"]}
{"id": "C56", "title": "Analytical confidence intervals contain the estimate", "statement": "bias_ci, pearson_r_ci, spearman_r_ci and kendall_tau_ci return intervals that contain the estimate and shrink towards it with growing sample size at fixed dispersion; the correlation intervals stay inside [-1,1].", "quantifier": "all estimates, sample sizes, quantiles >= 0", "why_tests_cant": "Inequalities for all inputs.", "anchors": ["src/pytesmo/metrics/pairwise.py:bias_ci", "src/pytesmo/metrics/pairwise.py:pearson_r_ci", "src/pytesmo/metrics/pairwise.py:spearman_r_ci", "src/pytesmo/metrics/pairwise.py:kendall_tau_ci"]}
{"id": "C57", "title": "Recursive Pearson correlation is independent of chunking", "statement": "Feeding a series to pearsonr_recursive in any number of consecutive chunks gives the same correlation and parameters as feeding it at once.", "quantifier": "all series, all ways of cutting them into chunks", "why_tests_cant": "All chunkings of arbitrary length.", "anchors": ["src/pytesmo/metrics/deprecated.py:pearsonr_recursive"]}
{"id": "C58", "title": "Metric calculators report insufficient data instead of numbers", "statement": "Every metric calculator returns the grid point id, longitude and latitude it was given; with fewer than min_obs complete observations it returns status 1 and leaves all metrics at their missing defaults, otherwise it reports n_obs equal to the number of observations used and status 0.", "quantifier": "all data frames, all min_obs", "why_tests_cant": "All sizes and missing patterns.", "anchors": ["src/pytesmo/validation_framework/metric_calculators.py:PairwiseIntercomparisonMetrics", "src/pytesmo/validation_framework/metric_calculators.py:BasicMetrics", "src/pytesmo/validation_framework/metric_calculators.py:TripleCollocationMetrics", "src/pytesmo/validation_framework/metric_calculators.py:MetadataMetrics"]}
{"id": "C59", "title": "Seasonal H-SAF metrics use the data of their season", "statement": "HSAF_Metrics reports for each season metrics computed from the observations of that season only.", "quantifier": "all series spanning several seasons", "why_tests_cant": "Requires data whose seasons behave differently.", "anchors": ["src/pytesmo/validation_framework/metric_calculators.py:HSAF_Metrics.calc_metrics"]}
{"id": "C60", "title": "Subset adapters keep results of different subsets apart", "statement": "SubsetsMetricsAdapter returns for each subset the metrics of the adapted calculator on exactly the rows of that subset under a key that identifies subset and metric; no result of one subset overwrites that of another.", "quantifier": "all subset dictionaries, all metric names", "why_tests_cant": "Injectivity of key construction over all names.", "anchors": ["src/pytesmo/validation_framework/metric_calculators_adapters.py:SubsetsMetricsAdapter"]}
{"id": "C61", "title": "Freeze/thaw counts add up to the number of observations", "statement": "The four freeze/thaw class counts of FTMetrics partition the observations: they sum up to n_obs and each observation is counted in exactly one class.", "quantifier": "all data without missing temperature", "why_tests_cant": "Counting identity for all inputs.", "anchors": ["src/pytesmo/validation_framework/metric_calculators.py:FTMetrics.calc_metrics"]}
{"id": "C62", "title": "Multi-dataset one-pass covariance equals the textbook covariance", "statement": "_moments_welford_nd returns the means and the population covariance matrix (including the variances on its diagonal) of the columns.", "quantifier": "all data matrices", "why_tests_cant": "Induction over rows and columns.", "anchors": ["src/pytesmo/metrics/_fast.pyx:_moments_welford_nd"]}
{"id": "C63", "title": "n_combinations enumerates exactly the admissible combinations", "statement": "n_combinations(items, n, must_include) returns every n-element combination (permutation) of the items containing all required elements exactly once and nothing else.", "quantifier": "all item lists without repetition, all n, all required lists", "why_tests_cant": "Combinatorial completeness.", "anchors": ["src/pytesmo/df_metrics.py:n_combinations"]}
{"id": "C64", "title": "Extended collocation with independent errors reduces to triple collocation", "statement": "ecol for three datasets without correlated errors gives the classical triple collocation signal and error variances, signal plus error variance equals the total variance of each dataset, and for more datasets the signal variance is the average of all triplet estimates.", "quantifier": "all covariance matrices with nonzero off-diagonal entries", "why_tests_cant": "Least-squares solution for arbitrary matrices.", "anchors": ["src/pytesmo/metrics/tcol.py:ecol"]}
{"id": "C65", "title": "BCa bootstrap interval has the requested confidence level", "statement": "The BCa interval with no bias correction and no acceleration coincides with the percentile interval at the same alpha, as for the other methods.", "quantifier": "all bootstrap samples", "why_tests_cant": "Statistical level is not observable in a unit test.", "anchors": ["src/pytesmo/metrics/confidence_intervals.py:_BCa_bs_ci", "src/pytesmo/metrics/confidence_intervals.py:tcol_metrics_with_bootstrapped_ci"]}
{"id": "C66", "title": "A nearest-neighbour match skips missing values", "statement": "As documented ('search nearest valid neighbour'), nearest collocation gives a missing value at a reference time only if no valid observation lies within the window.", "quantifier": "all references, all series incl. NaN, all windows", "why_tests_cant": "A NaN exactly at the nearest time stamp is one of infinitely many value patterns.", "anchors": ["src/pytesmo/temporal_matching.py:temporal_collocation"]}
{"id": "C67", "title": "index_other and distance_other describe the matched observation", "statement": "With return_index/return_distance the reported time and signed distance belong to the observation whose values are in the row, for every option combination.", "quantifier": "all references, all series, all windows, all flag settings", "why_tests_cant": "Depends on which cells are filled from which observation.", "anchors": ["src/pytesmo/temporal_matching.py:temporal_collocation"]}
{"id": "C68", "title": "Missing files mean no data, other reading errors are raised", "statement": "Reading a dataset gives no data if the reader raises IOError or RuntimeError(\"No such file or directory\"), returns nothing, or returns something that is not a DataFrame; any other exception is raised. Data that are returned are exactly the rows read that lie in the validation period, ends included, and are never empty.", "quantifier": "all reader outcomes and periods", "why_tests_cant": "The reader outcomes are unbounded and the interplay of empty frames, wrong types and the period is only sampled by tests.", "anchors": ["src/pytesmo/validation_framework/upscaling.py:MixinReadTs.read_ds"]}
{"id": "C69", "title": "Every result key gets its own file with exactly its locations", "statement": "netcdf_results_manager writes, for every dataset combination in the results, one file that holds exactly the locations and metric values of that combination; the results passed in can be written again.", "quantifier": "all result dictionaries and target directories", "why_tests_cant": "Depends on file name collisions and on the state left behind by earlier keys and calls.", "anchors": ["src/pytesmo/validation_framework/results_manager.py:netcdf_results_manager", "src/pytesmo/validation_framework/results_manager.py:build_filename"]}
{"id": "C70", "title": "Adapters that compute columns touch only their columns", "statement": "AnomalyAdapter and AnomalyClimAdapter replace exactly the selected columns, each by the anomaly of its own series, ColumnCombineAdapter adds exactly one column computed row by row; index and all other columns are unchanged.", "quantifier": "all frames, column selections and column names", "why_tests_cant": "Holds for any number of columns and any names, including names that coincide with generated ones.", "anchors": ["src/pytesmo/validation_framework/adapters.py:AnomalyAdapter", "src/pytesmo/validation_framework/adapters.py:AnomalyClimAdapter", "src/pytesmo/validation_framework/adapters.py:ColumnCombineAdapter"]}
{"id": "C71", "title": "PairwiseIntercomparisonMetrics agrees with the pairwise metric functions", "statement": "For at least min_obs complete observations PairwiseIntercomparisonMetrics stores under BIAS, mse, mse_corr, mse_bias, mse_var, RMSD, RSS, urmsd, R and p_R exactly the values the functions bias, msd, mse_corr, mse_bias, mse_var, rmsd, RSS, ubrmsd and pearson_r return for the rows without missing values.", "quantifier": "all data frames, all option settings", "why_tests_cant": "The calculator derives the values from shared moments, not by calling the functions; the agreement has to hold for all series.", "anchors": ["src/pytesmo/validation_framework/metric_calculators.py:PairwiseMetricsMixin", "src/pytesmo/validation_framework/metric_calculators.py:PairwiseIntercomparisonMetrics", "src/pytesmo/metrics/pairwise.py"]}
{"id": "C72", "title": "Day of year and calendar arithmetic follow the Gregorian calendar", "statement": "The day-of-year used by climatologies and anomalies follows the Gregorian calendar: leap years are the years divisible by 4 but not by 100 unless by 400, day of year runs from 1 to 365/366 in the order of the dates, and two dates get the same day-without-year exactly if month and day agree.", "quantifier": "all years and all valid dates", "why_tests_cant": "Tests look at a few dates; the calendar has a 400-year cycle.", "anchors": ["src/pytesmo/time_series/anomaly.py:calc_climatology", "src/pytesmo/time_series/grouping.py:YearlessDatetime", "src/pytesmo/timedate/julian.py:doy"]}
{"id": "C73", "title": "Metric calculators receive exactly the datasets of their combination", "statement": "For every combination of datasets the metric calculators are called with a frame that has one column per dataset of the combination in their order (ref, k1, k2, ...), holding the matched values of that dataset's column, scaled to the scaling reference when scaling is requested.", "quantifier": "all datasets, columns, combinations and scaling references", "why_tests_cant": "Depends on the interplay of matching, column renaming and scaling for arbitrary names and numbers of columns.", "anchors": ["src/pytesmo/validation_framework/validation.py:Validation.perform_validation", "src/pytesmo/validation_framework/validation.py:Validation.k_datasets_from"]}
{"id": "C74", "title": "Smoothing complete data gives the penalised least squares fit", "statement": "For data without gaps and equal weights, smoothn returns the unique array that minimises the squared distance to the data plus s times the roughness (squared slopes for order 1, squared curvature for order 2), with s positive and equal to the given parameter. The sum of the data is kept, the result is linear in the data for a given s, and it does not leave the range of the data.", "quantifier": "all shapes with one to three dimensions, data, smoothing parameters, orders, tolerances, iteration limits and parameter searches", "why_tests_cant": "The optimum over all arrays and the equivalence of the cosine transform with a difference penalty hold for every shape and size; examples cannot show minimality.", "anchors": ["src/pytesmo/interpolate/dctpls.py:smoothn", "src/pytesmo/interpolate/dctpls.py:dctNd", "src/pytesmo/interpolate/dctpls.py:gcv"]}
{"id": "C75", "title": "Iterations for weighted or missing data converge to the best fit", "statement": "With weights or gaps and a given smoothing parameter, more iterations never increase the penalised distance, a guess is left unchanged exactly if it is a best fit, repeated iterations approach the unique best fit at a geometric rate from every initial guess, and a call that stops by the tolerance is near the best fit.", "quantifier": "all shapes, data, gaps, non-negative weights with one positive, initial guesses and iteration limits", "why_tests_cant": "A statement about the limit of an unbounded iteration from arbitrary starting points.", "anchors": ["src/pytesmo/interpolate/dctpls.py:smoothn"]}
{"id": "C76", "title": "Gaps have no influence and every gap is filled", "statement": "Values stored at gaps or excluded positions do not influence anything that is returned; every position that is not excluded gets a number, excluded positions get the gap value; data that are constant where present give this constant everywhere.", "quantifier": "all shapes, data, gap values, exclusion masks, weights and modes", "why_tests_cant": "Gap patterns are exponentially many; the robust mode runs nested loops over them.", "anchors": ["src/pytesmo/interpolate/dctpls.py:smoothn", "src/pytesmo/interpolate/dctpls.py:calc_init_guess"]}
{"id": "C77", "title": "Robust weights rate positions by their residual", "statement": "Robust weights lie in [0, 1], do not grow with the absolute residual, and positions whose residual is zero keep full weight; without mask all residuals are used.", "quantifier": "all arrays of residuals, masks, leverages and methods", "why_tests_cant": "Ordering and degenerate spreads for arbitrary residuals.", "anchors": ["src/pytesmo/interpolate/dctpls.py:RobustWeights"]}
{"id": "C78", "title": "Smoothing reports its outcome and honours its arguments", "statement": "The exit flag tells whether the iteration converged or there were too few data, the input array is not modified, the requested statistics are returned, axis restricts smoothing to the given axes, and negative weights are rejected.", "quantifier": "all arguments and data", "why_tests_cant": "The flag depends on loop counters of every possible run.", "anchors": ["src/pytesmo/interpolate/dctpls.py:smoothn"]}
{"id": "C79", "title": "Smoothing does not depend on the unit of the data", "statement": "Data and initial guess multiplied by a positive factor give the result multiplied by this factor, with the same flag, smoothing parameter and final weights.", "quantifier": "all shapes, data with gaps, weights, modes and positive factors", "why_tests_cant": "Relates two complete runs including their stopping decisions, for every input.", "anchors": ["src/pytesmo/interpolate/dctpls.py:smoothn", "src/pytesmo/interpolate/dctpls.py:RobustWeights"]}
{"id": "C80", "title": "Parallel validation stores every job's result once, in job order", "statement": "start_validation stores the results of the jobs in job order, each exactly once, whatever the order in which the engines finish and however attempts fail; what is on disk at any moment, also when the run is killed, is what storing the first jobs one after the other gives. Two normally ended runs leave the same files. A job may fail twice; every run ends, and none blocks. Results that have been computed are not lost, and a run that was killed can be started again.", "quantifier": "all job lists, results, storing functions, schedules of the engines, failures and kill points", "why_tests_cant": "Schedules and kill points are unbounded and cannot be forced in a test.", "anchors": ["src/pytesmo/validation_framework/start_validation.py:start_validation", "src/pytesmo/validation_framework/results_manager.py:netcdf_results_manager"]}
{"id": "C81", "title": "A crash while results are stored damages nothing stored before", "statement": "If the process dies between any two assignments of PointDataResults.add_metrics_results, every location and time series stored before reads back unchanged, and calls made on the file afterwards read back as well; no half-written location is visible.", "quantifier": "all files, histories of complete and killed calls, crash points, locations and variables", "why_tests_cant": "Crash points inside a call and histories with several crashes cannot be enumerated by tests.", "anchors": ["src/pytesmo/validation_framework/results_manager.py:PointDataResults.add_metrics_results", "src/pytesmo/validation_framework/results_manager.py:PointDataResults.read_loc", "src/pytesmo/validation_framework/results_manager.py:PointDataResults.read_ts"]}
{"id": "C82", "title": "Correlations computed in floating point are NaN or lie in [-1, 1]", "statement": "For every input, also with NaN, infinite, huge or tiny values, pearson_r and rolling_pr_rmsd return a correlation that is NaN or a number from -1 to 1 in IEEE 754 arithmetic; series with a missing value have no correlation (NaN), and uncorrelated series do not have a correlation of -1 or 1.", "quantifier": "all IEEE 754 formats, all series of floating point numbers incl. NaN and infinities, all windows", "why_tests_cant": "Rounding, underflow, overflow and NaN comparisons depend on the exact bit patterns of the data; tests sample a few.", "anchors": ["src/pytesmo/metrics/_fast_pairwise.pyx:_pearsonr_from_moments", "src/pytesmo/metrics/_fast_pairwise.pyx:_moments_welford", "src/pytesmo/metrics/_fast_pairwise.pyx:rolling_pr_rmsd"]}
{"id": "C83", "title": "Exchanging the series, and comparing a series with itself, in floating point", "statement": "In IEEE 754 arithmetic exchanging the two series changes the sign of the bias and leaves RSS, MSD, RMSD, ubRMSD, the MSE components and the correlation the same to the last bit; a finite series compared with itself has bias, RSS, MSD and RMSD exactly 0 and correlation exactly 1.", "quantifier": "all IEEE 754 formats and all series", "why_tests_cant": "Bit-for-bit statements about every floating point input cannot be sampled.", "anchors": ["src/pytesmo/metrics/_fast_pairwise.pyx:bias", "src/pytesmo/metrics/_fast_pairwise.pyx:RSS", "src/pytesmo/metrics/_fast_pairwise.pyx:_ubrmsd", "src/pytesmo/metrics/_fast_pairwise.pyx:mse_decomposition", "src/pytesmo/metrics/_fast_pairwise.pyx:_pearsonr_from_moments", "src/pytesmo/metrics/pairwise.py:msd", "src/pytesmo/metrics/pairwise.py:rmsd"]}
{"id": "C84", "title": "Quantities that cannot be negative are not negative in floating point", "statement": "In IEEE 754 arithmetic RSS, MSD, RMSD, ubRMSD, variances and MSE components are never negative and means lie between the smallest and the largest value; also in moving windows: a window with a constant series has no correlation, a window with equal series has RMSD 0.", "quantifier": "all IEEE 754 formats, all series and windows", "why_tests_cant": "Cancellation errors appear for particular bit patterns and histories of windows only.", "anchors": ["src/pytesmo/metrics/_fast_pairwise.pyx:_moments_welford", "src/pytesmo/metrics/_fast_pairwise.pyx:RSS", "src/pytesmo/metrics/_fast_pairwise.pyx:_ubrmsd", "src/pytesmo/metrics/_fast_pairwise.pyx:rolling_pr_rmsd", "src/pytesmo/time_series/filters.pyx:boxcar_filter"]}
{"id": "C85", "title": "Rounding errors of bias, RSS, MSD and means are bounded", "statement": "The computed bias, RSS, MSD or mean of n values differs from the exact value for the same data by a relative error of a small multiple of n times the unit roundoff (relative to the mean absolute value), as long as the result is finite.", "quantifier": "all IEEE 754 formats, all series with at most 2^prec values", "why_tests_cant": "An error bound for all data and lengths is a statement about unboundedly many inputs.", "anchors": ["src/pytesmo/metrics/_fast_pairwise.pyx:bias", "src/pytesmo/metrics/_fast_pairwise.pyx:RSS", "src/pytesmo/metrics/pairwise.py:msd", "src/pytesmo/time_series/filters.pyx:boxcar_filter"]}
{"id": "C86", "title": "min_max in floating point keeps order and range", "statement": "In IEEE 754 arithmetic min_max keeps the order of the values and maps them into the range of the reference, its ends included.", "quantifier": "all IEEE 754 formats, all finite non-constant series with finite results", "why_tests_cant": "Whether the largest value overshoots by one unit in the last place depends on the bit patterns.", "anchors": ["src/pytesmo/scaling.py:min_max"]}
{"id": "C87", "title": "Making values unique ends and keeps what was unique", "statement": "interp_uniq returns for every array: an array of the same length whose values are pairwise distinct; for sorted input the result is strictly increasing, the first and last values and all values that were unique already are unchanged.", "quantifier": "all arrays of any length and element type, any number of sweeps of the loop", "why_tests_cant": "Termination of a while loop for every input cannot be observed by running it.", "anchors": ["src/pytesmo/utils.py:interp_uniq"]}
{"id": "C88", "title": "The smoothing parameter minimises cross validation within its bounds", "statement": "Without a smoothing parameter smoothn uses the parameter that a bounded search finds for the generalised cross validation score of the data, between the parameters for which a value has an average influence of 0.99 and of 1e-6 on the fit; a given parameter is used as it is; the reported score is the documented score of the fit, (wRSS / (n - n_miss)) / (1 - Tr(H) / n)^2.", "quantifier": "all shapes of one to three dimensions, data, gaps, weights, orders, search functions, numbers of iterations", "why_tests_cant": "The trace of the smoother and the score are defined by minimisers over all arrays, and the bounds by an inverse function.", "anchors": ["src/pytesmo/interpolate/dctpls.py:gcv", "src/pytesmo/interpolate/dctpls.py:smoothn"]}
{"id": "C89", "title": "The observations behind each entry of a validation run", "statement": "A validation run without scaling and masking returns, for every combination of columns and every grid point, the metrics that the calculator gives for exactly these rows, in chronological order and each time once: the observation times of the temporal reference at which all columns of the combination have a value, each non-reference value being that of the nearest observation within the window. With the default matcher datasets outside of the combination have no influence; with the combined matcher times are left out at which any configured column lacks a value. Where there are no such rows, or the calculator fails, the entry is that of missing data with the code for the reason.", "quantifier": "all configurations over any number of datasets and columns, data with gaps, repeated times and missing values, windows, group sizes, calculators, lists of grid points", "why_tests_cant": "The chain of reading, matching, selecting, dropping and calculating must agree for every data set and combination; tests look at single links with fixed data.", "anchors": ["src/pytesmo/validation_framework/validation.py:Validation.calc", "src/pytesmo/validation_framework/validation.py:Validation.perform_validation", "src/pytesmo/validation_framework/temporal_matchers.py:make_combined_temporal_matcher", "src/pytesmo/validation_framework/temporal_matchers.py:BasicTemporalMatching.combinatory_matcher", "src/pytesmo/validation_framework/data_manager.py:get_result_combinations"]}
{"id": "C90", "title": "Entries of a run depend on their own location only", "statement": "The value a validation run returns for a grid point, a combination and a field depends on the data of this grid point only, not on the other points of the call, their data or their failures: splitting a list of points into several calls and joining the arrays, or changing the order of the points, gives the same values for every point.", "quantifier": "all configurations, lists of grid points, failure patterns, ways of splitting and ordering", "why_tests_cant": "Independence relates all pairs of runs; a test compares a few.", "anchors": ["src/pytesmo/validation_framework/validation.py:Validation.calc", "src/pytesmo/validation_framework/start_validation.py:func"]}
{"id": "C91", "title": "Metrics depend neither on the order of the observations nor on the unit", "statement": "Reordering the observations (of all series alike) leaves every pairwise metric and every triple collocation result as it is. Expressing the data in another unit (a factor and another zero point) multiplies differences by the factor and squared differences by its square, and leaves the normalised measures (correlation, NRMSD, index of agreement, Nash-Sutcliffe) as they are.", "quantifier": "all finite samples, orders, and positive factors and zero points of a unit", "why_tests_cant": "It relates infinitely many pairs of samples; a test compares a few.", "anchors": ["src/pytesmo/metrics/pairwise.py", "src/pytesmo/metrics/_fast_pairwise.pyx", "src/pytesmo/metrics/tcol.py:tcol_metrics", "src/pytesmo/metrics/deprecated.py"]}
{"id": "C92", "title": "Scaling does not depend on the unit of the source and answers in the unit of the reference", "statement": "Expressing the source in another unit does not change the scaled values; expressing the reference in another unit expresses the scaled values in that unit. This holds for CDF matching with all its options, for min_max and for mean_std; the same exceptions are raised and the same values are missing.", "quantifier": "all samples with missing values, all options of the CDF matching, and positive factors and zero points of both units", "why_tests_cant": "It relates infinitely many pairs of inputs, including ties, few observations and resampled edges.", "anchors": ["src/pytesmo/scaling.py:cdf_match", "src/pytesmo/scaling.py:min_max", "src/pytesmo/scaling.py:mean_std", "src/pytesmo/scaling.py:linreg", "src/pytesmo/cdf_matching.py:CDFMatching"]}
{"id": "C93", "title": "Moving averages, climatologies and anomalies follow the unit of the data and of the time axis", "statement": "Expressing a series in another unit (factor and zero point) expresses its moving averages, exponential filter and climatology in that unit, and multiplies its anomalies by the factor (the zero point drops out). Another epoch or unit of the times changes nothing if the window is expressed in the same unit.", "quantifier": "all series with missing values, windows, options and units", "why_tests_cant": "It relates infinitely many pairs of series; a test compares a few.", "anchors": ["src/pytesmo/time_series/filters.pyx:boxcar_filter", "src/pytesmo/time_series/filters.pyx:exp_filter", "src/pytesmo/time_series/filtering.py:moving_average", "src/pytesmo/time_series/anomaly.py:calc_climatology", "src/pytesmo/time_series/anomaly.py:calc_anomaly"]}
{"id": "C94", "title": "Temporal matching depends on differences of times only", "statement": "Moving all times by the same amount, or expressing times and windows in another unit, gives the same matches with times moved accordingly: for the collocation with nearest and mean, for the combined collocation and both matchers of the validation framework, and for metrics over moving windows.", "quantifier": "all time axes (also unordered, with duplicates, empty), frames, windows, options, epochs and positive factors", "why_tests_cant": "It relates infinitely many pairs of inputs, including ties at window edges.", "anchors": ["src/pytesmo/temporal_matching.py:temporal_collocation", "src/pytesmo/temporal_matching.py:combined_temporal_collocation", "src/pytesmo/validation_framework/temporal_matchers.py", "src/pytesmo/metrics/_fast_pairwise.pyx:rolling_pr_rmsd"]}
{"id": "C95", "title": "A validation run with masking and scaling compares the scaled, unmasked observations", "statement": "With masking and scaling configured, the metrics of every combination at a grid point are those of the calculator applied to the rows of that combination after scaling: the rows are the times at which all columns of the combination and the scaling reference have an observation within the window and no masking value is set; the column added for scaling is removed again. If the scaling of a combination fails, the status says so.", "quantifier": "all configurations, data, masks, scaling methods that keep the shape, matchers of the framework, calculators and lists of grid points", "why_tests_cant": "It composes reading, masking, matching, selection, scaling, calculating and collecting for arbitrary configurations.", "anchors": ["src/pytesmo/validation_framework/validation.py:Validation.calc", "src/pytesmo/validation_framework/validation.py:Validation.perform_validation", "src/pytesmo/validation_framework/validation.py:Validation.mask_dataset", "src/pytesmo/validation_framework/validation.py:Validation.temporal_match_datasets"]}
{"id": "C96", "title": "Time zones in temporal collocation", "statement": "Series with time zones are compared at their instants and the result has the zone of the reference; a series without zone is read in the zone of its partner, and a wall-clock time that does not exist there raises. Combining several series gives the combination at those instants, and the caller's reference is left unchanged.", "quantifier": "all zones (any pair of conversions between instants and wall-clock times), frames, windows, methods, flags and options", "why_tests_cant": "The outcome depends on every combination of zones, clock changes and missing zones of the inputs.", "anchors": ["src/pytesmo/temporal_matching.py:temporal_collocation", "src/pytesmo/temporal_matching.py:combined_temporal_collocation"]}
{"id": "C97", "title": "Climatologies of a time span, their range, and anomalies from them", "statement": "A climatology restricted to a time span depends exactly on the observations made in it; every climatology value lies between the smallest and largest observation; without smoothing, the anomalies of a series from its own climatology add up to zero on every calendar day; with return_clim every row holds the climatology and its standard deviation of that day and anomaly plus climatology is the observation.", "quantifier": "all series (any length, gaps, order), spans with or without bounds, options, means and medians", "why_tests_cant": "They are sums and bounds over all observations and all days of the year for arbitrary series and options.", "anchors": ["src/pytesmo/time_series/anomaly.py:calc_climatology", "src/pytesmo/time_series/anomaly.py:calc_anomaly"]}
{"id": "C98", "title": "Reading through adapters is repeatable and leaves the reader's data alone", "statement": "Reading through any stack of adapters returns what the adapters make of the reader's data; reading again, through the same or other adapters on the same reader and in any order, returns the same as a single read would, frames returned earlier keep their content and the reader's own data do not change.", "quantifier": "all frames, stacks of adapters, sequences of reads, readers that return a new frame or the same frame each time", "why_tests_cant": "It is a property of all histories of reads with shared, mutable frames.", "anchors": ["src/pytesmo/validation_framework/adapters.py:BasicAdapter", "src/pytesmo/validation_framework/adapters.py:AnomalyAdapter", "src/pytesmo/validation_framework/adapters.py:AnomalyClimAdapter", "src/pytesmo/validation_framework/adapters.py:ColumnCombineAdapter", "src/pytesmo/time_series/grouping.py:TsDistributor.select"]}
{"id": "C99", "title": "Metrics of a data frame, by pairs and triples of columns", "statement": "Applied to a data frame, a metric returns exactly one value per pair of columns, under the name first_and_second, computed from the rows in which both columns have a value; with the columns in another order the same values come back; the same holds for triple collocation and its reference column.", "quantifier": "all data frames (any number of columns and rows, gaps anywhere), all metrics, all orders of the columns, all references", "why_tests_cant": "The values must not depend on how a frame happens to be ordered, for every frame and metric.", "anchors": ["src/pytesmo/df_metrics.py:_wrap_metric", "src/pytesmo/df_metrics.py:_dict_to_namedtuple", "src/pytesmo/df_metrics.py:tcol_snr", "src/pytesmo/df_metrics.py:tcol_metrics", "src/pytesmo/df_metrics.py:nwise_apply"]}
{"id": "C100", "title": "What the typed result arrays keep", "statement": "The result arrays (32-bit ids, double precision coordinates, single precision metrics, text of fixed width) hold the location, the metadata and the metrics they were given: ids and metadata exactly, metrics without changing missing values, order or range; joining the results of many locations changes nothing more.", "quantifier": "all locations, ids, metadata, metric values (any double, including NaN and infinities), all numbers of locations in one call", "why_tests_cant": "Silent conversions show only for particular values: large ids, long names, values between two single precision numbers, locations with different amounts of data.", "anchors": ["src/pytesmo/validation_framework/metric_calculators.py:MetadataMetrics", "src/pytesmo/validation_framework/metric_calculators.py:RollingMetrics", "src/pytesmo/validation_framework/metric_calculators.py:_get_metric_template", "src/pytesmo/validation_framework/validation.py:Validation.calc"]}
{"id": "C101", "title": "Which locations a validation works on", "statement": "Called with single values, a validation works on exactly that location; called with sequences of equal length, on one location per position, each with the id, coordinates and metadata of that position; called with each processing job of a grid, on every grid point exactly once, with its own coordinates.", "quantifier": "all arguments (single values, sequences, dictionaries, labelled series), all numbers of locations and of extra arguments, all grids", "why_tests_cant": "Arguments of every kind and length must be paired correctly; a lost or shifted location raises no error.", "anchors": ["src/pytesmo/utils.py:ensure_iterable", "src/pytesmo/utils.py:element_iterable", "src/pytesmo/validation_framework/validation.py:args_to_iterable", "src/pytesmo/validation_framework/validation.py:Validation.calc", "src/pytesmo/validation_framework/validation.py:Validation.get_processing_jobs"]}
{"id": "C102", "title": "The incremental and the direct rolling metrics agree", "statement": "For chronological time stamps the incremental rolling_pr_rmsd and the direct computation kept for testing it give the same correlation, p-value and RMSD at every time stamp.", "quantifier": "all time axes without repeated stamps (centred windows: with them too), all values, window sizes > 0, both kinds of window, all minimum numbers of samples", "why_tests_cant": "The test compares the two on one random series; the claim that one can replace the other is about every series and window.", "anchors": ["src/pytesmo/metrics/deprecated.py:rolling_pr_rmsd", "src/pytesmo/metrics/_fast_pairwise.pyx:rolling_pr_rmsd"]}
{"id": "C103", "title": "Dictionaries of datasets can be used for several validations", "statement": "Constructing a validation keeps every dataset and every given option of the dictionaries passed to it and adds the documented defaults; constructing further validations from the same dictionaries does not change what an existing validation reads or masks with.", "quantifier": "all dictionaries of datasets and masking datasets, all sequences of later constructions (also ones that raise)", "why_tests_cant": "The dictionaries are shared objects; whether a later construction disturbs an earlier object depends on the whole history of calls.", "anchors": ["src/pytesmo/validation_framework/data_manager.py:DataManager.__init__", "src/pytesmo/validation_framework/data_manager.py:DataManager._add_default_values", "src/pytesmo/validation_framework/validation.py:Validation.__init__"]}
{"id": "C104", "title": "Windows of the rolling metrics are true time windows", "statement": "RollingMetrics uses for every time stamp exactly the samples whose distance in time is at most the window (centred), or that are less than the window older (not centred), although it compares rounded Julian dates.", "quantifier": "all chronological indices of the pandas range, all window sizes, all data", "why_tests_cant": "Time stamps are converted to floating point days; whether a sample on the edge of a window is counted depends on rounding of every single time stamp.", "anchors": ["src/pytesmo/validation_framework/metric_calculators.py:RollingMetrics.calc_metrics", "src/pytesmo/metrics/_fast_pairwise.pyx:rolling_pr_rmsd"]}
{"id": "C105", "title": "The exponential filter in machine arithmetic", "statement": "For chronological series the exponential filter returns a number for every observation, between the smallest and the largest valid observation so far up to four rounding errors of the largest magnitude, however long the series and the gaps are; missing observations, and only they, stay missing; the first valid observation and constant series are returned without any error; later observations change nothing.", "quantifier": "all chronological series of doubles (magnitude up to 2^1000) with missing values, all positive characteristic times, all exponential functions with values between 0 and 1 for negative arguments", "why_tests_cant": "The weight is kept in single precision and divided again and again; that it neither reaches zero nor accumulates errors is an invariant over arbitrarily long series.", "anchors": ["src/pytesmo/time_series/filters.pyx:exp_filter", "src/pytesmo/time_series/filtering.py:exp_filter"]}
{"id": "C106", "title": "The moving average in machine arithmetic", "statement": "For chronological series the moving average of a sample is the mean of the valid samples whose dates are at most half the window away, up to rounding: samples are left out or added only when their distance is half the window up to the errors of the dates and the rounding of the window to single precision; windows of whole (or quarter, eighth...) days on correctly rounded Julian dates lose no sample and add none farther away than 2^-31 days; results of values between short numbers such as 0 and 100 never leave that range; constant series of short numbers are returned as they are; a value appears exactly where the sample is valid or is to be filled and enough samples are in its window.", "quantifier": "all chronological series of doubles (magnitude up to 2^900, any number of missing values, fewer than 2^31 samples), all windows in the normal range of single precision, all min_obs and both settings of fillna; the range also for series in any order", "why_tests_cant": "Which samples are in a window depends on the rounding of dates and window; tests use a few windows in whole days.", "anchors": ["src/pytesmo/time_series/filters.pyx:boxcar_filter", "src/pytesmo/time_series/filtering.py:moving_average"]}
{"id": "C107", "title": "Linear scaling in machine arithmetic", "statement": "In IEEE 754 arithmetic mean_std and the linear scaling with stored parameters keep the order of the values: a value that is not larger does not get a larger result, whatever the data, their means, spreads, slopes (also negative) and intercepts; each result of mean_std is the exact linear function of its value up to a few units of rounding; constant series, which have no spread, get no result from mean_std and min_max.", "quantifier": "all IEEE 754 formats (error bound: double precision), all series and references incl. NaN and infinities, all orders of summation, all slopes and intercepts", "why_tests_cant": "Rounding, overflow and the order of summation depend on the exact bit patterns and lengths of the series.", "anchors": ["src/pytesmo/scaling.py:mean_std", "src/pytesmo/scaling.py:linreg_stored_params", "src/pytesmo/scaling.py:min_max"]}
{"id": "C108", "title": "Mean collocation in machine arithmetic", "statement": "Collocation by means compares times as Julian dates in double precision. Every reference time gets the mean (sum in order, divided by the number) of exactly the observations in its closed window, the edges included; the mean is close to the exact one, and stays between bounds such as 0 and 100 that hold for all values, whatever the times.", "quantifier": "all chronological reference and observation times pandas can represent, all windows from 200 microseconds to 73 years, all values incl. NaN; range: all times and windows", "why_tests_cant": "Whether an observation exactly at the edge of a window counts depends on the rounding of each time of day; tests use a few round times.", "anchors": ["src/pytesmo/temporal_matching.py:temporal_collocation", "src/pytesmo/temporal_matching.py:resample_mean"]}
{"id": "C109", "title": "Percentiles given as a list", "statement": "CDFMatching and cdf_match document the percentiles as a sequence. A python list gives the same result as an array with the same numbers.", "quantifier": "all increasing percentile lists from 0 to 100, all sources and references incl. NaN, all settings of minobs, linear edges and combine_invalid", "why_tests_cant": "Whether a list works depends on ties among the percentile values, hence on the data; tests use a list only with two percentiles.", "anchors": ["src/pytesmo/cdf_matching.py:CDFMatching", "src/pytesmo/cdf_matching.py:_unique_percentile_interpolation", "src/pytesmo/scaling.py:cdf_match"]}
{"id": "C110", "title": "Extended collocation of a data frame: names, rows, column order", "statement": "ecol of a data frame returns a dictionary in which the signal variance, error variance and SNR of every column and the error covariance and correlation of every listed pair are found under the name of the column or pair. Only rows without missing values count, the order of the columns does not matter, and the frame of the caller stays as it is.", "quantifier": "all frames with distinct column names, all lists of pairs and known error covariances, all solvers of the normal equations", "why_tests_cant": "The entries are found by the position of names in several vectors that are cut, extended and zipped; tests compare three to five columns with one choice of pairs.", "anchors": ["src/pytesmo/metrics/tcol.py:ecol", "src/pytesmo/metrics/tcol.py:check_if_biased"]}
{"id": "C111", "title": "Smoothing integers equals smoothing the same numbers as floats", "statement": "smoothn gives the same result for an array of integers as for the same numbers stored as floats: the number type of the data does not matter.", "quantifier": "all shapes of one to three dimensions, all integer data, weights, smoothing parameters and orders, all minimisers", "why_tests_cant": "Conversions to the type of the data happen on intermediate quantities; tests use float arrays only, and one comparison would not tell which frequencies are affected.", "anchors": ["src/pytesmo/interpolate/dctpls.py:smoothn", "src/pytesmo/interpolate/dctpls.py:calc_init_guess"]}
{"id": "C112", "title": "The units of the data do not change what extended collocation says", "statement": "Giving the columns of the data frame in other units (a factor that is not 0 and an offset per column, the known error covariance converted alike) multiplies signal and error variances by the square of the factor and error covariances by the product of the two factors, leaves every signal-to-noise ratio as it is and changes at most the sign of an error correlation. This includes results that are not finite.", "quantifier": "all rectangular frames with different column names and any missing values, factors and offsets, identifiable lists of correlated pairs, a known error covariance or none, both settings of abs_est, all least squares solvers", "why_tests_cant": "Users compare datasets in different units and choose units freely; a test checks one factor on one frame.", "anchors": ["src/pytesmo/metrics/tcol.py:ecol"]}
{"id": "C113", "title": "Confidence intervals widen with the confidence level and follow units and sign", "statement": "For the same data (and, for bootstrapping, the same draws) a smaller alpha gives an interval that contains the one for a larger alpha. Data in other units, exchanged series or a metric of the opposite sign give the correspondingly converted interval; a negative factor exchanges the bounds. The intervals are those of the references the functions cite.", "quantifier": "all data, levels between 0 and 1, numbers of observations, draws, metrics, factors and offsets; all quantile functions that are monotone", "why_tests_cant": "A test computes one interval at the default level; comparing intervals across levels and units concerns all data.", "anchors": ["src/pytesmo/metrics/confidence_intervals.py:with_bootstrapped_ci", "src/pytesmo/metrics/pairwise.py:pearson_r_ci", "src/pytesmo/metrics/pairwise.py:kendall_tau_ci", "src/pytesmo/metrics/pairwise.py:bias_ci", "src/pytesmo/metrics/pairwise.py:ubrmsd_ci"]}
{"id": "C114", "title": "Time stamps of stored time series survive the result file", "statement": "The time stamps of a time series read from a result file are those that were stored, up to the microsecond; different time stamps stay different and in order, and midnights are stored as whole numbers of days.", "quantifier": "all lists of time stamps between 1720 and June 2079 (and, with the stated loss, between 1615 and 2185)", "why_tests_cant": "Whether a time stamp survives the way through \"days since 1900\" in double precision depends on the rounding of every single number; a test can only try some.", "anchors": ["src/pytesmo/validation_framework/results_manager.py:PointDataResults._date2num", "src/pytesmo/validation_framework/results_manager.py:PointDataResults._num2date", "src/pytesmo/validation_framework/results_manager.py:PointDataResults.read_ts"]}
{"id": "C115", "title": "Variables in result files carry the attributes given for them, and locations are found by their coordinates", "statement": "Over any history of calls a variable of a result file has the attributes given by the first call that writes it, completed by its coordinates, and later calls do not change them; attributes given for a result reach its variable however it is named, and the dictionary of the caller is not altered. The indices found for a pair of coordinates are exactly those of the locations stored with it, and the coordinates of an index are the stored ones.", "quantifier": "all histories of calls, names, dictionaries of attributes and coordinates", "why_tests_cant": "A test writes one file with one set of attributes; which call decides, and what happens to the dictionary over many calls and files, concerns all histories.", "anchors": ["src/pytesmo/validation_framework/results_manager.py:PointDataResults._sel_attr", "src/pytesmo/validation_framework/results_manager.py:PointDataResults.add_result", "src/pytesmo/validation_framework/results_manager.py:PointDataResults._lonlat2idx", "src/pytesmo/validation_framework/results_manager.py:PointDataResults._idx2lonlat"]}
{"id": "C116", "title": "The column \"ref\" of a metric calculator is the reference dataset", "statement": "Metric calculators get the reference dataset as the column \"ref\" and the other datasets as \"k1\", \"k2\", ...; get_dataset_names returns the names of the datasets in the order of these columns, so that metrics are labelled with the datasets they were computed from.", "quantifier": "all dictionaries of datasets and columns, references, combination sizes and matched data", "why_tests_cant": "Whether the order of the columns, the names of the datasets and the reference agree depends on how names sort, which a test fixes by the names it chooses.", "anchors": ["src/pytesmo/validation_framework/data_manager.py:get_result_names", "src/pytesmo/validation_framework/data_manager.py:get_result_combinations", "src/pytesmo/validation_framework/validation.py:Validation.perform_validation", "src/pytesmo/validation_framework/metric_calculators.py:get_dataset_names"]}
{"id": "C117", "title": "Scaling with stored parameters within a validation", "statement": "A validation that scales with CDFStoreParamsScaler scales every column with a table that was fitted on the data of this column and of the scaling reference at this grid point, and gives results for every combination of datasets that could be scaled by itself.", "quantifier": "all dataset dictionaries, matched data, combinations, scaler options and states of the parameter store", "why_tests_cant": "The tables depend on the combination that happens to be validated first and on the names of the datasets; tests use one combination of two datasets with one column each.", "anchors": ["src/pytesmo/validation_framework/validation.py:Validation.perform_validation", "src/pytesmo/validation_framework/data_scalers.py:CDFStoreParamsScaler.scale", "src/pytesmo/validation_framework/data_scalers.py:CDFStoreParamsScaler.get_parameters"]}
{"id": "C118", "title": "The metrics of a combination do not depend on the other datasets", "statement": "Validating many datasets at once gives for every combination of datasets the metrics that a validation of these datasets alone gives at the same locations, with the same temporal reference and the same calculator.", "quantifier": "all configurations, data of the datasets, combinations, grid points, scaling methods and masks", "why_tests_cant": "Whether another dataset influences a combination depends on which of its observations are missing and on errors while it is processed; tests compare no pairs of configurations.", "anchors": ["src/pytesmo/validation_framework/validation.py:Validation.calc", "src/pytesmo/validation_framework/validation.py:Validation.perform_validation", "src/pytesmo/validation_framework/validation.py:Validation.get_data_for_result_tuple", "src/pytesmo/validation_framework/temporal_matchers.py:BasicTemporalMatching.combinatory_matcher", "src/pytesmo/validation_framework/temporal_matchers.py:make_combined_temporal_matcher"]}
{"id": "C119", "title": "Options of the validation select results, they do not change them", "statement": "handle_errors=\"ignore\" gives the results of handle_errors=\"raise\" whenever the latter goes through, and only_with_reference=True gives exactly the results of only_with_reference=False for the combinations that contain the reference.", "quantifier": "all configurations, calculators, matchers, scaling methods, masks and lists of grid points", "why_tests_cant": "The claim relates two runs of the whole validation over all configurations, including those in which errors occur in one combination only.", "anchors": ["src/pytesmo/validation_framework/validation.py:Validation.calc", "src/pytesmo/validation_framework/validation.py:Validation.perform_validation", "src/pytesmo/validation_framework/validation.py:Validation.dummy_validation_result"]}
{"id": "C120", "title": "Scaling what is already scaled changes nothing", "statement": "Scaling a series to itself returns the series, scaling a series twice to the same reference gives the result of scaling once, and scaling it first to another series and then to the reference gives the same as scaling it to the reference directly.", "quantifier": "all series without or (CDF matching) with missing values, all references, all options of the CDF matching", "why_tests_cant": "Two or more applications of the scaling functions are related for all series; tests scale a few series once.", "anchors": ["src/pytesmo/scaling.py:min_max", "src/pytesmo/scaling.py:linreg", "src/pytesmo/scaling.py:mean_std", "src/pytesmo/scaling.py:cdf_match", "src/pytesmo/cdf_matching.py:CDFMatching"]}
{"id": "C121", "title": "Collocating collocated data again changes nothing", "statement": "What collocation gives for one reference time does not depend on the other reference times. Data that already are at the reference times, in particular the result of a collocation, are returned unchanged by another collocation to these times.", "quantifier": "all reference times, data with any number of columns and gaps, windows", "why_tests_cant": "Results for different lists of reference times and repeated applications are related for all inputs; tests collocate a few series once.", "anchors": ["src/pytesmo/temporal_matching.py:temporal_collocation"]}
{"id": "C122", "title": "Metrics of the pairs of three datasets are consistent", "statement": "The root mean square difference, its unbiased version and the mean absolute difference obey the triangle inequality: those of a pair of datasets are at most the sum of those of both with a third dataset at the same times. The biases add up. The correlations of two datasets with a third one limit their own correlation: (r13 - r12 r23)^2 <= (1 - r12^2)(1 - r23^2).", "quantifier": "all triples of series of any length (not constant for correlations)", "why_tests_cant": "Inequalities between three results for all data; tests compare single numbers.", "anchors": ["src/pytesmo/metrics/pairwise.py:rmsd", "src/pytesmo/metrics/pairwise.py:ubrmsd", "src/pytesmo/metrics/pairwise.py:aad", "src/pytesmo/metrics/pairwise.py:bias", "src/pytesmo/metrics/pairwise.py:pearson_r"]}
{"id": "C123", "title": "Masking adapters can be stacked in any order", "statement": "A reader wrapped into several SelfMaskingAdapters gives the rows that one AdvancedMaskingAdapter with all filters gives (which also removes rows without any value); the order of adapters or filters, and repeated ones, do not matter; masking again changes nothing. An operator and its opposite split the rows with a value; rows without a value are only kept by \"!=\". Columns combined row by row can be added before or after masking. Masks can also be exchanged with the adapter that sets exact time stamps.", "quantifier": "all data frames, lists of filters with names or functions as operators, thresholds, columns", "why_tests_cant": "Equality of two ways to stack adapters for all data and lists of filters; tests use single adapters on one frame.", "anchors": ["src/pytesmo/validation_framework/adapters.py:SelfMaskingAdapter", "src/pytesmo/validation_framework/adapters.py:AdvancedMaskingAdapter", "src/pytesmo/validation_framework/adapters.py:ColumnCombineAdapter"]}
{"id": "C124", "title": "What is read through the anomaly adapters", "statement": "Reading through AnomalyAdapter gives in the selected columns each value minus the mean of the values of its column within half a window, and missing values where the value is missing. Reading through AnomalyClimAdapter gives each value minus the climatology the adapter computed for it; with return_clim one column <name>_climatology per selected column is appended and anomaly plus climatology is the value read. Index and other columns stay; a column for which no climatology can be computed raises.", "quantifier": "all data frames with distinct columns, selections of columns, windows, options of the climatology, time spans, averages", "why_tests_cant": "Holds for every row of every frame and every selection; tests compare a few columns of one frame.", "anchors": ["src/pytesmo/validation_framework/adapters.py:AnomalyAdapter", "src/pytesmo/validation_framework/adapters.py:AnomalyClimAdapter", "src/pytesmo/time_series/anomaly.py:calc_anomaly", "src/pytesmo/time_series/anomaly.py:calc_climatology"]}
{"id": "C125", "title": "All metric calculators agree on the metrics they share", "statement": "For complete data of a pair of datasets BasicMetrics, BasicMetricsPlusMSE, IntercomparisonMetrics, TCMetrics and HSAF_Metrics (for every pair they compare) and PairwiseIntercomparisonMetrics (for these two columns) report the same status, number of observations and the same numbers for every metric they have in common. For complete data of three datasets TCMetrics (for every triple with the reference) and TripleCollocationMetrics (for these three columns) report the same signal-to-noise ratios, error standard deviations and scaling parameters. So does HSAF_Metrics for the data of every season.", "quantifier": "all complete data frames with enough observations, pairs of columns, options of the calculators, metadata", "why_tests_cant": "The calculators compute the same metrics in different ways (from arrays, from running moments, for all pairs of a frame); tests compare them for a few frames of random numbers.", "anchors": ["src/pytesmo/validation_framework/metric_calculators.py:BasicMetrics.calc_metrics", "src/pytesmo/validation_framework/metric_calculators.py:BasicMetricsPlusMSE.calc_metrics", "src/pytesmo/validation_framework/metric_calculators.py:IntercomparisonMetrics.calc_metrics", "src/pytesmo/validation_framework/metric_calculators.py:PairwiseIntercomparisonMetrics.calc_metrics", "src/pytesmo/validation_framework/metric_calculators.py:TCMetrics.calc_metrics", "src/pytesmo/validation_framework/metric_calculators.py:TripleCollocationMetrics.calc_metrics", "src/pytesmo/validation_framework/metric_calculators.py:HSAF_Metrics.calc_metrics"]}
{"id": "C126", "title": "What is matched at a time depends on the observations near it", "statement": "Temporal collocation treats every reference time on its own and uses observations within the window only: collocating to a part of the reference gives that part of the result, and observations further away than the window do not matter. With a larger window everything that was matched stays matched to the same observation, and new matches occur only where nothing was in the window; a validation with a larger window compares all observations it compared before (its number of observations does not decrease). Restricting a validation to a period leaves out the observations outside it and changes nothing else.", "quantifier": "all data frames and reference times, windows, options without flags; all plain validations (no masking, no scaling), datasets, periods", "why_tests_cant": "Which neighbours matter depends on all distances of reference times and observations; tests try a few windows.", "anchors": ["src/pytesmo/temporal_matching.py:temporal_collocation", "src/pytesmo/validation_framework/temporal_matchers.py:BasicTemporalMatching", "src/pytesmo/validation_framework/upscaling.py:MixinReadTs.read_ds", "src/pytesmo/validation_framework/validation.py:Validation.calc"]}
{"id": "C127", "title": "Moving averages and climatologies keep trends, cycles and means", "statement": "A linear trend passes the moving average unchanged wherever the window around an observation is filled symmetrically, so the short-term anomalies of a trend are zero there. A series whose values repeat every year has no anomalies from its own unsmoothed climatology. Smoothing a complete climatology with wrapping around the turn of the year does not change its sum (and mean) over the year.", "quantifier": "all linear and all periodic series, windows, times; all aggregation functions and options of a wrapped climatology", "why_tests_cant": "Statements about sums over windows and whole cycles for all series; tests compare a few smoothed numbers.", "anchors": ["src/pytesmo/time_series/anomaly.py:calc_anomaly", "src/pytesmo/time_series/anomaly.py:calc_climatology", "src/pytesmo/time_series/filtering.py:moving_average", "src/pytesmo/time_series/filters.pyx:boxcar_filter"]}
{"id": "C128", "title": "The filters add up, do not amplify and forget", "statement": "For two series observed at the same times, filtering a weighted sum gives the weighted sum of the filtered series (exponential filter and moving average). Filtered series differ by no more than the series do (the moving average: than they do within the window; its anomalies: twice as much). In the exponential filter the difference of an observation counts with exp(-age/ctime) at most, so that old observations are forgotten exponentially.", "quantifier": "all pairs of series with common times, all weights, windows, characteristic times", "why_tests_cant": "The claims compare two runs on arbitrary series; tests fix one series.", "anchors": ["src/pytesmo/time_series/filters.pyx:exp_filter", "src/pytesmo/time_series/filters.pyx:boxcar_filter", "src/pytesmo/time_series/filtering.py:moving_average", "src/pytesmo/time_series/anomaly.py:calc_anomaly"]}
{"id": "C129", "title": "Metrics of the whole follow from those of its parts", "statement": "When data are cut into parts (seasons, periods), the numbers of observations and the residual sums of squares add up, and bias, mean absolute and mean square difference of the whole are the means of those of the parts weighted with the numbers of observations; in particular the seasonal results of MonthsMetricsAdapter and its result for the whole year fit together. The unbiased difference of the whole is at least that of the parts.", "quantifier": "all data and all ways to cut them; all months subsets that cut up the year; all complete frames", "why_tests_cant": "Quantifies over all partitions of all data; tests compare a few numbers.", "anchors": ["src/pytesmo/metrics/pairwise.py:bias, msd, rmsd, aad", "src/pytesmo/metrics/_fast_pairwise.pyx:bias, RSS, _ubrmsd", "src/pytesmo/validation_framework/metric_calculators_adapters.py:MonthsMetricsAdapter", "src/pytesmo/validation_framework/metric_calculators.py:BasicMetrics"]}
{"id": "C130", "title": "Metrics after scaling", "statement": "Scaling with mean_std, min_max or linreg does not change the correlation with the reference nor its p-value. After mean_std no bias and no difference of variances is left: the mean square difference is its correlation part, 2 var(ref) (1 - R), and rmsd equals ubrmsd. After linreg no bias is left, no linear rescaling of the data is closer to the reference, and the mean square difference is var(ref) (1 - R^2).", "quantifier": "all pairs of equally long series that are not constant", "why_tests_cant": "Joins the scaling functions with the metrics for every series; tests compare single numbers after scaling.", "anchors": ["src/pytesmo/scaling.py:mean_std", "src/pytesmo/scaling.py:min_max", "src/pytesmo/scaling.py:linreg", "src/pytesmo/metrics/pairwise.py:pearson_r, bias, msd, mse_decomposition"]}
{"id": "C131", "title": "Missing values given to the metric functions", "statement": "When a value is missing (NaN) in one of the series, bias, RSS, MSD, RMSD, ubRMSD and the parts of the MSE are NaN rather than numbers. min_max scaling then gives missing values only. The rolling metrics of a row depend on the data in its window, so that a missing value matters only as long as it is in the window.", "quantifier": "all series of floating point numbers of any format, all positions of missing values; for the rolling metrics all time stamps in order, windows and minimum numbers of observations", "why_tests_cant": "NaN propagates through every later operation of a loop; tests use complete data.", "anchors": ["src/pytesmo/metrics/_fast_pairwise.pyx:bias, RSS, mse_decomposition, _ubrmsd, rolling_pr_rmsd, _pearsonr_from_moments", "src/pytesmo/metrics/pairwise.py:msd, rmsd"]}
{"id": "C132", "title": "Changing the sign of series in floating point", "statement": "In IEEE 754 arithmetic, if the signs of both series are changed, the bias changes its sign and RSS, MSD, RMSD and ubRMSD stay the same to the last bit; if the sign of one series is changed, the correlation changes its sign and the p-value stays the same; a series and its opposite have correlation -1. Filtering, averaging or collocating by means a series with changed signs gives the result with changed signs.", "quantifier": "all series of floating point numbers (metrics and collocation: of any format), all times, windows and options", "why_tests_cant": "Bit-for-bit statements about every floating point input cannot be sampled.", "anchors": ["src/pytesmo/metrics/_fast_pairwise.pyx:bias, RSS, _ubrmsd, _moments_welford, _pearsonr_from_moments", "src/pytesmo/metrics/pairwise.py:msd, rmsd", "src/pytesmo/time_series/filters.pyx:exp_filter, boxcar_filter", "src/pytesmo/time_series/filtering.py:moving_average", "src/pytesmo/temporal_matching.py:combined_temporal_collocation"]}
{"id": "C133", "title": "Larger observations never give smaller averages", "statement": "If one series is nowhere above another one observed at the same times and missing at the same times, then neither are its moving averages, the means it is collocated by, its exponentially filtered values nor its climatology (mean or median), and results are missing for both or for none. Moving averages and collocation by means: also with rounding, to the last bit.", "quantifier": "all pairs of such series, times, windows and options of the filters, collocations and climatologies", "why_tests_cant": "Rounding could reverse the order for some pair of series only; no set of examples excludes it.", "anchors": ["src/pytesmo/time_series/filters.pyx:boxcar_filter, exp_filter", "src/pytesmo/time_series/filtering.py:moving_average", "src/pytesmo/temporal_matching.py:temporal_collocation, resample_mean", "src/pytesmo/time_series/anomaly.py:calc_climatology"]}
{"id": "C134", "title": "Whole numbers and other multiples of a power of two are summed without rounding", "statement": "If all observations are whole multiples of one power of two (whole numbers, halves, multiples of 1/128, ...) and the sums stay below 2^53 multiples, then the residual sum of squares has no rounding error, bias, mean square difference, moving averages and the means of temporal collocation are the exact values rounded once, and the root mean square difference is the rounded root of the latter. The bias is then zero exactly if both columns have the same sum, and the order of the observations has no influence on these metrics. An offset common to both columns changes none of them, the residual sum of squares is zero for equal columns only, and the bias lies between the smallest and the largest difference and is not above the RMSD in absolute value.", "quantifier": "all lists of pairs, series, windows and times with values on such a grid and sums below 2^53", "why_tests_cant": "Rounding errors show up for a few combinations of values only; exactness is a statement on all of them.", "anchors": ["src/pytesmo/metrics/_fast_pairwise.pyx:bias, RSS", "src/pytesmo/metrics/pairwise.py:msd, rmsd", "src/pytesmo/time_series/filters.pyx:boxcar_filter", "src/pytesmo/temporal_matching.py:resample_mean"]}
{"id": "C135", "title": "Past and future are treated alike", "statement": "With time running backwards (all times negated, observations in the reverse order) moving averages, anomalies from them, and temporal collocation by means or by nearest neighbours give the same results, backwards. Nothing is shifted in time.", "quantifier": "all series and frames in chronological order, windows, reference times and options", "why_tests_cant": "A shift by half a window or a half-open window only shows for observations at particular distances; all configurations have to be covered.", "anchors": ["src/pytesmo/time_series/filters.pyx:boxcar_filter", "src/pytesmo/time_series/filtering.py:moving_average", "src/pytesmo/time_series/anomaly.py:calc_anomaly", "src/pytesmo/temporal_matching.py:temporal_collocation, resample_mean"]}
{"id": "C136", "title": "A constant column is recognised as constant, although the arithmetic rounds", "statement": "In double precision, and in any other IEEE 754 format, a column that holds one finite number throughout has exactly this number as mean and exactly zero as variance; its correlation with anything is NaN, and two constant columns have an MSE that is all bias. No metric reports rounding errors as variability.", "quantifier": "all finite constants, all numbers of pairs, all contents of the other column including NaN and infinities, all binary formats", "why_tests_cant": "Whether n times the same number is averaged to this number depends on the number and on n; tests use 0, 1 or other values for which every formula is exact.", "anchors": ["src/pytesmo/metrics/_fast_pairwise.pyx:_moments_welford, mse_decomposition, _ubrmsd, _pearsonr_from_moments", "src/pytesmo/validation_framework/metric_calculators.py:PairwiseIntercomparisonMetrics"]}
{"id": "C137", "title": "Changing the unit by a power of two changes exponents only", "statement": "Multiplying all data by a power of two multiplies the computed bias, averages, RMSD and ubRMSD by this factor, and RSS and MSD by its square, to the last bit: the digits do not depend on such a choice of unit.", "quantifier": "all pairs and series of finite doubles of any length up to 2^53, all powers of two, without overflow or underflow", "why_tests_cant": "Digits agree by accident in single examples; exactness for all data needs an argument about every rounding.", "anchors": ["src/pytesmo/metrics/_fast_pairwise.pyx:bias, RSS", "src/pytesmo/metrics/pairwise.py:msd, rmsd", "src/pytesmo/time_series/filters.pyx:boxcar_filter", "src/pytesmo/temporal_matching.py:resample_mean"]}
