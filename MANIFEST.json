{
 "claims": [
  {
   "property": "C01",
   "status": "partial",
   "theorems": [
    "C01_mean_is_window_mean",
    "C01_integer_columns_refuted",
    "C01_integer_columns"
   ],
   "note": "Proved for float data (exact arithmetic) for every sorted input, incl. ties, NaN and empty frames. Refuted when the first column has an integer dtype: the means are truncated on assignment (C01_integer_columns says what is returned instead: every mean without its fraction, and an unspecified number where the window holds no observation)."
  },
  {
   "property": "C02",
   "status": "proved",
   "theorems": [
    "C02_nearest",
    "C02_nearest_error",
    "C02_sorted_qualifies",
    "C02_reference_rows"
   ],
   "note": "pandas reindex(method='nearest', tolerance) is modelled by its pad/backfill algorithm; increasing and decreasing indexes covered, non-monotone raises."
  },
  {
   "property": "C03",
   "status": "proved",
   "theorems": [
    "C03_flag_excludes",
    "C03_flag_fallback",
    "C03_flag_column"
   ],
   "note": "For accepted flag lengths; cell-wise fallback."
  },
  {
   "property": "C04",
   "status": "partial",
   "theorems": [
    "C04_flag_per_observation_refuted",
    "C04_flag_with_duplicates_refuted",
    "C04_mean_with_flags_refuted",
    "C04_flag_lengths_partial"
   ],
   "note": "The property is false of the code: the flag length is compared with the reference length, duplicates shift the rows, and method='mean' always raises when a flag is set. The last theorem characterises the rejected lengths."
  },
  {
   "property": "C05",
   "status": "proved",
   "theorems": [
    "C05_combined"
   ],
   "note": "Reference without duplicated time stamps."
  },
  {
   "property": "C06",
   "status": "proved",
   "theorems": [
    "C06_asymmetric_window",
    "C06_dropduplicates",
    "C06_matching",
    "C06_zero_window",
    "C06_negative_window",
    "C06_unknown_asymmetry",
    "C06_no_window",
    "C06_wide_window",
    "C06_matching_wide_window"
   ],
   "note": "KD-tree query is an oracle assumed to return a nearest time (kd_correct, shown satisfiable)."
  },
  {
   "property": "C07",
   "status": "proved",
   "theorems": [
    "C07_boxcar_is_window_mean"
   ],
   "note": "Exact arithmetic; sorted times; min_obs >= 1."
  },
  {
   "property": "C08",
   "status": "proved",
   "theorems": [
    "C08_exp_filter_weighted_average",
    "C08_exp_filter_hull",
    "C08_exp_filter_causal"
   ],
   "note": "Over the reals (stdlib axioms). Every output is the exponentially weighted average of the valid inputs so far; hull, constants and causality follow."
  },
  {
   "property": "C09",
   "status": "proved",
   "theorems": [
    "C09_anomaly_plus_average"
   ],
   "note": "Exact arithmetic; the conversion of the index to Julian dates is taken as the identity."
  },
  {
   "property": "C10",
   "status": "proved",
   "theorems": [
    "C10_climatology_is_circular",
    "C10_window_out_of_range"
   ],
   "note": "timespan=None; aggregation (mean/median/std of a day) is a parameter; error branch for windows 0 and larger than the year proved."
  },
  {
   "property": "C11",
   "status": "partial",
   "theorems": [
    "C11_same_day_matching_options_partial",
    "C11_default_options_partial",
    "C11_default_options_refuted"
   ],
   "note": "False of the code with the default options: after February of a common year the climatology of another calendar day is subtracted (end-to-end witness). Holds when both calls ignore leap years, and with the defaults for leap years and January/February."
  },
  {
   "property": "C12",
   "status": "partial",
   "theorems": [
    "C12_leapday_without_std",
    "C12_leapday_with_std_refuted"
   ],
   "note": "Proved without std; with std=True the climatology and std columns are averaged together (refuted)."
  },
  {
   "property": "C13",
   "status": "proved",
   "theorems": [
    "C13_label_is_bin_boundary",
    "C13_labels_monotone",
    "C13_same_label_iff_same_bin",
    "C13_groups",
    "C13_dates_between",
    "C13_uncovered_days_refuted",
    "C13_monotone_bins"
   ],
   "note": "For bins that start at day 1 and reach past day 31. The refuted theorem shows what happens with bins that leave days uncovered."
  },
  {
   "property": "C14",
   "status": "proved",
   "theorems": [
    "C14_total_order",
    "C14_agrees_with_leap_years",
    "C14_to_datetime",
    "C14_to_datetime_years",
    "C14_from_datetime",
    "C14_from_datetime_round_trip"
   ],
   "note": "Comparison via year 2400; python's 1..9999 year bound is not modelled."
  },
  {
   "property": "C15",
   "status": "partial",
   "theorems": [
    "C15_filter_marks_the_union",
    "C15_select",
    "C15_datetime_objects_refuted"
   ],
   "note": "Proved for dates, date ranges and YearlessDatetime dates (yearless ranges are C16). datetime objects in yearless_dates, documented as allowed, raise."
  },
  {
   "property": "C16",
   "status": "partial",
   "theorems": [
    "C16_yearless_ranges_partial",
    "C16_selected_exactly_partial",
    "C16_new_year_refuted",
    "C16_feb29_refuted"
   ],
   "note": "False in general: ranges over New Year miss the first year's January/February, ranges inside 29 February select most of a common year. Exact characterisation proved for whole-second timestamps and all other ranges."
  },
  {
   "property": "C17",
   "status": "proved",
   "theorems": [
    "C17_default_seasons_partition",
    "C17_month_subsets",
    "C17_subsecond_refuted"
   ],
   "note": "Whole-second timestamps as stated; the refuted theorem shows the sub-second gap at month ends."
  },
  {
   "property": "C18",
   "status": "proved",
   "theorems": [
    "C18_min_max_reaches_reference_range",
    "C18_min_max_constant_source_missing"
   ],
   "note": "Exact rationals. A constant source gives NaN everywhere."
  },
  {
   "property": "C19",
   "status": "proved",
   "theorems": [
    "C19_mean_std_matches_reference",
    "C19_mean_std_constant_source_missing"
   ],
   "note": "Over the reals (population standard deviation)."
  },
  {
   "property": "C20",
   "status": "partial",
   "theorems": [
    "C20_linreg_mean_partial",
    "C20_linreg_mean_lost_for_negative_slope",
    "C20_linreg_mean_refuted",
    "C20_least_squares",
    "C20_fit_exists"
   ],
   "note": "False as stated: the absolute slope is combined with the intercept of the signed slope. Proved for slope >= 0, and that a negative slope always loses the mean unless the source mean is zero."
  },
  {
   "property": "C21",
   "status": "proved",
   "theorems": [
    "C21_scale_columns",
    "C21_scale_errors",
    "C21_add_scaled",
    "C21_default_labels",
    "C21_too_few_columns",
    "C21_negative_index"
   ],
   "note": "Distinct column names; negative indices are an error of the code."
  },
  {
   "property": "C22",
   "status": "partial",
   "theorems": [
    "C22_predict_monotone",
    "C22_fit_predict_monotone",
    "C22_fit_spans_ranges",
    "C22_constant_source_all_missing",
    "C22_single_bin_reverses_order_refuted",
    "C22_linear_edges_fit_fails_refuted",
    "C22_least_squares",
    "C22_single_bin_is_regression",
    "C22_no_observations",
    "C22_integer_source_zero",
    "C22_integer_source_refuted"
   ],
   "note": "Proved for every good table and for every fit with more than one bin or without linear edges. Refuted: with linear edges and a single bin the order can be reversed (the result is the regression line of the reference on the source, C22_single_bin_is_regression), a constant source loses all values, and fitting with linear edges can fail."
  },
  {
   "property": "C23",
   "status": "proved",
   "theorems": [
    "C23_cdf_match_range"
   ],
   "note": ""
  },
  {
   "property": "C24",
   "status": "proved",
   "theorems": [
    "C24_bins_hold_minobs",
    "C24_too_few_observations_single_bin",
    "C24_table_width"
   ],
   "note": ""
  },
  {
   "property": "C25",
   "status": "proved",
   "theorems": [
    "C25_percentiles_of_sorted_sample",
    "C25_linear_between_ranks",
    "C25_unique_percentile_values"
   ],
   "note": ""
  },
  {
   "property": "C26",
   "status": "partial",
   "theorems": [
    "C26_dropna_partial",
    "C26_dropna_three",
    "C26_dropna_three_refuted",
    "C26_dropna_count"
   ],
   "note": "Proved for two arrays. Refuted for three (the third mask is taken as the output buffer); every other number of arrays is a TypeError."
  },
  {
   "property": "C27",
   "status": "proved",
   "theorems": [
    "C27_result_names",
    "C27_unknown_reference"
   ],
   "note": "Distinct dataset names and distinct columns per dataset."
  },
  {
   "property": "C28",
   "status": "proved",
   "theorems": [
    "C28_no_reference",
    "C28_reference_and_readable_others",
    "C28_cases"
   ],
   "note": "Dataset names are distinct. The reader, the look-up table and the nearest point search are oracles."
  },
  {
   "property": "C29",
   "status": "proved",
   "theorems": [
    "C29_result_combinations",
    "C29_order_independent"
   ],
   "note": ""
  },
  {
   "property": "C30",
   "status": "partial",
   "theorems": [
    "C30_combinatory_matcher_partial",
    "C30_unknown_reference",
    "C30_column_names_distinct",
    "C30_unmatched_rows_refuted"
   ],
   "note": "Proved: one frame per subset, keys, columns and rows. Refuted: a frame need not hold any matched row, since unmatched reference rows are kept."
  },
  {
   "property": "C31",
   "status": "proved",
   "theorems": [
    "C31_combined_matcher",
    "C31_wrong_number_of_datasets",
    "C31_within_window"
   ],
   "note": "Frames rectangular with monotone times (other frames raise)."
  },
  {
   "property": "C32",
   "status": "partial",
   "theorems": [
    "C32_aligned_entries_partial",
    "C32_no_abort",
    "C32_no_points",
    "C32_masked_reference_refuted",
    "C32_scalar_status_refuted",
    "C32_calculators_accepted",
    "C32_same_size_refuted"
   ],
   "note": "Proved for all failure patterns when calculators return arrays and no reference is masked away completely (and group sizes are distinct). Refuted otherwise: a completely masked reference leaves no entry, a calculator storing a bare status number aborts the run, and of two calculators with the same group size only one entry gets the status (C32_same_size_refuted). The cast to the dtype of the first entry is covered by C100."
  },
  {
   "property": "C33",
   "status": "partial",
   "theorems": [
    "C33_failed_point",
    "C33_reading_fails",
    "C33_no_data",
    "C33_matching_fails",
    "C33_nothing_matched",
    "C33_codes_are_truthful",
    "C33_one_combination",
    "C33_raise",
    "C33_tuple_status_refuted",
    "C33_joined_status_refuted",
    "C33_reported_status",
    "C33_reported_no_data"
   ],
   "note": "Proved for calculators with a plain status field. Refuted for grouped status fields: tuple fields turn 4/2 into 6 for all combinations, joined names never get a code."
  },
  {
   "property": "C34",
   "status": "partial",
   "theorems": [
    "C34_masking_partial",
    "C34_subset_of_reference",
    "C34_false_mask_refuted",
    "C34_two_masks_combined_matcher_refuted",
    "C34_reference_columns_partial",
    "C34_complete_reference_partial",
    "C34_last_column_decides_refuted"
   ],
   "note": "The property is false of the code: any matched masking value, also False, removes the observation. Proved with the combinatory matcher: the exact set of removed observations for one reference column, for several columns without missing values, and bounds for the others; there the last reference column decides, so an observation with a masking value can stay (refuted)."
  },
  {
   "property": "C35",
   "status": "partial",
   "theorems": [
    "C35_cell_grid",
    "C35_no_grid",
    "C35_basic_grid_refuted"
   ],
   "note": "Proved for cell grids. For a grid without cells the function returns the three arrays of one job instead of a list of jobs."
  },
  {
   "property": "C36",
   "status": "partial",
   "theorems": [
    "C36_extracted_data",
    "C36_no_missing_values",
    "C36_no_matched_set",
    "C36_single_set",
    "C36_last_set_refuted"
   ],
   "note": "Proved: what is returned, and success for a single matched set. Refuted: with several sets larger than the tuple only the last set of the temporal reference is tried."
  },
  {
   "property": "C37",
   "status": "partial",
   "theorems": [
    "C37_locations_read_back_partial",
    "C37_indices_returned",
    "C37_shape_error",
    "C37_late_variable_refuted"
   ],
   "note": "Proved for all histories in which variables appear in the first call. Refuted: a variable that appears later is written from location 0 on."
  },
  {
   "property": "C38",
   "status": "partial",
   "theorems": [
    "C38_series_read_back_partial",
    "C38_results_are_calls",
    "C38_times_required",
    "C38_late_variable_refuted",
    "C38_unordered_series_refuted",
    "C38_series_fields"
   ],
   "note": "Proved for all histories, incl. locations without series, in which time series variables appear before any time stamp is stored and series are added in location order. Both restrictions are needed (refutations)."
  },
  {
   "property": "C39",
   "status": "partial",
   "theorems": [
    "C39_distinct_files_partial",
    "C39_length_partial",
    "C39_same_file_refuted",
    "C39_long_names_refuted",
    "C39_too_long_refuted"
   ],
   "note": "Length: proved for roots of at most 241 characters, refuted beyond. Injectivity: proved for names without dots in dataset names and without \"with\" whose full names fit; refuted otherwise."
  },
  {
   "property": "C40",
   "status": "partial",
   "theorems": [
    "C40_first_scaling",
    "C40_parameters_are_fixed",
    "C40_repeatable",
    "C40_points_independent",
    "C40_failure_stores_nothing",
    "C40_new_column_fails",
    "C40_name_clash_refuted"
   ],
   "note": "Proved for all call histories while the reference column keeps its name. Refuted beyond: the stored name column_reference does not determine the pair. The netCDF store is a map from point to parameters (trusted)."
  },
  {
   "property": "C41",
   "status": "proved",
   "theorems": [
    "C41_operators",
    "C41_self_masking",
    "C41_advanced_masking",
    "C41_masking_dataset",
    "C41_errors"
   ],
   "note": "Numeric columns and thresholds; an empty filter list is a KeyError in the code and modelled so."
  },
  {
   "property": "C42",
   "status": "partial",
   "theorems": [
    "C42_exact_times_partial",
    "C42_repeated_times",
    "C42_error_bound",
    "C42_subsecond_refuted",
    "C42_repeated_rows_refuted",
    "C42_missing_unit_refuted",
    "C42_units",
    "C42_unknown_unit",
    "C42_output_column_partial",
    "C42_output_dropped_refuted",
    "C42_nothing_left"
   ],
   "note": "Proved when each offset is a whole number of seconds and, for replace_index=True, the exact times are distinct; for replace_index=False, when the index labels are distinct and the output column is not dropped again. Refuted otherwise: each offset is rounded down to seconds separately, k rows at one time become k*k rows, offset fields beyond the list of units are ignored, and an output column named like a base or offset field is dropped with the originals."
  },
  {
   "property": "C43",
   "status": "partial",
   "theorems": [
    "C43_no_station",
    "C43_point_without_stations",
    "C43_upscaled_within_stations",
    "C43_all_stations_unstable_refuted"
   ],
   "note": "Hull proved for all inputs, with the stations kept by the time stability filter; refuted: if the filter rejects every station the series is missing although all stations have values. linregress is an oracle."
  },
  {
   "property": "C44",
   "status": "proved",
   "theorems": [
    "C44_longest_series_is_axis"
   ],
   "note": ""
  },
  {
   "property": "C45",
   "status": "proved",
   "theorems": [
    "C45_one_pass_moments",
    "C45_empty",
    "C45_order_independent"
   ],
   "note": "Exact real arithmetic; floating point rounding is not modelled."
  },
  {
   "property": "C46",
   "status": "proved",
   "theorems": [
    "C46_decomposition",
    "C46_parts",
    "C46_msd",
    "C46_deprecated_mse"
   ],
   "note": "Exact real arithmetic. Cauchy-Schwarz shows that the guard max(..,0) is never active."
  },
  {
   "property": "C47",
   "status": "proved",
   "theorems": [
    "C47_value",
    "C47_undefined",
    "C47_symmetric",
    "C47_rescale",
    "C47_p_value"
   ],
   "note": "Exact real arithmetic; scipy betainc is an arbitrary function, its argument is proved to be 1-r^2 with at least three observations."
  },
  {
   "property": "C48",
   "status": "proved",
   "theorems": [
    "C48_pythagoras",
    "C48_bias",
    "C48_rmsd",
    "C48_ubrmsd",
    "C48_aad",
    "C48_ddof",
    "C48_nrmsd",
    "C48_mad",
    "C48_mad_defined"
   ],
   "note": "Exact real arithmetic."
  },
  {
   "property": "C49",
   "status": "proved",
   "theorems": [
    "C49_nash_sutcliffe",
    "C49_nash_sutcliffe_value",
    "C49_nash_sutcliffe_undefined",
    "C49_index_of_agreement",
    "C49_index_of_agreement_undefined"
   ],
   "note": "Exact real arithmetic."
  },
  {
   "property": "C50",
   "status": "proved",
   "theorems": [
    "C50_centred",
    "C50_trailing",
    "C50_trailing_interval",
    "C50_length"
   ],
   "note": "Exact real arithmetic, values without NaN (a NaN sample would stay in the running sums). Among samples of equal time the trailing window contains those up to the current one."
  },
  {
   "property": "C51",
   "status": "proved",
   "theorems": [
    "C51_recovers",
    "C51_recovers_data",
    "C51_error_variance",
    "C51_noise_free",
    "C51_rescaling",
    "C51_reference_range",
    "C51_deprecated",
    "C51_tcol_error",
    "C51_error_sign_refuted",
    "C51_error_defined_refuted"
   ],
   "note": "Exact recovery for all parameters and references, also from the sample covariances of data. Findings: the returned error standard deviation is negative for gains of opposite sign, and NaN next to a finite SNR when the estimated error variance is negative."
  },
  {
   "property": "C52",
   "status": "partial",
   "theorems": [
    "C52_reference_partial",
    "C52_no_reference",
    "C52_reference_beta",
    "C52_reference_refuted",
    "C52_late_reference_refuted",
    "C52_columns_of_a_triple"
   ],
   "note": "Holds for the first column, or for frames with three columns, without missing values. The index of the column is passed on as index within the triple: for other references a wrong column is the reference or an IndexError is raised (refuted)."
  },
  {
   "property": "C53",
   "status": "partial",
   "theorems": [
    "C53_pairs",
    "C53_triples_partial",
    "C53_other_sizes",
    "C53_triples_refuted",
    "C53_foreign_rows_refuted"
   ],
   "note": "Holds for pairs, and for triples of data without missing values. np.logical_and takes its third argument as output buffer: missing values of the last column of a triple are passed to the method, and later triples lose rows (refuted). Other group sizes raise TypeError."
  },
  {
   "property": "C54",
   "status": "partial",
   "theorems": [
    "C54_symmetric_partial",
    "C54_upper",
    "C54_wrong_entry",
    "C54_not_commutative",
    "C54_symmetric_refuted",
    "C54_pairwise_symmetric",
    "C54_pairwise_values",
    "C54_lower_entries"
   ],
   "note": "Holds up to three columns. With four or more columns the lower triangle is filled in the wrong order, entry (2,1) is the metric of the columns 0 and 3 (refuted). The deprecated pairwise_apply is symmetric for any number of columns."
  },
  {
   "property": "C55",
   "status": "proved",
   "theorems": [
    "C55_too_few_refused",
    "C55_percentile",
    "C55_basic",
    "C55_quantile_unique",
    "C55_unknown_method",
    "C55_triple_collocation_percentile"
   ],
   "note": "For every metric, series, alpha in [0,1] and all draws. Quantiles are characterised by linear interpolation of order statistics over the reals; the random generator is quantified over."
  },
  {
   "property": "C56",
   "status": "proved",
   "theorems": [
    "C56_pearson",
    "C56_spearman",
    "C56_kendall",
    "C56_perfect_correlation",
    "C56_few_observations",
    "C56_deprecated_pearson_conf",
    "C56_bias_contains",
    "C56_bias_shrinks",
    "C56_bias_converges",
    "C56_bias_from_moments",
    "C56_ubrmsd",
    "C56_analytical_interval",
    "C56_three_observations",
    "C56_deprecated_pearson_conf_all"
   ],
   "note": "Over the reals, with the normal, t and chi-square quantile functions as arbitrary functions whose relevant values are non-negative (and, for the shrinking bias interval, do not grow with the degrees of freedom)."
  },
  {
   "property": "C57",
   "status": "proved",
   "theorems": [
    "C57_chunks",
    "C57_value"
   ],
   "note": "Exact real arithmetic."
  },
  {
   "property": "C58",
   "status": "partial",
   "theorems": [
    "C58_basic",
    "C58_plus_mse",
    "C58_ft",
    "C58_rolling_partial",
    "C58_pairwise",
    "C58_triple",
    "C58_triple_bootstrap",
    "C58_hsaf_partial",
    "C58_intercomparison",
    "C58_intercomparison_pairs",
    "C58_intercomparison_values",
    "C58_tcm",
    "C58_tcm_triples",
    "C58_tcm_estimates",
    "C58_complete_observations_refuted",
    "C58_bootstrap_refuted",
    "C58_rolling_refuted",
    "C58_hsaf_refuted",
    "C58_basic_values",
    "C58_plus_mse_values",
    "C58_missing_column",
    "C58_triple_rows",
    "C58_triple_values",
    "C58_tcm_pairs",
    "C58_intercomparison_labels",
    "C58_rho_kept_refuted",
    "C58_tau_kept_refuted"
   ],
   "note": "Location, metadata, status and n_obs proved for BasicMetrics, BasicMetricsPlusMSE, FTMetrics, PairwiseIntercomparisonMetrics, TripleCollocationMetrics, IntercomparisonMetrics and TCMetrics (for data without missing values). False as stated: only PairwiseIntercomparisonMetrics counts complete observations, the others count rows (C58_complete_observations_refuted); RollingMetrics reports no n_obs; HSAF_Metrics has status 0 even if no season has enough observations (C58_hsaf_refuted); bootstrapped intervals of a short series raise ValueError (pairwise) or give status 2 (triple collocation)."
  },
  {
   "property": "C59",
   "status": "partial",
   "theorems": [
    "C59_partial",
    "C59_pairs_use_all_data",
    "C59_refuted",
    "C59_pair_names"
   ],
   "note": "Proved for n_obs and the triple collocation estimates. False for the metrics of pairs: they are computed from all data and stored for every season with enough observations (C59_pairs_use_all_data; C59_refuted has a winter correlation of 1 reported as 0)."
  },
  {
   "property": "C60",
   "status": "partial",
   "theorems": [
    "C60_tuple",
    "C60_join_partial",
    "C60_join_refuted",
    "C60_months",
    "C60_months_basic",
    "C60_dictionary_reused_refuted",
    "C60_grouping_option"
   ],
   "note": "Tuple keys: proved for every calculator, every list of distinctly named subsets and every frame: the metrics of a subset are those of the calculator on exactly the rows of the subset, no key of another subset or of the location is hit. Month subsets: the rows are those of the months (whole-second times). Joined names: proved when subset and metadata names do not contain '|'; refuted otherwise. A month dictionary cannot be used for a second adapter (TypeError)."
  },
  {
   "property": "C61",
   "status": "proved",
   "theorems": [
    "C61_classes"
   ],
   "note": "Each count is the number of rows of its class; counts plus missing temperatures equal n_obs, so without missing temperatures the counts add up to n_obs."
  },
  {
   "property": "C62",
   "status": "partial",
   "theorems": [
    "C62_means_and_covariances_partial",
    "C62_diagonal_too_small",
    "C62_diagonal_refuted"
   ],
   "note": "Means and off-diagonal covariances are right. The diagonal is not the variance: it is strictly too small for every non-constant column (the new mean is used twice)."
  },
  {
   "property": "C63",
   "status": "proved",
   "theorems": [
    "C63_combinations",
    "C63_permutations",
    "C63_once",
    "C63_none",
    "C63_one",
    "C63_zero_refuted"
   ],
   "note": "For a list of required elements, as documented. A single required element 0 that is not in a list is ignored (C63_zero_refuted)."
  },
  {
   "property": "C64",
   "status": "partial",
   "theorems": [
    "C64_three_datasets",
    "C64_average",
    "C64_total_variance",
    "C64_recovers",
    "C64_known_covariance",
    "C64_two_datasets",
    "C64_abs_est_refuted",
    "C64_correlation"
   ],
   "note": "Holds for abs_est=False, and with correlated errors the error model is recovered exactly. With the default abs_est=True signal plus error variance can exceed the total variance (refuted). The solver is assumed to return a solution of the normal equations."
  },
  {
   "property": "C65",
   "status": "partial",
   "theorems": [
    "C65_partial",
    "C65_refuted",
    "C65_one_sided",
    "C65_own_dataset_refuted",
    "C65_share",
    "C65_no_estimate",
    "C65_acceleration",
    "C65_acceleration_affine",
    "C65_levels",
    "C65_tcol_basic",
    "C65_infinite_argument",
    "C65_tcol_BCa"
   ],
   "note": "False of the code: the BCa interval uses alpha instead of alpha/2 (C65_refuted); what holds is that it equals the percentile interval at twice the alpha (C65_partial). Also: one-sided bootstrap distributions raise, and in triple collocation the jackknife values of all three datasets are pooled."
  },
  {
   "property": "C66",
   "status": "partial",
   "theorems": [
    "C66_nearest_valid_refuted",
    "C66_complete_rows_partial"
   ],
   "note": "False of the code: a NaN at the nearest time hides valid values in the window. Holds when no observation has missing cells."
  },
  {
   "property": "C67",
   "status": "partial",
   "theorems": [
    "C67_index_and_distance",
    "C67_index_with_fallback_refuted"
   ],
   "note": "Proved without flags; with flags and use_invalid=True cells of two observations are mixed (refuted)."
  },
  {
   "property": "C68",
   "status": "proved",
   "theorems": [
    "C68_data_within_period",
    "C68_period_slice_rows",
    "C68_reading_errors"
   ],
   "note": "The period slice is that of a chronological index; its end is the last instant of the end date resolution."
  },
  {
   "property": "C69",
   "status": "partial",
   "theorems": [
    "C69_one_file_per_key_partial",
    "C69_mixed_results_refuted",
    "C69_not_repeatable_refuted",
    "C69_missing_time_refuted",
    "C69_time_series",
    "C69_capital_time_refuted",
    "C69_time_names",
    "C69_batches",
    "C69_jobs"
   ],
   "note": "Proved without time series variables for distinct, new file names (C69_one_file_per_key_partial) and with time series variables for any number of jobs and keys (C69_jobs, C69_batches: what every location reads back as). Refuted: colliding names share one file, the input dictionaries are consumed, a missing \"time\" entry fails or silently reuses the time stamps of the previous key. A variable called Time passes the case-insensitive test but is then looked up as time (refuted)."
  },
  {
   "property": "C70",
   "status": "partial",
   "theorems": [
    "C70_anomaly_columns",
    "C70_combined_column",
    "C70_climatology_name_refuted",
    "C70_climatology_columns"
   ],
   "note": "AnomalyAdapter, ColumnCombineAdapter and AnomalyClimAdapter proved for all frames, the last one if no selected column carries the generated name of another; refuted otherwise (C70_climatology_name_refuted)."
  },
  {
   "property": "C71",
   "status": "proved",
   "theorems": [
    "C71_pairwise",
    "C71_intervals",
    "C71_bootstrapped_intervals",
    "C71_rss_interval_refuted"
   ],
   "note": "Over the reals; moments computed by the online algorithm of the model. Refuted for RSS: with bootstrapping its interval is requested but the bounds are always NaN (C71_rss_interval_refuted)."
  },
  {
   "property": "C72",
   "status": "proved",
   "theorems": [
    "C72_leap_years",
    "C72_cycle",
    "C72_leap_years_in_cycle",
    "C72_month_lengths",
    "C72_day_of_year",
    "C72_day_of_year_range",
    "C72_day_without_year",
    "C72_day_of_year_order"
   ],
   "note": "Calendar arithmetic on Z, for all years."
  },
  {
   "property": "C73",
   "status": "partial",
   "theorems": [
    "C73_calculator_input_partial",
    "C73_second_column_refuted"
   ],
   "note": "Proved for combinations in which the scaling reference takes part with its first column (or no scaling). Refuted otherwise: if the combination uses the second column of the scaling reference the calculator receives an extra column, two columns called ref, and data scaled to the second column."
  },
  {
   "property": "C74",
   "status": "partial",
   "theorems": [
    "C74_complete_data",
    "C74_superposition",
    "C74_in_range",
    "C74_overshoot_refuted"
   ],
   "note": "Minimality, sum and linearity proved for orders 1 and 2; staying in the range of the data proved for order 1 and refuted for order 2 (the default)."
  },
  {
   "property": "C75",
   "status": "partial",
   "theorems": [
    "C75_more_iterations",
    "C75_stationary",
    "C75_convergence",
    "C75_gap_values_unchecked_refuted",
    "C75_initial_guess",
    "C75_exclusion",
    "C75_more_iterations_excluded",
    "C75_stationary_excluded"
   ],
   "note": "Monotonicity and stationarity proved for a given smoothing parameter, with and without exclusion mask (C75_exclusion: excluding positions equals marking them as gaps before the call and in the result). Convergence of repeated calls proved without mask (with a mask the fit at excluded positions is not returned, so it cannot be passed on). Refuted: the stopping rule looks at positions with data only, so a call can stop far from the best fit with any tolerance."
  },
  {
   "property": "C76",
   "status": "proved",
   "theorems": [
    "C76_gaps_ignored",
    "C76_numbers",
    "C76_constant_kept"
   ],
   "note": "For usable arguments as defined in DctSpec.v. C76_constant_kept assumes that the nearest-position oracle returns a position with data and that at least one coefficient per axis is kept."
  },
  {
   "property": "C77",
   "status": "partial",
   "theorems": [
    "C77_weights",
    "C77_full_weight",
    "C77_methods",
    "C77_no_mask_refuted",
    "C77_flat_majority",
    "C77_good_positions_refuted",
    "C77_final_weights"
   ],
   "note": "Range and order proved; full weight proved for positive spread and h < 1. Refuted: without mask every weight is 0, and if more than half of the residuals agree every weight is 0."
  },
  {
   "property": "C78",
   "status": "partial",
   "theorems": [
    "C78_flag",
    "C78_converged_refuted",
    "C78_no_data_refuted",
    "C78_no_data",
    "C78_side_products",
    "C78_input_kept_refuted",
    "C78_int_axis",
    "C78_axis_not_square",
    "C78_axis_square",
    "C78_negative_weights_refuted",
    "C78_too_few",
    "C78_negative_weight",
    "C78_nan",
    "C78_axes_rejected",
    "C78_axes_last",
    "C78_iteration"
   ],
   "note": "The possible flags are characterised. Refuted: flag 1 without convergence, flag 1 without any data, input overwritten at gaps, distance never returned, axis raises or acts on another axis, weights that are all negative accepted."
  },
  {
   "property": "C79",
   "status": "proved",
   "theorems": [
    "C79_unit"
   ],
   "note": "For a given smoothing parameter and NaN as gap value; exact arithmetic."
  },
  {
   "property": "C80",
   "status": "partial",
   "theorems": [
    "C80_job_order",
    "C80_schedule_independent",
    "C80_two_failures_tolerated",
    "C80_terminates",
    "C80_no_deadlock",
    "C80_files_partial",
    "C80_no_save_path",
    "C80_jobs_undefined_refuted",
    "C80_finished_results_lost_refuted",
    "C80_restart_duplicates_refuted"
   ],
   "note": "Order, schedule independence, retries, termination and absence of deadlock proved for any job processing and storing functions; C80_files_partial is for the histories of C37; start_processing never names time series variables, so metrics that return time series cannot be stored this way at all. Refuted: finished results are lost when an earlier job fails three times, a restart stores finished locations twice, missing jobs raise although the code tests for them."
  },
  {
   "property": "C81",
   "status": "partial",
   "theorems": [
    "C81_crash_keeps_stored_results",
    "C81_all_assignments",
    "C81_complete_calls_survive_partial",
    "C81_incomplete_location_refuted",
    "C81_first_call_killed_refuted"
   ],
   "note": "Each assignment to a netCDF variable is taken as atomic and durable. Earlier results are kept for every crash point; later calls are correct if the first call on the file was complete. Refuted: half-written locations stay in the file, and after a crash of the first call values are read at another location."
  },
  {
   "property": "C82",
   "status": "partial",
   "theorems": [
    "C82_range",
    "C82_rolling_range",
    "C82_nan_only_for_zero_variance",
    "C82_missing_value_gives_minus_one",
    "C82_missing_is_nan_refuted",
    "C82_underflow_refuted"
   ],
   "note": "The range is proved for all inputs. Refuted: a missing value gives exactly -1 with p-value 0 (proved for all series unless the other variance is 0), and underflow of the product of variances gives -1 for uncorrelated series. betainc is an oracle."
  },
  {
   "property": "C83",
   "status": "partial",
   "theorems": [
    "C83_exchange",
    "C83_correlation_exchange_refuted",
    "C83_self_is_zero",
    "C83_self_correlation",
    "C83_self_correlation_refuted"
   ],
   "note": "Proved bit for bit for RSS, MSD, RMSD, ubRMSD, two MSE components and (up to the sign of zero) the bias; self-correlation 1 if the square of the variance neither underflows nor overflows. Refuted: the correlation is not symmetric in the last bits; for tiny data the correlation of a series with itself is 25/32."
  },
  {
   "property": "C84",
   "status": "partial",
   "theorems": [
    "C84_nonneg",
    "C84_variances",
    "C84_variance_overflow_refuted",
    "C84_mean_in_range",
    "C84_moving_average_refuted",
    "C84_rolling_nonneg",
    "C84_rolling_constant_window_refuted",
    "C84_rolling_equal_window_refuted",
    "C84_rolling_windows",
    "C84_mse_parts"
   ],
   "note": "Proved for all inputs for sums of squares and their roots, for finite variances and Welford's means. Refuted: variance minus infinity after overflow, moving averages outside the range of the data, and in moving windows correlation -1 for a constant window and RMSD NaN for equal series, because removing values from the sums is not exact."
  },
  {
   "property": "C85",
   "status": "proved",
   "theorems": [
    "C85_bias_error",
    "C85_RSS_error",
    "C85_msd_error",
    "C85_mean_error",
    "C85_exactness_refuted"
   ],
   "note": "Bounds 2(n+k)u times the mean absolute value plus a tiny absolute term for underflow. Not covered: Welford's moments, the square roots, float32 data whose square roots are taken in double."
  },
  {
   "property": "C86",
   "status": "partial",
   "theorems": [
    "C86_min_max_order",
    "C86_min_max_lower",
    "C86_min_max_upper_bound",
    "C86_min_max_upper_refuted"
   ],
   "note": "Order, lower end and exact minimum proved, the upper end up to rounding errors. Refuted: the maximum can exceed or miss the maximum of the reference."
  },
  {
   "property": "C87",
   "status": "partial",
   "theorems": [
    "C87_unique_values",
    "C87_equal_ends_refuted",
    "C87_integers_refuted",
    "C87_doubles_refuted",
    "C87_no_missing",
    "C87_missing",
    "C87_missing_refuted"
   ],
   "note": "Proved for sorted exact numbers whose first and last value differ, with at most as many sweeps as elements; with missing values, that whatever is returned has distinct values and the missing value where it was. Refuted: arrays with equal ends (so all constant arrays), integer arrays with more elements than integers in their range, neighbouring doubles and arrays with two missing values never return (NumPy 1.21 or later, whose unique takes all NaN for one value). The function is not called within the package."
  },
  {
   "property": "C88",
   "status": "partial",
   "theorems": [
    "C88_choice",
    "C88_bounds",
    "C88_range",
    "C88_average_influence",
    "C88_score",
    "C88_documented_score_refuted",
    "C88_parameter_kept"
   ],
   "note": "The trace is proved to be the sum over positions of the influence of the value there. Refuted: with gaps the score is divided by the number of all positions, not by n - n_miss. The average influence is proved for orders 1 and 2 in one dimension (in more dimensions the code uses the n-th power as an approximation). The search itself (fminbound) is a parameter."
  },
  {
   "property": "C89",
   "status": "proved",
   "theorems": [
    "C89_nearest_observations",
    "C89_common_observations",
    "C89_run"
   ],
   "note": "For calculators over all configured datasets (n = number of datasets); the delivered frames have distinct columns and monotone times after removal of repetitions. Scaling and masking are the subject of C73 and C34."
  },
  {
   "property": "C90",
   "status": "partial",
   "theorems": [
    "C90_own_entry",
    "C90_split",
    "C90_order",
    "C90_masked_reference_refuted"
   ],
   "note": "Proved for calculators that always return the same fields, as long as no reference is masked away completely; otherwise the later entries move (refuted). The cast to the dtype of the first entry is covered by C100."
  },
  {
   "property": "C91",
   "status": "proved",
   "theorems": [
    "C91_order",
    "C91_order_triples",
    "C91_unit",
    "C91_reversed"
   ],
   "note": "Over the reals; both series must change to the same unit except for the correlation."
  },
  {
   "property": "C92",
   "status": "partial",
   "theorems": [
    "C92_cdf_match",
    "C92_predict",
    "C92_min_max",
    "C92_mean_std",
    "C92_linreg_partial",
    "C92_linreg_refuted",
    "C92_frame",
    "C92_cdf_frames"
   ],
   "note": "Proved for CDF matching, min_max, mean_std and whole frames; false of linreg (refuted): it applies the absolute value of a negative slope but the intercept of the signed one, so the result depends on the zero point of the source. Proved for linreg with non-negative slopes or an unchanged zero point."
  },
  {
   "property": "C93",
   "status": "partial",
   "theorems": [
    "C93_boxcar",
    "C93_anomaly_moving_average",
    "C93_marker_refuted",
    "C93_mean_is_average",
    "C93_climatology_partial",
    "C93_filled_spread_refuted",
    "C93_anomaly_climatology",
    "C93_exponential_filter",
    "C93_climatology_rows",
    "C93_leapday_std_refuted",
    "C93_climatology_factor"
   ],
   "note": "False of the code for values that reach the number -999999 (taken for missing), for filled standard deviations, which are filled with the fill value of the climatology, and for the leap day interpolated together with standard deviations (all refuted). Proved for all other rows and options, and completely for changes of the factor alone."
  },
  {
   "property": "C94",
   "status": "proved",
   "theorems": [
    "C94_collocation",
    "C94_combined_collocation",
    "C94_combinatory_matcher",
    "C94_combined_matcher",
    "C94_rolling",
    "C94_index_and_distance",
    "C94_mean"
   ],
   "note": "With and without the columns index_other and distance_other."
  },
  {
   "property": "C95",
   "status": "partial",
   "theorems": [
    "C95_masked_observations",
    "C95_scaled_point",
    "C95_scaled_common",
    "C95_run"
   ],
   "note": "Proved for a scaling reference with one column (with several the code is wrong, C73), calculators over all datasets, and masking by the default matcher with a temporal reference without repeated times or missing values. An error while scaling one combination gives every combination of the grid point the status SCALING_FAILED."
  },
  {
   "property": "C96",
   "status": "partial",
   "theorems": [
    "C96_aware_reference",
    "C96_naive_reference",
    "C96_no_zones",
    "C96_zone_of_other",
    "C96_zone_of_reference",
    "C96_no_such_time",
    "C96_combined_aware",
    "C96_combined_no_zones",
    "C96_combined_naive",
    "C96_combined_fixed",
    "C96_reference_kept",
    "C96_mean_clock_change_refuted",
    "C96_zones_of_others_refuted",
    "C96_utc_assumed_refuted",
    "C96_reference_changed_refuted"
   ],
   "note": "False of the code in four cases: means measure the window on the wall clock, so it is wrong around a clock change (C96_mean_clock_change_refuted); a reference without zone and others in different zones give two rows per reference time (C96_zones_of_others_refuted); the documented UTC is not assumed (C96_utc_assumed_refuted); the caller's reference gets a new index (C96_reference_changed_refuted). Proved otherwise: nearest in all zones, means in zones with fixed offset."
  },
  {
   "property": "C97",
   "status": "partial",
   "theorems": [
    "C97_timespan",
    "C97_outside_span",
    "C97_timespan_raises",
    "C97_range",
    "C97_median_is_middle",
    "C97_anomalies_add_up_to_zero",
    "C97_anomaly_frame",
    "C97_monthly_climatology_refuted",
    "C97_median_even",
    "C97_no_span"
   ],
   "note": "False for monthly climatologies: calc_anomaly looks them up by the day of the year (C97_monthly_climatology_refuted). The range excludes the combination of std and interpolate_leapday, where C12_leapday_with_std_refuted applies. The zero sum needs the same treatment of leap years in both functions (C11_default_options_refuted)."
  },
  {
   "property": "C98",
   "status": "partial",
   "theorems": [
    "C98_one_read",
    "C98_new_frames",
    "C98_guarded_reads",
    "C98_combine_again",
    "C98_select_accumulates",
    "C98_anomaly_again_refuted",
    "C98_other_dataset_refuted",
    "C98_combine_all_again_refuted",
    "C98_half_changed_refuted",
    "C98_zone_dropped_refuted",
    "C98_select_set_nan_refuted",
    "C98_mask_frame"
   ],
   "note": "Proved for readers that return a new frame each time, and for readers that return the same frame if a masking or timestamp adapter comes before the first adapter that computes columns. False otherwise: the anomaly and combining adapters assign into the reader's frame (the _refuted theorems). TsDistributor.select with set_nan assigns into the caller's frame as well."
  },
  {
   "property": "C99",
   "status": "partial",
   "theorems": [
    "C99_fields",
    "C99_symmetric_metrics",
    "C99_symmetric_decomposition",
    "C99_order_of_columns",
    "C99_triple_order",
    "C99_nash_sutcliffe_refuted",
    "C99_first_columns_refuted",
    "C99_names_refuted",
    "C99_tcol_snr_refuted",
    "C99_characters",
    "C99_frame_order_ratios",
    "C99_frame_order",
    "C99_three_columns_order",
    "C99_missing_order_refuted"
   ],
   "note": "Holds for column names that are identifiers without the word and, and for the metrics wrapped as symmetric other than nash_sutcliffe, whose two directions differ. A metric that raises for the first two columns raises for the whole frame; unusual names raise; tcol_snr ignores its reference argument. Triple collocation of whole frames does not depend on the order of the columns if no value is missing and the reference is the first column or there are three columns; with missing values the order decides whether there is a result (refuted)."
  },
  {
   "property": "C100",
   "status": "partial",
   "theorems": [
    "C100_location",
    "C100_text",
    "C100_metric",
    "C100_correlation",
    "C100_join",
    "C100_rolling_same_length",
    "C100_location_refuted",
    "C100_text_refuted",
    "C100_metric_refuted",
    "C100_rolling_refuted"
   ],
   "note": "Holds for ids that fit 32 bits, texts that fit their field and metrics in the range of single precision. Refuted otherwise: larger ids wrap around to other ids, texts are cut, large metrics become infinite; and the moving-window metrics of locations with different numbers of observations cannot be joined, so that the results of all are lost."
  },
  {
   "property": "C101",
   "status": "partial",
   "theorems": [
    "C101_lists",
    "C101_single",
    "C101_shortest",
    "C101_jobs",
    "C101_basic_grid",
    "C101_lengths_refuted",
    "C101_empty_refuted",
    "C101_keys_refuted",
    "C101_basic_grid_refuted",
    "C101_read_as"
   ],
   "note": "Proved for single values, for sequences of equal positive length and for the jobs of grids with cells. Refuted otherwise: sequences of different lengths lose locations without a message, empty sequences give one location whose id is an empty sequence, the metadata of a single location given as a dictionary raises KeyError, and the jobs of a grid without cells are the three arrays of one job."
  },
  {
   "property": "C102",
   "status": "partial",
   "theorems": [
    "C102_agree",
    "C102_agree_centred",
    "C102_rmsd",
    "C102_few_refuted",
    "C102_constant_refuted",
    "C102_ties_refuted",
    "C102_single",
    "C102_single_p_refuted"
   ],
   "note": "Proved wherever the window has enough samples and both series vary in it; without variation still for the correlation (missing in both) and the RMSD. With its storage in 32 bits the direct computation agrees to single precision for correlation and RMSD. Refuted otherwise: the p-value is computed from the stored correlation, so that a correlation just below 1 gets the p-value 0; with too few samples the direct computation leaves its RMSD entry uninitialised, with a constant series it stores a p-value beside a missing correlation, and in trailing windows it also uses later samples of the same time. Arithmetic between two assignments is exact."
  },
  {
   "property": "C103",
   "status": "partial",
   "theorems": [
    "C103_defaults",
    "C103_independent",
    "C103_shared_masking_refuted",
    "C103_manager_refuted",
    "C103_manager_never",
    "C103_accepted",
    "C103_manager_contents"
   ],
   "note": "Proved for all sequences of constructions that use the masking dictionary only with the same datasets and temporal reference. Refuted: a masking dictionary shared by two validations with different temporal references makes the first one mask against the reference of the second; masking raises TypeError when the datasets are given as a DataManager, which the documentation allows. Lookup tables and upscaling are not part of the model."
  },
  {
   "property": "C104",
   "status": "partial",
   "theorems": [
    "C104_windows",
    "C104_whole_days",
    "C104_hours_refuted",
    "C104_half_hours_refuted",
    "C104_parts_of_days"
   ],
   "note": "Proved in IEEE 754 double arithmetic for windows of whole days, or of any multiple of 675 seconds (12, 6, 3 hours, 90, 45 minutes, ...), and time stamps in whole milliseconds, and for all windows from which no distance of two time stamps differs by less than 200 microseconds. Refuted for samples exactly at the edge of windows such as one hour or half an hour: whether they count depends on the time of day. Equality of the values is proved as long as the window contains the first sample; afterwards samples are taken out with rounding errors."
  },
  {
   "property": "C105",
   "status": "proved",
   "theorems": [
    "C105_range",
    "C105_constant",
    "C105_first_and_past",
    "C105_exp_met",
    "C105_exact_range_refuted",
    "C105_step_back_refuted",
    "C105_step_back_gap_refuted"
   ],
   "note": "IEEE 754 arithmetic with the single precision variables of the code; exp of the C library is a parameter of which the correctly rounded function is shown to meet all assumptions. Beyond the claim: without the allowance for rounding the range is refuted; for series that are not chronological one step back of 89 characteristic times makes the filter ignore all later data, or return only NaN after a further gap."
  },
  {
   "property": "C106",
   "status": "proved",
   "theorems": [
    "C106_window",
    "C106_julian",
    "C106_whole_window",
    "C106_range",
    "C106_percentages",
    "C106_constant",
    "C106_edge_refuted",
    "C106_constant_refuted"
   ],
   "note": "IEEE 754 arithmetic with the single precision window of the code; Julian dates are given (with an error bound, or correctly rounded). Beyond the claim: without the allowances it is refuted: a window of 10 hours does not use samples 5 hours away while a window of 4 hours uses samples 2 hours away, and the average of three times 0.7 is below 0.7."
  },
  {
   "property": "C107",
   "status": "partial",
   "theorems": [
    "C107_mean_std_order",
    "C107_linreg_order",
    "C107_mean_std_error",
    "C107_min_max_constant",
    "C107_strict_order_refuted",
    "C107_constant_refuted",
    "C107_identity_refuted"
   ],
   "note": "Order and errors proved, also through overflow and infinities; the error is relative to the mean and spread numpy computed. Refuted: mean_std of three times 0.1 is not NaN but one standard deviation below the mean of the reference, because the computed mean is larger than 0.1. Beyond the claim: different values can become equal, and scaling a series to itself does not always give it back."
  },
  {
   "property": "C108",
   "status": "partial",
   "theorems": [
    "C108_windows",
    "C108_parts_of_days",
    "C108_error",
    "C108_range",
    "C108_hours_refuted"
   ],
   "note": "Proved for times in whole milliseconds and windows that are a multiple of 675 seconds (the 128th part of a day: 24, 12, 6, 3 hours, 90, 45 minutes, ...), and for all windows from whose edges every observation keeps 200 microseconds. Refuted for observations exactly at the edge of other windows: with a window of one hour the observation one hour before three o'clock is used, the one before two o'clock is not."
  },
  {
   "property": "C109",
   "status": "partial",
   "theorems": [
    "C109_array",
    "C109_list_same_or_error",
    "C109_list_error",
    "C109_no_ties",
    "C109_different_observations",
    "C109_fine_steps",
    "C109_list_refuted"
   ],
   "note": "Proved: a list gives the same result as an array or a TypeError, and the error occurs exactly if the percentiles are used as given (no bin resized) and two percentiles of the source or the reference have the same value while the sample is not constant. Refuted in general: a source with many zeros and the default percentiles of CDFStoreParamsScaler raise TypeError when given as a list. Infinite values are not modelled."
  },
  {
   "property": "C110",
   "status": "partial",
   "theorems": [
    "C110_entries",
    "C110_recovers",
    "C110_column_name_refuted",
    "C110_pair_names_refuted",
    "C110_complete_rows",
    "C110_frame_afterwards",
    "C110_frame_kept",
    "C110_frame_changed_refuted",
    "C110_again",
    "C110_few_rows",
    "C110_zero_covariance",
    "C110_constant_column",
    "C110_unknown_name",
    "C110_column_order"
   ],
   "note": "Proved: every entry holds the estimate of its column or pair unless two names coincide, only complete rows count, a second call gives the same, the order of the columns does not matter, unknown names raise KeyError, a constant column or fewer than two rows make every entry non-finite. Refuted: a column called like a pair (cov_a_b) loses its error variance; two pairs joined to the same name lose one covariance; incomplete rows are removed from the caller's frame."
  },
  {
   "property": "C111",
   "status": "partial",
   "theorems": [
    "C111_doubles",
    "C111_doubles_damped",
    "C111_slow_waves_kept",
    "C111_different",
    "C111_integers_refuted",
    "C111_power_of_ten",
    "C111_initial_guess"
   ],
   "note": "The property is false: the eigenvalues, the exponent of the chosen smoothing parameter and the initial guess are cut to integers. Proved: for doubles the conversions change nothing; for integers every wave with a period of more than six positions along each axis passes unsmoothed whatever the parameter, so the results differ whenever the data contain such a wave; a chosen parameter is a power of ten; the initial guess consists of integers. Missing: a closed form for faster waves, whose eigenvalues depend on rounding of exact integers, and integer data with weights."
  },
  {
   "property": "C112",
   "status": "proved",
   "theorems": [
    "C112_units"
   ],
   "note": "Exact arithmetic. An error variance or a pair whose key is shared with another entry (C110) is left out."
  },
  {
   "property": "C113",
   "status": "partial",
   "theorems": [
    "C113_correlations_nested",
    "C113_bias_nested",
    "C113_ubrmsd_nested",
    "C113_bootstrap_nested",
    "C113_BCa_nested",
    "C113_correlations_sign",
    "C113_bias_exchanged",
    "C113_bias_units",
    "C113_bootstrap_units",
    "C113_kendall_refuted"
   ],
   "note": "Proved except for the reference of one function: the interval of Kendall tau is less than two thirds as wide, on the scale of arctanh, as the formula of Bonett and Wright (2000) it cites, for every sample (refuted). BCa intervals are nested while the bias correction and the quantile together stay below 6 (the acceleration is proved to be at most 1/6), and follow positive factors."
  },
  {
   "property": "C114",
   "status": "partial",
   "theorems": [
    "C114_times_read_back",
    "C114_unchanged",
    "C114_half_hours",
    "C114_near",
    "C114_order",
    "C114_midnight",
    "C114_after_2079_refuted"
   ],
   "note": "Proved for time stamps until 2079-06-06 (nanoseconds are cut off). After that only full and half hours survive exactly; other time stamps can be read one microsecond off and two different ones can get the same number (refuted). date2num and num2date are modelled as one correctly rounded division and one product in 80-bit long double; years after 2185 are not covered."
  },
  {
   "property": "C115",
   "status": "partial",
   "theorems": [
    "C115_first_call",
    "C115_kept",
    "C115_caller",
    "C115_used_again",
    "C115_time_coordinate_refuted",
    "C115_tuple_refuted",
    "C115_caller_refuted",
    "C115_found_by_coordinates",
    "C115_there_and_back"
   ],
   "note": "Proved, except for three defects: variables of time series do not name the time among their coordinates, add_result drops the attributes of results named by tuples, and the dictionary of the caller gets coordinates added (nothing else, and using it again gives the same attributes)."
  },
  {
   "property": "C116",
   "status": "partial",
   "theorems": [
    "C116_calculator_columns",
    "C116_reference_column",
    "C116_dataset_names",
    "C116_dataset_names_errors",
    "C116_names_of_columns",
    "C116_ref_refuted",
    "C116_name_changes_sign_refuted",
    "C116_intercomparison_refuted",
    "C116_fewer_datasets_refuted",
    "C116_renaming",
    "C116_renaming_keeps_order"
   ],
   "note": "Columns follow the alphabetical order of the dataset names, so \"ref\" is the reference exactly if its name comes first. get_dataset_names is proved to return the reference and the first other datasets in alphabetical order; for all datasets at once this is the order of the columns of every combination. False: \"ref\" is the reference (the sign of the bias depends on the name of the reference, and IntercomparisonMetrics may compute no metrics with the reference), and names for fewer datasets describe some of the combinations only. New names in the same alphabetical order change no metric (default matcher, no scaling and masking)."
  },
  {
   "property": "C117",
   "status": "partial",
   "theorems": [
    "C117_one_fit",
    "C117_which_can_be_scaled",
    "C117_one_pair",
    "C117_pairs_refuted",
    "C117_second_column_refuted"
   ],
   "note": "With one column per dataset every column is scaled with a table fitted on the same dataset and the scaling reference, in one combination of the grid point. False: the second column of a dataset is scaled with the table of the first one, because only the name of the dataset is part of the key; and pairs of the scaling reference with different datasets cannot all be scaled, because the tables are stored with the first pair only (each pair alone can)."
  },
  {
   "property": "C118",
   "status": "partial",
   "theorems": [
    "C118_other_datasets",
    "C118_other_datasets_scaled",
    "C118_missing_dataset_refuted",
    "C118_combined_matcher_refuted",
    "C118_scaling_refuted"
   ],
   "note": "Proved for the default matcher when all datasets have data at the location and no scaling fails, also with masking (calculators over all datasets, a temporal reference in the order of time, a scaling reference with one column). False otherwise: a dataset without data at a location, or one that cannot be scaled there, takes the metrics of all other combinations with it, and the combined matcher leaves out the times at which any dataset has no value (as documented)."
  },
  {
   "property": "C119",
   "status": "partial",
   "theorems": [
    "C119_handle_errors",
    "C119_only_with_reference",
    "C119_only_with_reference_raise",
    "C119_only_with_reference_refuted"
   ],
   "note": "Proved for handle_errors without restriction. Proved for only_with_reference unless there is a grid point at which only combinations without the reference fail: there, with handle_errors=\"ignore\", the failure of such a combination replaces the metrics of all combinations by empty results, which only_with_reference=True avoids."
  },
  {
   "property": "C120",
   "status": "partial",
   "theorems": [
    "C120_min_max",
    "C120_min_max_itself",
    "C120_linreg",
    "C120_linreg_twice",
    "C120_linreg_itself",
    "C120_linreg_twice_refuted",
    "C120_mean_std",
    "C120_mean_std_itself",
    "C120_cdf_itself",
    "C120_cdf_twice_refuted"
   ],
   "note": "In exact arithmetic. min_max and mean_std: all three claims, for series that are not constant. Linear regression: for rising regressions; a falling one is changed again by the second application (the absolute value of the slope is used). CDF matching: a series matched to itself is unchanged under all options; matching twice can change the result, because percentiles between two observations move."
  },
  {
   "property": "C121",
   "status": "partial",
   "theorems": [
    "C121_other_reference_times",
    "C121_at_reference",
    "C121_twice",
    "C121_twice_dropna",
    "C121_twice_dropna_refuted",
    "C121_mean_at_reference",
    "C121_mean_twice_refuted"
   ],
   "note": "Nearest collocation: proved for data and reference in the order of time; with dropna=True for the times that are left. Refuted with dropna=True for the original reference times (a dropped time takes the value of a neighbour, so that an observation further away than the window is used) and for mean collocation in general (means are averaged again); proved for means when the times are further apart than the window."
  },
  {
   "property": "C122",
   "status": "partial",
   "theorems": [
    "C122_distances",
    "C122_bias_aad",
    "C122_mad_refuted",
    "C122_correlations"
   ],
   "note": "Proved for rmsd, ubrmsd, aad, bias and pearson_r in exact arithmetic. Refuted for the median absolute difference (mad): it can be 0 for two pairs and 9 for the third."
  },
  {
   "property": "C123",
   "status": "partial",
   "theorems": [
    "C123_stack",
    "C123_order",
    "C123_again",
    "C123_opposite",
    "C123_combined_column",
    "C123_anomaly_refuted",
    "C123_timestamp",
    "C123_timestamp_refuted"
   ],
   "note": "Proved for filters whose operators and columns exist. A mask and the timestamp adapter can be exchanged if an observation with a base time passes the mask (distinct times in whole seconds); if none does, the adapter below or above gives another index and other columns, and rows without base time stay (refuted). For adapters that compute anomalies the order does matter: masked values take part in the moving average if the mask is outside (refuted with a witness)."
  },
  {
   "property": "C124",
   "status": "proved",
   "theorems": [
    "C124_moving_average",
    "C124_climatology",
    "C124_sum",
    "C124_errors"
   ],
   "note": "Proved for distinct selected columns and, with return_clim, for frames without columns of the names to be added (C70_climatology_name_refuted shows what happens otherwise). The value -999999 counts as missing (C07). Which climatology entry is used for which day is C11, with its defect for common years."
  },
  {
   "property": "C125",
   "status": "partial",
   "theorems": [
    "C125_basic",
    "C125_plus_mse",
    "C125_intercomparison",
    "C125_urmsd",
    "C125_urmsd_refuted",
    "C125_few_refuted",
    "C125_triple",
    "C125_tc_pairs",
    "C125_hsaf_pairs",
    "C125_hsaf_triple",
    "C125_err_var_refuted"
   ],
   "note": "Proved for the triple collocation estimates of TCMetrics, TripleCollocationMetrics and (per season) HSAF_Metrics (C125_triple, C125_hsaf_triple), for the pairs of IntercomparisonMetrics, TCMetrics and HSAF_Metrics (C125_intercomparison, C125_tc_pairs, C125_hsaf_pairs; R, p_R, rho, p_rho only for the latter, of the whole data whatever the season) and for R, p_R, rho, p_rho, tau, p_tau, BIAS, RMSD, RSS, mse and its parts, n_obs and status, in exact arithmetic. Fails for \"urmsd\": IntercomparisonMetrics scales to the reference first, so that its number is the standard deviation of the reference times sqrt(2 (1 - R)) (C125_urmsd), PairwiseIntercomparisonMetrics does not (C125_urmsd_refuted). What HSAF_Metrics calls err_var is the standard deviation (C125_err_var_refuted). With too few observations BasicMetrics reports 0 observations (C125_few_refuted). scipy.stats.pearsonr is assumed to be the correlation with the p-value of the incomplete beta function."
  },
  {
   "property": "C126",
   "status": "partial",
   "theorems": [
    "C126_reference_times",
    "C126_near_observations",
    "C126_larger_window",
    "C126_larger_window_mean",
    "C126_run_window",
    "C126_run_period",
    "C126_period_refuted"
   ],
   "note": "Proved for collocation without flags (with flags the lengths are compared with the reference, C04); a mean in a larger window is still a mean, though another one. The period is false at its ends: data outside the period are cut before matching, so that an observation further away is matched instead of the nearest one (C126_period_refuted); proved for all times further from the ends than the window."
  },
  {
   "property": "C127",
   "status": "partial",
   "theorems": [
    "C127_trend",
    "C127_trend_ends_refuted",
    "C127_cycle",
    "C127_mean_of_year",
    "C127_no_wrap_refuted"
   ],
   "note": "At the ends of a series (window not filled symmetrically) a trend shows up as an anomaly (C127_trend_ends_refuted), and with wraparound=False the mean of the year changes (C127_no_wrap_refuted). The statement on cycles is for climatologies by day without smoothing and series spaced wider than half the moving window."
  },
  {
   "property": "C128",
   "status": "partial",
   "theorems": [
    "C128_exp_superposition",
    "C128_exp_fading",
    "C128_exp_forgets",
    "C128_average_superposition",
    "C128_average_bounded",
    "C128_anomaly_bounded",
    "C128_marker_refuted"
   ],
   "note": "In exact arithmetic (rounding: C105, C106). A value or sum equal to the marker -999999 of the filters is taken as missing, so the statement fails there (C128_marker_refuted); proved for all series without it."
  },
  {
   "property": "C129",
   "status": "partial",
   "theorems": [
    "C129_pieces",
    "C129_between",
    "C129_seasons",
    "C129_correlation_refuted",
    "C129_repeated"
   ],
   "note": "Correlations do not follow from those of the parts: positive in each season, negative over the year (C129_correlation_refuted, a fact about the metric rather than a defect). The seasonal adapter is proved for BasicMetrics, data without gaps and parts with at least min_obs observations."
  },
  {
   "property": "C130",
   "status": "partial",
   "theorems": [
    "C130_mean_std",
    "C130_min_max",
    "C130_linreg",
    "C130_linreg_best",
    "C130_linreg_negative_refuted",
    "C130_linreg_zero_refuted"
   ],
   "note": "Proved for mean_std and min_max. For linreg the correlation is kept unless the slope is zero, where it becomes undefined (C130_linreg_zero_refuted); bias and optimality are proved for slopes that are not negative and false for negative ones, since the absolute slope is used: scaling then enlarges the difference and introduces a bias (C130_linreg_negative_refuted)."
  },
  {
   "property": "C131",
   "status": "partial",
   "theorems": [
    "C131_missing_is_nan",
    "C131_rolling_after_missing",
    "C131_window_refuted",
    "C131_min_max_missing"
   ],
   "note": "Proved for the metrics of whole series (for the correlation see C82: it becomes -1). False for the rolling metrics: the running sums stay NaN after the missing value has left the window, so that no later row has an RMSD and every later correlation is -1 with p-value 0 or NaN (C131_rolling_after_missing for all inputs, C131_window_refuted a witness). Within the validation framework rows with missing values are dropped before."
  },
  {
   "property": "C132",
   "status": "partial",
   "theorems": [
    "C132_both",
    "C132_correlation",
    "C132_correlation_refuted",
    "C132_opposite_series",
    "C132_filters",
    "C132_moving_average",
    "C132_moving_average_refuted",
    "C132_collocation",
    "C132_correlation_always",
    "C132_rolling_one",
    "C132_rolling_both"
   ],
   "note": "Up to the sign of zeros. Whatever the data are, the correlation changes its sign and the p-value stays, or both are reported as -1 with p-value 0 (C132_correlation_always, for every row of the rolling metrics C132_rolling_one); the latter happens only if the covariance divided by the standard deviations is NaN, as with a missing value (C132_correlation, C132_correlation_refuted). A series and its opposite have correlation -1 and p-value 0 unless the square of the variance underflows or overflows. The filters if neither the marker of missing values nor its opposite occurs (C132_moving_average_refuted: 999999 is averaged, -999999 is missing)."
  },
  {
   "property": "C133",
   "status": "partial",
   "theorems": [
    "C133_moving_average",
    "C133_collocation",
    "C133_exponential",
    "C133_climatology",
    "C133_exponential_refuted",
    "C133_marker_refuted"
   ],
   "note": "Moving averages and collocation by means in IEEE 754 arithmetic (finite values, overflow included), the exponential filter and climatologies in exact arithmetic. Refuted for the exponential filter with rounding: raising -0.7 to the next double can lower the filtered value by one unit in the last place (C133_exponential_refuted). The number -999999 marks missing values: raising a value to it removes it, and averages can fall (C133_marker_refuted). Climatologies: values above -999999, and not std together with interpolate_leapday, where the leap day mixes both columns (C12_leapday_with_std_refuted)."
  },
  {
   "property": "C134",
   "status": "partial",
   "theorems": [
    "C134_bias",
    "C134_rss",
    "C134_msd",
    "C134_bias_zero",
    "C134_order",
    "C134_collocation",
    "C134_moving_average",
    "C134_order_refuted",
    "C134_offset",
    "C134_rss_zero",
    "C134_offset_refuted",
    "C134_rss_zero_refuted",
    "C134_bias_between",
    "C134_bias_rmsd",
    "C134_bias_rmsd_refuted"
   ],
   "note": "IEEE 754 double arithmetic, exponents of the grid from -1074 (-537 where squares occur) to 950 (475). Moving averages: dates between 2097152 and 4194304 (Julian dates); collocation: times in whole milliseconds and windows that are multiples of 675 seconds (C108). On the grid an offset added to both columns changes nothing (C134_offset), the residual sum of squares is zero for equal columns only (C134_rss_zero), the bias lies between the smallest and the largest difference (C134_bias_between) and its absolute value is not above the RMSD (C134_bias_rmsd; sum of squares up to 2^52). Off the grid the order of the pairs changes the bias (0.1, 0.2, 0.3 against zeros, forwards and backwards: C134_order_refuted), an offset does (C134_offset_refuted), squares can underflow to zero (C134_rss_zero_refuted), and the bias of three times 0.1 against 0 is above 0.1 and above the RMSD (C134_bias_rmsd_refuted). Variances and correlations are accumulated by divisions (Welford), so they are not exact on a grid either and are not part of the property."
  },
  {
   "property": "C135",
   "status": "partial",
   "theorems": [
    "C135_moving_average",
    "C135_anomaly",
    "C135_mean",
    "C135_nearest",
    "C135_nearest_refuted"
   ],
   "note": "Exact arithmetic. Nearest neighbours: for reference times that are not halfway between two observations; halfway the later one is taken in both directions, so that the results differ (C135_nearest_refuted). The exponential filter uses past observations only and is not part of the property."
  },
  {
   "property": "C136",
   "status": "partial",
   "theorems": [
    "C136_moments",
    "C136_correlation",
    "C136_mse",
    "C136_ubrmsd_refuted",
    "C136_infinite_refuted",
    "C136_ubrmsd_grid"
   ],
   "note": "Holds for the moments, the correlation and the decomposition of the MSE. ubRMSD takes its means from plain sums: it is exactly zero for constant columns on a power-of-two grid (C136_ubrmsd_grid), but three times 0.1 against 0 give a positive ubRMSD (C136_ubrmsd_refuted). A column of infinities is not recognised as constant (C136_infinite_refuted). Rolling windows: see C84_rolling_constant_window_refuted."
  },
  {
   "property": "C137",
   "status": "partial",
   "theorems": [
    "C137_bias",
    "C137_mean",
    "C137_rss",
    "C137_rmsd",
    "C137_ten_refuted",
    "C137_underflow_refuted",
    "C137_ubrmsd",
    "C137_collocation",
    "C137_moving_average",
    "C137_sentinel_refuted"
   ],
   "note": "Bias and averages: above the smallest normal number in the smaller unit; RSS, MSD and RMSD: differences that are zero or at least 2^-480; ubRMSD: both conditions, for the means and for what remains of the pairs without them. Collocation by means: windows that are multiples of 675 s and times in whole milliseconds (as in C108). Moving average: samples missing in one unit are missing in the other; as missing values may be written as -999999 this is not automatic (C137_sentinel_refuted). Sums and differences need no condition on small numbers. With underflow the claim fails (C137_underflow_refuted), and so it does for factors that are no powers of two (C137_ten_refuted). Factors below one follow by exchanging the two units. Missing: the correlation and the decomposition of the MSE."
  }
 ]
}