# Formal model of pytesmo in Rocq (Coq 8.16.1)

This document was written before the proofs.  It says what is modelled, how,
what each property's proof plan is, and what has to be trusted.
Property ids refer to `properties.jsonl`.  Results (which theorem settles which
property) are in `MANIFEST.json`; section 6 records the findings, section 7 the
trusted base.

## 1. Conventions

* All files live in `rocq/theories/`.  Every area `X` has
  `XModel.v` (definitions only, each with a `file:lines` citation),
  `XSpec.v` (a small independent specification, no reference to model helpers),
  `XProofs.v` (lemmas), `XProps.v` (property theorems closed by `exact`,
  `Print Assumptions`, and non-vacuity `Example`s).
* A model function mirrors the python function branch by branch.  Loops are
  structural recursion or explicit fuel bounded by the container length.
* Exceptions are values (`Err e` in a result type).  `NaN`/missing is `None`.
* Names (datasets, columns, metrics) are `string`; python tuples of names are
  lists or pairs.  Python `sorted` on names is insertion sort with
  `String.compare`-based lexicographic order (code points = `ascii`).
* Time stamps are `Z` (an arbitrary tick: nanosecond, second, ... whichever unit
  the code uses); windows/tolerances are `Z` in the same tick.
  Julian dates (floats) are idealised as exact numbers.
* Values are exact: `Q` where the code only uses + - * / and comparisons (the
  model then computes, and the theorem needs no axiom), `R` where sqrt, exp, log
  or tanh occur.  Theorems speak about the algorithm in exact arithmetic, except
  in `Float*.v` and the other files named in section 7, where every operation rounds as IEEE 754 prescribes.
* External calls (pandas/numpy/scipy/pygeogrids/netCDF4, user supplied readers,
  matchers, scalers, calculators) are either given by a small model of their
  documented behaviour, or are `Section` variables that every theorem
  quantifies over after the section is closed.
* A property violated by the unchanged code gets a theorem `..._refuted` with a
  concrete witness plus the strongest restricted statement that holds;
  its manifest status is `partial` with an explanation.

## 2. Areas, source files and model files

| area | source | model |
|---|---|---|
| common list/NaN/string/dataframe toolkit | - | `Base.v` |
| temporal collocation | `temporal_matching.py` | `Temporal*.v`, `RematchProps.v`, `Local*.v`, `Zone*.v` (time zones) |
| boxcar / exponential filter, moving average | `time_series/filters.pyx`, `filtering.py` | `Filters*.v`, `Fade*.v`, `Mono*.v`, `Back*.v` |
| calendar arithmetic, anomalies, climatology | `time_series/anomaly.py` | `Calendar.v`, `Anomaly*.v`, `Clim*.v`, `Cycle*.v` |
| day bins, yearless dates, subset selection | `time_series/grouping.py` | `Grouping*.v` |
| scaling | `scaling.py` | `Scaling*.v`, `AfterScale*.v` |
| CDF matching | `cdf_matching.py` | `Cdf*.v` |
| name bookkeeping, `utils.py` | `utils.py`, `validation_framework/data_manager.py` (names, combinations) | `Names*.v`, `SortProofs.v` |
| data manager reading, upscaling | `validation_framework/data_manager.py`, `upscaling.py` | `Read*.v`, `UpscaleProofs.v` |
| temporal matchers | `validation_framework/temporal_matchers.py` | `Matchers*.v` (on `DfMatch*.v`) |
| validation driver | `validation_framework/validation.py`, `error_handling.py` | `Validation*.v`, `MaskProofs.v` |
| complete runs (matcher and driver together) | the two above | `Run*.v`, `PointProps.v`, `MaskProps.v`, `IndepProps.v`, `RenameProps.v`, `OptionProps.v` |
| order and units of the data | metrics/\*, scaling.py, cdf_matching.py | `Invariance*.v`, `Unit*.v`, `MeanStdUnitProps.v`, `FilterUnit*.v`, `ExpUnitProps.v`, `Shift*.v`, `RollingShiftProps.v` |
| results manager | `validation_framework/results_manager.py` | `Results*.v` |
| time stamps in result files (doubles) | `validation_framework/results_manager.py` (`_date2num`, `_num2date`) | `TimeNum*.v` |
| attributes and coordinates in result files | `validation_framework/results_manager.py` (`_sel_attr`, `_lonlat2idx`, `_idx2lonlat`) | `ResAttr*.v` |
| order of datasets | `validation_framework/metric_calculators.py` (`get_dataset_names`) | `DsNames*.v` |
| scaling repeatedly | `scaling.py`, `cdf_matching.py` | `Twice*.v` |
| stored parameters within a validation | `validation_framework/validation.py` (loop over combinations) with `data_scalers.py` | `StoredVal*.v` |
| stored scaling parameters | `validation_framework/data_scalers.py` | `Stored*.v` |
| adapters | `validation_framework/adapters.py` | `Adapters*.v`, `Own*.v`, `StackProps.v`, `ClimAdapter*.v` |
| pairwise metrics | `metrics/_fast_pairwise.pyx`, `metrics/pairwise.py`, `metrics/_fast.pyx`, `metrics/deprecated.py` | `Metrics*.v`, `RStats*.v`, `ThreeProps.v` |
| rolling metrics | `metrics/_fast_pairwise.pyx` | `Rolling*.v` |
| triple / extended collocation | `metrics/tcol.py` | `Tcol*.v` |
| data frame metrics | `df_metrics.py` | `DfMetrics*.v`, `DfWrap*.v` |
| confidence intervals | `metrics/confidence_intervals.py`, `metrics/pairwise.py` | `Confint*.v`, `ConfNest*.v` |
| metric calculators | `validation_framework/metric_calculators.py` | `Calc*.v`, `CalcPairs*.v`, `Agree*.v` |
| metric calculator adapters | `validation_framework/metric_calculators_adapters.py` | `Subset*.v`, `Pieces*.v` |
| parallel validation, crashes | `validation_framework/start_validation.py`, assignments of `results_manager.py` | `Start*.v` |
| floating point arithmetic | `metrics/_fast_pairwise.pyx`, `metrics/pairwise.py` (msd, rmsd), `scaling.py` (min_max) | `Float*.v` (Flocq), `ConstFloat*.v`, `PowFloat*.v`, `PowMoreProps.v`, `PowCollProps.v`, `PowBoxProps.v` |
| types of the result arrays | `validation_framework/metric_calculators.py` (templates, RollingMetrics), `validation.py` (joining) | `Typed*.v` (Flocq) |
| arguments of `calc` | `utils.py` (ensure_iterable), `validation.py` (args_to_iterable, calc) | `Args*.v` |
| direct rolling metrics | `metrics/deprecated.py` (rolling_pr_rmsd) | `RollRef*.v` |
| shared dictionaries | `data_manager.py` (constructor), `validation.py` (constructor) | `Reuse*.v` |
| time stamps of rolling metrics | `metric_calculators.py` (RollingMetrics), pandas `to_julian_date` | `Jd*.v` |
| exponential filter in floating point | `filters.pyx` (exp_filter) | `ExpFloat*.v` |
| moving average in floating point | `filters.pyx` (boxcar_filter), `filtering.py` (moving_average) | `BoxFloat*.v` |
| linear scaling in floating point | `scaling.py` (mean_std, linreg_stored_params) | `LinFloat*.v` |
| collocation by means in floating point | `temporal_matching.py` (method="mean", resample_mean) | `MeanFloat*.v`, `Grid*.v` |
| percentiles given as a list | `cdf_matching.py` (fit, _unique_percentile_interpolation), `scaling.py` (cdf_match) | `CdfSeq*.v` |
| extended collocation of a data frame | `metrics/tcol.py` (ecol) | `Ecol*.v` |
| unique values | `utils.py` (interp_uniq) | `Uniq*.v` |
| smoothing by cosine transform | `interpolate/dctpls.py` | `Dct*.v` |
| smoothing of integer arrays | `interpolate/dctpls.py` (conversions to the data type) | `DctInt*.v` |

Not modelled: plotting/IO examples, debugging output of `interpolate/dctpls.py`, `grid/resample.py`
(re-exports), `timedate/*` (re-exports), netCDF encoding, floating point
rounding outside `Float*.v` and `UniqProps.v`, log messages and warnings.

## 3. Plan per property

* **C01** model the two-pointer loop of `resample_mean` exactly (lower/upper persist between targets, both `break` conditions). Invariant: on entry for target t, every index < lower has time < t-half and, when the inner upper loop is run, every index <= upper has time <= t+half. Conclude slice = filter by closed window (lists sorted). Spec: `mean of filter`.
* **C02** model pandas `reindex(method="nearest", tolerance)` by pad/backfill positions; show optimality among all observations, tie rule, tolerance, duplicates. Error branch: non-monotone index.
* **C03** flag handling over C02's model, cell-wise `combine_first`.
* **C04** expected false: the length check compares with the reference. `_refuted` witnesses plus restricted theorem.
* **C05** frames as (time, row) lists with unique times; outer join = sorted union; membership lemmas.
* **C06** case analysis on signed distances; group-by minimum for duplicates.
* **C07** outward scan with early exit on sorted times equals filter; sum equality up to permutation in Q.
* **C08** invariant "last output in hull of valid inputs so far and 0 < gain <= 1" in R.
* **C09** pointwise.
* **C10** list padding arithmetic: window over padded list = window over circular index.
* **C11** expected false after February in common years; exact theorem when both options agree; refuted with defaults.
* **C12** expected false with std=True; holds without.
* **C13** proleptic Gregorian calendar in Z; generic bins.
* **C14** key = seconds offset within leap year; order isomorphism.
* **C15**, **C16**, **C17** membership over condition lists; wrap-around refuted for the first data year.
* **C18**-**C20** algebra in Q/R; linreg refuted for negative slope, proved for non-negative slope.
* **C21** list insertion/removal at index.
* **C22**-**C25** piecewise linear interpolation over Q.
* **C26** fold of binary mask; refuted for three arrays, proved for two.
* **C27**, **C29**, **C30**, **C63** combinations/product as lists; completeness and NoDup.
* **C28** reader as oracle; case analysis by routing.
* **C31** from C02+C05 models.
* **C32**, **C33** driver loop over arbitrary stage oracles; count per key; refuted by empty masked reference; proved otherwise.
* **C34** expected false (`is False` on a numpy bool); refuted and exact actual behaviour proved.
* **C35** grid = list of (cell, gpi); jobs by cell partition.
* **C36** dictionary search.
* **C37**, **C38** state machine with op list; unlimited-dimension semantics (slice assignment from offset); refuted for variables introduced late; proved when every call supplies the same variables.
* **C39** refuted (length, injectivity); positive bound when root is short.
* **C40** store as finite map; history induction.
* **C41**, **C42** filters over rows; refutations for sub-second units, units shorter than fields, repeated timestamps,
  an output column that is dropped with the original fields.
* **C43**, **C44** average/argmax.
* **C45**-**C49** real algebra; Cauchy-Schwarz on lists.
* **C50** sliding window state = moments of the window; add/remove lemmas from C45.
* **C51**, **C64** field algebra (R).
* **C52**-**C54** index bookkeeping; refuted; restricted positives.
* **C55**, **C65** quantile of sorted list; arbitrary draws.
* **C56** monotonicity of tanh/atanh-based intervals.
* **C57** recursion homomorphism over append.
* **C58**-**C61** calculators as functions of rows; **C59** refuted.
* **C62** refuted on diagonal, proved off-diagonal and means.
* **C66**-**C71** further adapters, readers, results and calculators; same technique as their neighbours.
* **C72** calendar arithmetic in Z for all years.
* **C73** frame handed to the calculators, from the stages of C32; refuted for the second column of the scaling reference.
* **C74** orthonormality of the cosine kernel in any dimension, diagonalisation of the second difference, then
  strict convexity of the penalised distance; range by clipping (order 1), refuted for order 2.
* **C75** each iteration lowers the cost; coercivity gives a contraction of the energy, hence a geometric rate;
  the stopping rule is refuted by a call with two values.
* **C76** induction over inner and outer loop with an invariant; **C79** the same, relating two runs.
* **C80** transition system of engines and client; invariant: the disk is the sequential storing of the first jobs; a measure bounds schedules. **C81** the call as a list of single assignments; induction over histories of complete and killed calls.
* **C82** case analysis of the clipping on IEEE values; NaN propagation by induction. **C83** every operation commutes with
  the change of sign; the rounded square root of a rounded square. **C84** monotonicity of rounding; Welford's mean moves
  towards the new value, not past it; concrete windows refute the moving versions. **C85** one induction for sums of rounded
  terms. **C86** monotonicity of rounding.
* **C87** every correction is a nudge strictly between two neighbours, which adds a strict ascent; a sweep without a nudge means
  that all ascents are strict. Refutations: an invariant of the array that excludes distinct values (equal ends, few values closed under the rounded mean, or two missing values, which stay).
* **C88** the trace of the smoother as the sum of the responses to impulses (orthonormal rows), Parseval for the score;
  leverage and bounds by algebra of square roots; the average by comparing a sum with an antiderivative (mean value theorem; for order 2 that of a complex logarithm).
* **C89** composition of the theorems about matchers, selection and driver: the matched frame of all datasets row by row, then the row of a combination.
* **C90** the entry as a function of combination, field and point, from the uniqueness of keys; splitting and ordering are corollaries.
* **C91** each metric as a function of sums; sums under permutations and affine maps.
* **C92** a relation between runs in two units, carried through every step of the fit (sort, percentiles, resampling, regression of the edges, spline).
* **C93**, **C94** relations between runs in two units or on two time axes, carried through every loop. With index_other and distance_other (ShiftIndexProps.v) the first column becomes k·i+s and the second k·d.
* **C95** as C89, with the masked reference (C34) as the data read and the added scaling column carried through selection and removal.
* **C96** aware times are instants, naive times wall-clock times; conversions between them are oracles. Every path through the alignment of zones reduces to the collocation without zones (C01 ff.) on instants; means in zones with fixed offset use C94.
* **C97** `truncate` as label slice (skip and take while), shown to be a filter on sorted series; ranges by invariants of the filter loops; the zero sum through C07 and C10 with windows of one element.
* **C98** A store of frame objects (`OwnModel.v`); every adapter is given as an effect on the store and shown to refine the pure function of `AdaptersModel.v`; frame conditions say which objects an adapter may change; induction over stacks and over sequences of reads.
* **C99** The wrapper around a metric as it is (combinations, shape probe, names of the fields of the named tuple); names by splitting at underscores, which makes the joined name injective; symmetry of each wrapped metric by algebra; triples by the six orders of three columns; whole frames by the selection that picks the same columns from another arrangement.
* **C100** Arrays with numpy types (`TypedModel.v`), with IEEE conversions between double and single precision (Flocq); conversion is monotone rounding, so order and range follow; filling a template and joining locations by induction over the fields; conversions that do not occur in the code, and python integers beyond 32 bits, are parameters.
* **C101** The conversion of arguments to sequences and the zip over them as they are (`ArgsModel.v`); positions by induction over the arguments; composed with the partition into jobs of C35.
* **C102** The direct computation with `np.corrcoef`, its slices and its uninitialised arrays (`RollRefModel.v`); the positions in a window form an interval, so the slice is the window of C50; the ratio of `np.corrcoef` is the correlation because the factor n/(n-1) cancels. With 32-bit storage (`RollStoreModel.v`): error bound of rounding to nearest.
* **C103** A heap of dictionaries shared by the caller, managers and validations (`ReuseModel.v`); invariant: a dictionary with all defaults keeps its view under every construction, and the masking dictionary keeps the reference of its validation; induction over the later constructions.
* **C104** Julian dates as pandas computes them in doubles (`JdModel.v`); error bounds for every operation, rounding commutes with adding whole days inside one binade (ties to even), so that all tests of `rolling_pr_rmsd` agree with those on nanoseconds; then the loop invariant of C84 for true times.
* **C105** `exp_filter` with doubles and its two single precision variables (`ExpFloatModel.v`); invariant: the gain stays in [2^-25, 1] (ties to even decide the lower end), an update towards the new value never leaves the interval of the last and the new value by more than the rounding of three operations, and never on the side of the last value, so that errors do not add up.
* **C106** `boxcar_filter` with doubles and its single precision window (`BoxFloatModel.v`); the two scans pick positions, in chronological series exactly those with a rounded distance within the limit; monotonicity of rounding gives the windows, the grid of 2^-31 days of Julian dates makes their distances exact, and sums of bounded short numbers stay within multiples of the bounds that are themselves numbers of the format.
* **C107** `mean_std` and `linreg_stored_params` with floats (`LinFloatModel.v`), the summation of numpy being any function that keeps the sign; each operation is monotone on numbers and infinities (a saturating value function turns rounding with overflow into a monotone function of the reals), so their composition is; the error bound adds up the roundings of the four operations.
* **C108** `resample_mean` and the Julian dates with floats (`MeanFloatModel.v`); for times in whole milliseconds the computed Julian date is the correctly rounded exact one (the exact value keeps a distance of 1/168750 units from the midpoints between doubles, larger than the errors of the fraction of the day), so that rounding commutes with adding 128th parts of a day; the tests of the loop then agree with those on nanoseconds, and the slice is the window as in C01.
* **C109** `CDFMatching.fit` with the kind of the percentile container (`CdfSeqModel.v`): indexing a list with an array raises; the percentile values are characterised from the order statistics alone (`percentile_of`), and the error is shown to occur exactly on ties of these.
* **C110** `ecol` on a frame with named columns (`EcolModel.v`): dropna in place, positions of names, the vector of the solution with `np.delete`, `np.append`, `np.insert`, the tags and `dict(zip(...))`. The entries are shown to be the estimates of `TcolModel.v`; permuted columns give permuted lists of estimators with the same means.
* **C111** smoothn with the three `astype(data.dtype)` as a parameter (`DctIntModel.v`); with the identity it is the function of `DctModel.v`. For truncation the transformed result is a quotient with an integer denominator, 1 for slow waves; an invariant of the loops gives the powers of ten.
* **C112** Covariances of columns in other units (`EcolUnitSpec.v: in_units`) are multiplied by both factors; so are the estimators, whose divisors cancel; zero divisors correspond. The dictionaries then follow as in C110.
* **C113** Analytical intervals: monotonicity of tanh and of the half widths in the quantile. Bootstrap: linear quantiles are unique (C55), so mapping the order statistics by a monotone or antitone affine function maps the quantiles; the jackknife and the original sample are samples too. BCa: the acceleration is bounded by 1/6, hence the adjusted level is monotone.
* **C114** Doubles and 80-bit extended numbers of Flocq: half a unit in the last place of a number of days below 2^16 is 0.32 microseconds, so the nearest whole microsecond is the stored one; for half hours the rounding error is at most a third of a unit.
* **C115** Loops over the results with the dictionary as state; induction over histories of calls. Locations by coordinates from the invariant of C37.
* **C116** Position in a strictly sorted combination = number of smaller names, with the calculator input of C73; the first combination by induction over the datasets (filtering combinations = combinations of the filtered list).
* **C117** The loop over the combinations with the parameter store as state; induction over the combinations in two phases (before and after the tables of the point are stored), with the lemmas of C40 and the columns read by C73.
* **C118** Corollary of C89 and C95: the compared rows are described by the data of the combination and of the temporal reference alone, and sorted rows with the same members are equal.
* **C119** Simulation between two folds over grid points, calculators and combinations: one with the other value of the option keeps equality, or equality after a filter on the keys.
* **C120** Corollary of C92 for the linear methods (scaled data are the source in another unit); for CDF matching with itself the table is the diagonal, edges included.
* **C121** The row expected by C02 is unique, so that the function of the time is the same for all lists of reference times; at a distance of zero it is the row itself.
* **C122** Minkowski inequality from Cauchy-Schwarz (C48); for correlations Cauchy-Schwarz for the residuals of two regressions on the common dataset.
* **C123** Every masking adapter is a filter of the rows by C41; filters commute and are idempotent; induction over the list of filters. The timestamp adapter is a map over the rows with a base time.
* **C124** `ClimAdapterModel.v` puts the functions of C09, C11 and C97 into the adapters of C70; induction over the selected columns with the columns already assigned.
* **C125** the results of C58 and C71 for complete data, where `dropna` and the complete cases of a pair are all rows; the columns of `data[[a, b]]` are those of the frame; closed form of the unbiased difference after mean/standard deviation scaling. TCMetrics and HSAF_Metrics likewise from C58 and C59.
* **C126** both collocations are maps over the reference times; the nearest row is determined by the observations in the window and kept by larger windows; for validations from C89.
* **C127** the mean of a window that is its own mirror image is its centre; cycles from C97; the sum over the circle of circular means by exchanging the sums.
* **C128** both filters as weighted sums over the observations that are there (C07, C08); the weight of the current observation is one.
* **C129** sums over a permutation of the concatenated parts; the adapter from C60.
* **C130** the scalings as increasing linear maps, C47 for the correlation, moments of a rescaled series for the differences; `linreg` through the rational moments seen as reals.
* **C131** NaN absorbs every IEEE operation of the sums; in the rolling loop by an invariant of the running sums.
* **C132** every rounded operation commutes with changing the signs of its arguments, zeros apart; inductions over the loops carry
  "opposite" and "equal up to the sign of zero"; (1 - r)(1 + r) is the same product for r and -r.
* **C133** rounded sums and quotients are monotone, infinities included (LinFloatProofs), so inductions over the scans carry "same
  count, sum not above"; sorting keeps the order position by position (median); weights of the exponential filter are positive.
* **C134** numbers z 2^e with |z| up to 2^53 are doubles, so every addition of the loops is exact (induction with the sum of the
  absolute values as bound); only the division rounds. Permutations of the pairs permute the multiples and keep their sums.
* **C135** the results are determined by the closed windows of C07 and C01 and by the nearest row of C02; windows of reversed
  series are the reversed windows, sums do not depend on the order, and nearest rows are unique unless two are equally near.
* **C136** the first Welford step gives 0 + (c - 0) / 1 = c without rounding; from then on every difference is a zero, so that mean and
  sum of squares keep their values however the count is rounded (invariant over the fold); the covariance follows the same way.
* **C137** rounding commutes with 2^k above the smallest normal number (same mantissa, shifted exponent), and for sums of doubles also
  below it, where they are exact; induction over the loops, with monotone rounding to keep sums of squares away from underflow.
* **C77** algebra of the weight formula; median of a majority.
* **C78** flags by induction over the rounds; documented behaviour refuted by concrete calls.

## 4. Mutation testing

`seeded/LOG.jsonl` records edits of the model in a scratch copy: one token or clause changed at a time
(comparison, arithmetic and logical operators, constants, swapped arguments, dropped cases), and hand-written bugs.
After each edit all files that depend on the edited one are rebuilt.  An entry names the lemma at which the build
stopped (`build_stopped_at`) and the property theorems that rest on it (`theorems_failed`).  Edits that still built
led to new or stronger theorems (`theorems_tightened`), or are shown to leave the behaviour unchanged (`note`).
Edits that do not type-check are not recorded.  `TightProps*.v` holds theorems added for this reason.

## 5. Properties that cannot be expressed

None so far is entirely out of reach of an executable model.  Statistical level claims
(coverage probability of confidence intervals) are replaced by the deterministic
statements of C55/C65.

## 6. Findings

Every item with a theorem name is proved about the model: the theorem exhibits the input.  Items
marked (read) were noticed while reading and are not part of the model.

*Temporal matching.*  A flag array is compared with the length of the reference, not of the flagged
series (`C04_*_refuted`); the mean matcher cannot take flags at all; integer columns are truncated by the
mean collocation (`C01_integer_columns_refuted`); a nearest match that is missing is not replaced by the
next valid one (`C66_nearest_valid_refuted`); `index_other` is wrong after the fallback
(`C67_index_with_fallback_refuted`); unmatched reference rows are kept by the combinatory matcher
(`C30_unmatched_rows_refuted`).

*Time series.*  With default options the anomaly of a common year subtracts the climatology of the
neighbouring day after February (`C11_default_options_refuted`); leap-day interpolation with `std=True`
fails (`C12_leapday_with_std_refuted`); seasons running over New Year miss January of the first data year
(`C16_new_year_refuted`); ranges inside 29 February select everything in common years
(`C16_feb29_refuted`); datetime objects in `yearless_dates` raise (`C15_datetime_objects_refuted`);
sub-second times after 23:59:59 fall out of the month subsets (`C17_subsecond_refuted`); the value -999999 is
taken for missing by the moving average (`C93_marker_refuted`); `fill` also fills the standard deviations
(`C93_filled_spread_refuted`), and with `std=True` the standard deviation of the interpolated leap day does not follow the
unit (`C93_leapday_std_refuted`).

*Scaling, CDF matching.*  Regression scaling uses the absolute slope and loses the mean for negative
correlation (`C20_linreg_mean_refuted`), and the result then depends on the unit of the source
(`C92_linreg_refuted`); a single bin with linear edges can reverse the order
(`C22_single_bin_reverses_order_refuted`), and the linear edge fit can raise
(`C22_linear_edges_fit_fails_refuted`); `scale` fails with a negative `reference_index` (C21);
`array_dropna` loses track of positions from the third array on (`C26_dropna_three_refuted`).

*Climatology.*  `calc_anomaly` looks up a monthly climatology by the day of the year (`C97_monthly_climatology_refuted`).

*Integers.*  `CDFMatching` stores the percentile values and the prediction in arrays of the type of the source: a source stored as integers is scaled to zero if the reference lies in [0, 1) (`C22_integer_source_zero`, `C22_integer_source_refuted`).

*Shared frames.*  `AnomalyAdapter`, `AnomalyClimAdapter` and `ColumnCombineAdapter` assign into the frame the reader returned: with a reader that keeps its frame a second read returns anomalies of anomalies, other datasets on this reader change as well, and a failing read leaves the frame half changed (`C98_anomaly_again_refuted`, `C98_other_dataset_refuted`, `C98_combine_all_again_refuted`, `C98_half_changed_refuted`); `select(set_nan=True)` blanks the caller's frame (`C98_select_set_nan_refuted`).

*Time zones.*  Means measure the window on the wall clock (`to_julian_date`), so it is wrong around a clock change
(`C96_mean_clock_change_refuted`); a reference without zone and others in different zones give two rows per reference time
(`C96_zones_of_others_refuted`), and UTC is not assumed as documented (`C96_utc_assumed_refuted`); with `add_ref_data` the
caller's reference gets a new index (`C96_reference_changed_refuted`).

*Validation driver.*  A completely masked reference leaves no entry for the grid point
(`C32_masked_reference_refuted`); a scalar status from a calculator aborts the run
(`C32_scalar_status_refuted`); tuple status keys become code 6 and joined ones never get a code
(`C33_*_refuted`); every matched masking value removes the observation, also `False`
(`C34_false_mask_refuted`), and with several reference columns only the last one decides
(`C34_last_column_decides_refuted`); two masking datasets with the combined matcher raise
(`C34_two_masks_combined_matcher_refuted`); a dataset read from several sets of the temporal reference
takes the last one (`C36_last_set_refuted`); a `BasicGrid` gives three arrays instead of jobs
(`C35_basic_grid_refuted`).  `start_validation` takes `len(jobs)` before testing for `None`
(`C80_jobs_undefined_refuted`), loses finished results when an earlier job breaks
(`C80_finished_results_lost_refuted`) and stores locations twice after a restart
(`C80_restart_duplicates_refuted`).  When the scaling of one combination fails, all combinations of the grid point
get the status `SCALING_FAILED` and no metrics (`C95_scaled_point`, `C95_ex_error`).  Two calculators with the same `k` give two
entries per point and key, of which only the first gets the status of a failure (`C32_same_size_refuted`).

*Results.*  A variable that appears late is written from position 0 (`C37_late_variable_refuted`,
`C38_late_variable_refuted`); time series given out of order overwrite later ones
(`C38_unordered_series_refuted`); file names collide or exceed the limit (`C39_*_refuted`); two keys sharing
a file are mixed (`C69_mixed_results_refuted`); a result without "time" fails or reuses the stale time
(`C69_missing_time_refuted`); the input is consumed (`C69_not_repeatable_refuted`); a variable called `Time` is accepted by the
case-insensitive test and then looked up as `time` (`C69_capital_time_refuted`).

A crash inside `add_metrics_results` leaves half-written locations (`C81_incomplete_location_refuted`), and in the
first call on a file it shifts the values of the next call (`C81_first_call_killed_refuted`).

Time stamps after 2079-06-06 can be read back one microsecond off, and two different ones can be stored as the same number
(`C114_after_2079_refuted`); nanoseconds are dropped (`C114_times_read_back`).

`add_ts_results` selects attributes with `time=False`, so that time series variables do not name `time` among their coordinates
(`C115_time_coordinate_refuted`); `add_result` loses the attributes of results named by tuples (`C115_tuple_refuted`); the dictionary of
attributes is changed for the caller (`C115_caller_refuted`).

*The column "ref".*  Combinations are sorted by dataset name and columns are renamed by position, so that `"ref"` is the dataset
whose name comes first in alphabetical order and not the reference, contrary to the documentation of `Validation` and of
`get_dataset_names` (`C116_ref_refuted`). The sign of the bias depends on how the reference is called
(`C116_name_changes_sign_refuted`), and `IntercomparisonMetrics` compares all datasets with the alphabetically first one
(`C116_intercomparison_refuted`). Labels are still right if the names come from `get_dataset_names` for all datasets
(`C116_names_of_columns`), but not for fewer (`C116_fewer_datasets_refuted`).
New names in the same order change nothing else (`C116_renaming`).

*Stored parameters within a validation.*  `perform_validation` passes frames whose columns are named by dataset, and
`CDFStoreParamsScaler` stores the tables of a grid point once, with the first frame. A second column of the same dataset is
silently scaled with the table of the first one (`C117_second_column_refuted`). In the usual set-up, pairs of the reference
with each of the other datasets, only the first pair can be scaled and the next one fails with SCALING_FAILED for the whole
grid point (`C117_pairs_refuted`, and `C117_one_pair` for all data).

*Influence of other datasets.*  With the default matcher a combination is compared as if it were validated alone (`C118_other_datasets`),
but only where every dataset has data: a dataset without data at a location makes the matcher return nothing, and all other
combinations get NO_TEMP_MATCHED_DATA there (`C118_missing_dataset_refuted`). In the same way one dataset that cannot be scaled
removes the metrics of the others (`C118_scaling_refuted`).

*Options.*  only_with_reference=True does not only leave out combinations: with ignored errors it also keeps the metrics of a
location at which a combination without the reference cannot be scaled (`C119_only_with_reference_refuted`).

*Scaling twice.*  Linear regression with a falling slope and CDF matching are not idempotent (`C120_linreg_twice_refuted`,
`C120_cdf_twice_refuted`); the former is one more effect of the absolute value in `linreg_stored_params`.

*Collocating twice.*  Collocated data with dropped rows must not be collocated to the original reference again: values move to
times at which nothing was within the window (`C121_twice_dropna_refuted`).

*Median differences.*  `mad` is no distance: two datasets can both have a median absolute difference of 0 to a third dataset and
one of 9 between each other (`C122_mad_refuted`).

*Order of adapters.*  An anomaly adapter inside a mask uses the masked values for its reference, outside it does not
(`C123_anomaly_refuted`).  If no observation has a base time, `TimestampAdapter` returns the frame as it is, with the index and the
offset columns it should have replaced (`C42_nothing_left`); so a mask below it that leaves nothing changes the columns that are
read, and one that leaves only rows without base time makes these rows reappear (`C123_timestamp_refuted`).

*Two meanings of "urmsd".* `IntercomparisonMetrics` scales all datasets to mean and standard deviation of the reference before it computes `urmsd`
(`metric_calculators.py` 849-854); `PairwiseIntercomparisonMetrics` does not. For the same two columns the two calculators store different numbers under
this name (`C125_urmsd_refuted`): the first one only restates the correlation (`C125_urmsd`). With fewer than `min_obs` observations `BasicMetrics` leaves `n_obs`
at 0 while the others report the number (`C125_few_refuted`). What `HSAF_Metrics` stores as `err_var` is the second result of `tcol_metrics`, which is
the standard deviation of the error (the others call it `err_std`), not the variance (`C125_err_var_refuted`).

*Period of a validation.*  All datasets are cut to `period` before they are matched.  A reference time just after the start, whose nearest observation lies
just before it, is then matched to an observation further away (`C126_period_refuted`): the metrics of a period are not those of the matched data in the period.

*Regression scaling and metrics.*  For data that fall when the reference rises, `linreg` (absolute slope, intercept of the signed one) may enlarge the mean
square difference sevenfold and introduce a bias where there was none (`C130_linreg_negative_refuted`).

*Units and the number for missing values.* An observation that happens to be -999999 in the chosen unit is dropped by the moving average,
and a converted -999999 is averaged as an observation (`C137_sentinel_refuted`).

*Rounding of the metrics.* Off a power-of-two grid the bias depends on the order of the pairs (`C134_order_refuted`) and on an offset
common to both columns (`C134_offset_refuted`); three differences of 0.1 have a bias above 0.1 and above their RMSD
(`C134_bias_rmsd_refuted`), and a positive ubRMSD although they never change (`C136_ubrmsd_refuted`). Multiples of a power of two are free of this as long as sums stay below 2^53.

*Input of the calculators.*  When a combination uses another than the first column of the scaling
reference, `scale_data`'s column selection (validation.py:619-664) hands the calculator an additional
column, two columns are called `ref`, and the data are scaled to the wrong column
(`C73_second_column_refuted`).

*Scalers and adapters.*  Stored parameters of `a_b`+`c` and `a`+`b_c` clash (`C40_name_clash_refuted`);
`TimestampAdapter` floors each offset to seconds, squares repeated rows and ignores fields without unit
(`C42_*_refuted`); `AnomalyClimAdapter` overwrites columns called `x_climatology`
(`C70_climatology_name_refuted`); upscaling loses the series when all stations are unstable
(`C43_all_stations_unstable_refuted`).

*Metrics.*  The diagonal of `_moments_welford_nd` is too small (`C62_diagonal_refuted`); triple
collocation can give a negative error standard deviation or a missing one beside a finite SNR
(`C51_error_*_refuted`); extended collocation takes absolute values of negative variances
(`C64_abs_est_refuted`); the reference column of `tcol_metrics` is not the requested one
(`C52_*_refuted`); with three columns `nwise_apply` evaluates on a mask overwritten by another one
(`C53_*_refuted`); the lower triangle of the pairwise matrix is in the wrong order
(`C54_symmetric_refuted`); `must_include=0` is ignored (`C63_zero_refuted`); the BCa interval uses `alpha`
instead of `alpha/2` (`C65_refuted`), and for triple collocation it pools the jackknife values of the three
datasets (`C65_own_dataset_refuted`); the ubRMSD interval contains its estimate only if the sample size lies
between the two chi-square quantiles (`C56_ubrmsd`).  The wrapper for data frames treats `nash_sutcliffe` as symmetric, although its two
directions differ (`C99_nash_sutcliffe_refuted`); probes the shape of the result on the first two columns, so that their
failure is that of the whole frame (`C99_first_columns_refuted`); raises for column names that are no identifiers or whose
combinations coincide (`C99_names_refuted`); `tcol_snr` ignores `ref_ind` (`C99_tcol_snr_refuted`);
with a missing value the order of the columns decides whether triple collocation has a result (`C99_missing_order_refuted`).
`kendall_tau_ci` uses `0.431/sqrt(n-3)` where the cited reference has `sqrt(0.437/(n-4))`, so that its interval is always less than two thirds
as wide on the scale of arctanh (`C113_kendall_refuted`; the formula of the reference is quoted from the literature, not from the code).

*Rolling reference.*  `deprecated.rolling_pr_rmsd` never writes the RMSD of a window with too few samples
(`C102_few_refuted`), turns the missing correlation of a constant series into the p-value of x = 1
(`C102_constant_refuted`) and, in trailing windows, uses later samples of the same time stamp (`C102_ties_refuted`).
It computes the p-value from the correlation stored in single precision: just below 1 it is 0 (`C102_single_p_refuted`).

*Shared dictionaries.*  `Validation` stores `_reference` in the caller's masking dictionary and keeps using that
dictionary: a second validation with another temporal reference changes the first one (`C103_shared_masking_refuted`).
Masking with a `DataManager` as datasets always raises (`C103_manager_never`).

*Windows of hours.*  `RollingMetrics` compares Julian dates in double precision.  With hourly data and a window of one
hour a third of the neighbours exactly one hour away is left out, depending on the hour (`C104_hours_refuted`); windows
that end at the sample can contain the excluded edge (`C104_half_hours_refuted`).  Collocation by means has the same
problem: with a window of one hour the observation exactly one hour before the reference is used at three o'clock and
not used at two (`C108_hours_refuted`).  Windows that are multiples of 675 seconds are safe (`C104_parts_of_days`, `C108_parts_of_days`).

*Series that go back in time.*  `exp_filter` does not check the order of the dates.  One step back of 89 characteristic
times (890 days by default) makes the gain 0 for good: all later data are ignored and the last value before the step is
returned (`C105_step_back_refuted`); after a further gap of 105 characteristic times only NaN (`C105_step_back_gap_refuted`).

*Windows in hours.*  `boxcar_filter` takes the window as a single precision number.  Samples exactly half the window away
are used or not depending on how it was rounded: a window of 10 hours leaves out samples 5 hours away, a window of 4 hours
uses samples 2 hours away (`C106_edge_refuted`).

*Constant series.*  `mean_std` of a constant series is NaN only if the computed mean is the constant.  The mean of three times
0.1 is 0.10000000000000002, its standard deviation 1.4e-17, and the "scaled" series is one standard deviation below the mean of
the reference (`C107_constant_refuted`).  `min_max` gives NaN for every constant series (`C107_min_max_constant`).

*Percentiles as a list.* `CDFMatching(percentiles=[...])` and `cdf_match(..., percentiles=[...])` raise TypeError if two
percentiles of the source or of the reference have the same value, e.g. for data with many zeros, or whenever the
second percentile is not above the rank of the smallest observation (`C109_list_refuted`, `C109_fine_steps`); an array with
the same numbers works.

*Extended collocation.* `ecol` drops the incomplete rows of the caller's frame in place (`C110_frame_changed_refuted`). A column
called `cov_a_b` or two pairs like (`a_b`, `c`) and (`a`, `b_c`) share a key and one of the two estimates is lost
(`C110_column_name_refuted`, `C110_pair_names_refuted`). One constant column, or two columns whose covariance is exactly 0,
make every entry of the result NaN or infinite, also those of the other columns (`C110_constant_column`).

*Arguments.*  `Validation.calc` with sequences of different lengths silently uses the shortest; empty sequences give one
location whose id is the empty sequence (`C101_empty_refuted`); a metadata dictionary for a single location, or a pandas
Series without the label 0, raises KeyError because only TypeError and IndexError are caught (`C101_keys_refuted`).

*Types of the results.*  The id of a location is stored in 32 bits: a larger id of numpy type becomes another
id without a message, two such locations can become one; text is cut to the width of its field.
`RollingMetrics` returns arrays of the length of the series, so `Validation.calc` with two locations of
different lengths (or one with too little data) raises ValueError and loses the results of all of them
(`C100_rolling_refuted`).

*Floating point.*  A missing value makes the correlation -1 with p-value 0 instead of NaN, because of
`max(-1, min(NaN, 1))` (`C82_missing_value_gives_minus_one`).  In `rolling_pr_rmsd` one missing
value spoils all later rows, also those whose windows are complete: RMSD NaN and correlation -1 with p-value 0 (`C131_rolling_after_missing`).  Underflow makes uncorrelated series have correlation -1
(`C82_underflow_refuted`) and a series with itself 25/32 (`C83_self_correlation_refuted`).  In moving windows old values are
subtracted from the sums: a constant window then has correlation -1 with p-value 0
(`C84_rolling_constant_window_refuted`), a window of equal values RMSD NaN (`C84_rolling_equal_window_refuted`), with
ordinary data such as 0.5, 0.2, 0.2.  Moving averages of a constant differ from it (`C84_moving_average_refuted`);
`min_max` exceeds or misses the maximum of the reference (`C86_min_max_upper_refuted`).

*Unique values.*  `interp_uniq` runs forever on constant arrays and all arrays with equal ends (`C87_equal_ends_refuted`), on
many integer arrays (`C87_integers_refuted`), on neighbouring doubles (`C87_doubles_refuted`) and on arrays with two missing values
(`C87_missing_refuted`).

*Smoothing integers.* `smoothn` converts the eigenvalues of the penalty, the exponent of the smoothing parameter and the initial
guess to the type of the data. An array of integers is therefore not smoothed at all at periods of more than six positions, whatever
the parameter (`C111_slow_waves_kept`), differs from the same numbers as floats (`C111_integers_refuted`), and a parameter that is
chosen automatically is a power of ten (`C111_power_of_ten`).

*Smoothing.*  `smoothn` with order 2 leaves the range of the data (`C74_overshoot_refuted`); its stopping rule
ignores the gaps, so they can be far from the fit (`C75_gap_values_unchecked_refuted`); the flag is 1 without
convergence because the index of the robust round is compared with `MaxIter` (`C78_converged_refuted`), and
without any data (`C78_no_data_refuted`); the caller's array is overwritten (`C78_input_kept_refuted`);
`euclidean_distance` is never returned (`C78_side_products`); an integer `axis` raises `TypeError`
(`C78_int_axis`), a tuple acts on the wrong axis or raises (`C78_axis_square`, `C78_axis_not_square`); weights
that are all negative pass the test because they are divided by their maximum first
(`C78_negative_weights_refuted`).  `RobustWeights` without mask uses no residual (`C77_no_mask_refuted`), and
gives weight 0 everywhere if most residuals agree (`C77_good_positions_refuted`).  The reported score counts gaps as
data (`C88_documented_score_refuted`), the reported final weights are not those of any fit (`C77_final_weights`), NaN beside a
numeric gap value gives NaN everywhere with flag 1 (`C78_nan`), and a tuple of axes counts only by its length (`C78_axes_last`).

*Calculators.*  Only `PairwiseIntercomparisonMetrics` counts complete observations
(`C58_complete_observations_refuted`); `RollingMetrics` has no `n_obs` (`C58_rolling_refuted`); few
observations and bootstrapping raise (`C58_bootstrap_refuted`); `HSAF_Metrics` uses all data for the pair
metrics of every season (`C59_refuted`) and reports status 0 without data (`C58_hsaf_refuted`); joined
subset names can collide (`C60_join_refuted`); the month dictionary is overwritten, a second adapter built
from it raises (`C60_dictionary_reused_refuted`).  `rho` and `tau` stay in the results as NaN although
they are switched off (`C58_rho_kept_refuted`, `C58_tau_kept_refuted`); with bootstrapping the bounds of the RSS are
requested and never filled (`C71_rss_interval_refuted`).

## 7. Trusted base

* Coq 8.16.1 kernel and `coqchk`.
* Axioms.  `Print Assumptions` follows every property theorem.  Theorems about `Z`, `Q`, lists and strings
  are closed under the global context.  Theorems about `R` use the axioms of the standard library's reals:
  `ClassicalDedekindReals.sig_forall_dec`, `ClassicalDedekindReals.sig_not_dec`,
  `FunctionalExtensionality.functional_extensionality_dep`, and `Classical_Prop.classic` where the library's
  own lemmas use it.  `ClassicalEpsilon.constructive_indefinite_description` is used by
  `least_squares_exists` (a least squares solution exists) only.  No axiom is declared here.
* The reading of the code: every definition cites the lines it models.  The code was never run.
* The small models of pandas and numpy behaviour described in the comments of the model files: `reindex` with
  method "nearest", joins, `groupby(...).min`, boolean selection, `np.digitize`, `interp`, percentiles,
  slice assignment of netCDF4 unlimited dimensions, `pynetcf` variables, `date2num`, dictionaries as
  association lists in insertion order, `GriddedPointData` as one map per point.
* Time stamps in files: `cftime.date2num` divides whole numbers of microseconds with one rounding, `num2date` multiplies in 80-bit long
  double and takes the nearest whole number (platforms whose long double is a double are not covered).
* Crashes: an assignment to a netCDF variable is atomic and durable.  IPython's load balanced view: jobs finish in
  any order, an attempt fails at most `retries` times before the job is given up, results are iterated in job order.
* Arithmetic is exact, except in `Float*.v`, `Typed*.v`, `Jd*.v`, `ExpFloat*.v`, `BoxFloat*.v`, `LinFloat*.v`, `MeanFloat*.v`, `MonoFloat*.v`, `FloatSign*.v`, `ConstFloat*.v`, `ConstGridProps.v`, `PowFloat*.v`, `PowMoreProps.v`, `PowCollProps.v`, `PowBoxProps.v` and `Grid*.v`.  There Flocq's IEEE 754 operations (binary, round to nearest even, one NaN)
  are the trusted reading of the machine's: no extended precision, no fused multiply-add, `v ** 2` is `v * v`, integers
  convert with one rounding, `float64` to `float32` to nearest even; numpy integers convert to 32 bits by
  wrapping around.  Flocq declares no axioms of its own.  The formula of pandas' `to_julian_date` is part of `JdModel.v`.  The C library's `exp` is a parameter of `ExpFloatModel.v`; what is assumed of it stands in `ExpFloatSpec.v` and is proved of the correctly rounded exponential function.
* Oracles, that is functions over which theorems quantify: conversions between instants and wall-clock times, readers, matchers, scalers, calculators and
  stages in `Validation*.v`; scipy's correlation functions with p-values, `betainc`, `lstsq` (assumed to solve
  the normal equations), the quantile functions of the normal, t and chi-square distributions, the random draws
  of the bootstrap, data frame scaling, the metric methods of the calculators, and for smoothing `fminbound`, the
  nearest position of `distance_transform_edt` and the number of coefficients kept by the initial guess.  The
  cosine transform of type 2 with orthonormal scaling is modelled by its formula.  A hypothesis about an oracle
  is part of the theorem's statement.
* Values that are infinite: where real numbers are used, a value that is NaN or infinite is `None`.  In the bootstrap intervals a
  draw whose metric is infinite therefore counts as missing, while `np.nanquantile` would keep it.  In `EcolModel.v` an observation that is
  not finite makes every entry of the matrix product not finite, which is how IEEE arithmetic evaluates a product with a dense
  or sparse matrix (0 times infinity is NaN).  `ecol` with `correlated=None` and with an empty list are the same function.
* Not modelled: see the end of section 2, and the items marked (read) above.
