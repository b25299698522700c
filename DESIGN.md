# Design: a Rocq model of finmlkit

The development in `rocq/theories` models the pure core of `finmlkit` (trade
preprocessing, bar construction, sampling, labelling, sample weights, feature
kernels, the feature graph, and the HDF5 bookkeeping) as total Gallina
functions, one per Python function, branch by branch. Every model definition
carries a comment with file and lines in `/repo`.

## Layout

- `Base.v` numbers, arrays, ranges, folds shared by the models (no repo code).
- `M_*.v` models only (definitions, no proofs).
- `S_*.v` specifications: the mathematical objects the theorems are stated
  against (written without using the model functions).
- `P_*.v` proofs.
- `T_*.v` the property theorems: only statements, `exact lemma.`, non-vacuity
  `Example`s and `Print Assumptions`.

## Conventions of the model

- *Timestamps, indices, ids, tick counts* are `Z` (or `nat` for positions in a
  list). Fixed-width wrap-around is modelled where the code narrows a value
  (int8, uint8, int16, uint16): there the model applies the wrap explicitly.
- *Prices, volumes, weights* are exact rationals `Q`. Every finite float64 is
  such a rational, and comparisons and `max`/`min` on finite floats agree with
  those on `Q`, so properties that only compare values (open/high/low/close,
  medians, first touches, ...) carry over to the floats exactly. Where the code
  adds, multiplies or divides, these models are exact. Rounding is modelled in
  separate files that repeat kernels with every operation rounded to float64 (and every
  stored float32 cell to float32): `M_logic.f64` (int64 -> float64 of timestamps, C01/C02),
  `M_float.v` (volume and dollar bars, OHLCV, directional features, footprint levels,
  trade merging, C137-C143), `M_float2.v` (moving averages, VWAP distance, z-score, VPIN,
  flow acceleration, C155-C160), `M_tickf.v` (tick size, C177), `M_float3.v` (RSI,
  stochastic, ADX, C180), `M_float4.v` (CUSUM, C182), `M_float5.v` (triple barrier, C183),
  `M_float6.v` (sample weights, C184), `M_float7.v` (volatility, C185), `M_float8.v`
  (time-decayed volatility and price/volume correlation, C186), `M_float9.v` (CUSUM test on
  levels, C187), `M_float10.v` (returns, variance ratio, C188), `M_float12.v` (footprint features,
  C190), `M_float13.v` (trade sizes, C191), `M_float14.v` (whole-bar footprints,
  C192) and `M_float11.v`
  (volume profiles in float32 and float64, C189). Exponents are
  unbounded there, so no overflow and no subnormal numbers. In all other
  kernels float rounding is **not** modelled.
- *NaN* is `None` in `option Q`.
- *log, exp, sqrt* are universally quantified functions (section variables that
  become ordinary arguments after the section is closed), so theorems hold for
  whatever the library returns; where a property needs a fact about them it is
  an explicit hypothesis of the theorem.
- *Exceptions* are values (`option`/`result`).
- *numba array reads*: a negative index wraps around (`zget`), no bounds check.
  Out-of-range reads are excluded by hypotheses of the theorems that state the
  precise guard, never silently given a value in a theorem's conclusion.
- *prange loops* are modelled as maps: each iteration writes only its own slot
  (checked by reading the code), so any schedule gives the same arrays.

## Trusted base

- Coq 8.16.1's kernel (and `vm_compute` for concrete examples/refutations).
- `Print Assumptions` stands under every property theorem; all theorems are
  expected to be "Closed under the global context" unless listed here.
- The reading of the Python sources (the model is a transcription; the code is
  not executed). Library calls (numpy, pandas, PyTables, numba) are taken at
  their documented behaviour as stated at each definition. Two pandas 2.2
  algorithms are taken from its sources, since their rounding depends on them:
  the compensated sum of `groupby` (`kahan`, M_float16) and the running mean of
  `ewm` (`ewm_loop_f`, M_float15).

## Properties: what is modelled and how it is proved
- **C01 Time bars put every trade into the clock interval that contains it** — M_logic `time_bar_indexer` on Z with the float64 conversion of timestamps (`f64`); proof by searchsorted characterisation and arithmetic.
- **C02 The first time bar never starts after the first trade** — Same model; refuted with a concrete timestamp by vm_compute, proved when the conversion is exact.
- **C03 Tick bars close exactly at every threshold-th trade** — M_logic `tick_bar_indexer`; loop invariant, closed form.
- **C04 Volume bars are minimal: they reach the threshold with their last trade and not before** — M_logic `volume_bar_indexer`; loop invariant relating closes to segment sums.
- **C05 Dollar bars conserve dollars through carry-over** — M_logic `dollar_bar_indexer`; loop invariant.
- **C06 CUSUM bars close exactly when a since-reset run of returns reaches the threshold** — M_logic `cusum_bar_indexer`; invariant: the two sums are maxima/minima over run sums since the last reset.
- **C07 CUSUM bar builder fills gaps in sigma with the last known value only** — M_logic forward fill; induction.
- **C08 Information bars are causal: later trades never change earlier closes** — Prefix theorems by induction over the scan.
- **C09 OHLC values describe exactly the trades of the bar** — M_bars `bar_ohlcv`; fold invariants over the bar's slice, list-partition lemma.
- **C10 Empty bars repeat the last price and carry no volume** — M_bars `bar_ohlcv`; fold invariants over the bar's slice, list-partition lemma.
- **C11 Bars partition the trades: totals over bars equal totals over trades** — M_bars `bar_ohlcv`; fold invariants over the bar's slice, list-partition lemma.
- **C12 The median trade size of a bar is a median** — M_bars median via a verified sort; counting argument.
- **C13 Buy and sell parts add up to the bar** — M_bars `directional`; fold invariants; congruence on slices; refutation by vm_compute for index -1.
- **C14 Cumulative imbalance extremes are the true extremes of the running imbalance** — M_bars `directional`; fold invariants; congruence on slices; refutation by vm_compute for index -1.
- **C15 Directional features of a bar use no trade outside the bar but its predecessor** — M_bars `directional`; fold invariants; congruence on slices; refutation by vm_compute for index -1.
- **C16 Trade-size features stay in range** — M_bars `trade_size_features`; inequality proofs over Q.
- **C17 Footprints conserve volume and ticks level by level** — M_footprint; fold invariant per level, monotonicity of round-half-even.
- **C18 Footprint construction never fails on the builder's own bars** — M_footprint; fold invariant per level, monotonicity of round-half-even.
- **C19 Imbalance flags follow the diagonal rule** — M_footprint `footprint_features`; pointwise characterisation, run-length invariant, algebra.
- **C20 The signed maximal imbalance run is the longest run** — M_footprint `footprint_features`; pointwise characterisation, run-length invariant, algebra.
- **C21 COT level, volume profile gini and skew** — M_footprint `footprint_features`; pointwise characterisation, run-length invariant, algebra.
- **C22 Merging split trades loses nothing and is complete** — M_trades; induction over the trade list (grouping specification for merging), refutation witness for C23.
- **C23 Preprocessing keeps each trade's side** — M_trades; induction over the trade list (grouping specification for merging), refutation witness for C23.
- **C24 Preprocessing sorts, de-duplicates and loses no trade** — M_trades; induction over the trade list (grouping specification for merging), refutation witness for C23.
- **C25 Trade id gaps are all found and counted** — M_trades; induction over the trade list (grouping specification for merging), refutation witness for C23.
- **C26 Timestamp resolution reduction is a monotone floor** — M_trades; induction over the trade list (grouping specification for merging), refutation witness for C23.
- **C27 Tick rule side is the sign of the last price change** — M_trades; induction over the trade list (grouping specification for merging), refutation witness for C23.
- **C28 Median-of-three filter returns the middle value** — M_trades; induction over the trade list (grouping specification for merging), refutation witness for C23.
- **C29 Saved trades come back: last write per month wins** — M_store: store as finite map from month to (rows, meta); operations as a state machine; invariants over histories; schedules as permutations; refutation witness for C31.
- **C30 Loading a time range returns exactly the stored trades in the closed range** — M_store: store as finite map from month to (rows, meta); operations as a state machine; invariants over histories; schedules as permutations; refutation witness for C31.
- **C31 Appending to a month keeps older trades reachable** — M_store: store as finite map from month to (rows, meta); operations as a state machine; invariants over histories; schedules as permutations; refutation witness for C31.
- **C32 Parallel and sequential loading return the same trades** — M_store: store as finite map from month to (rows, meta); operations as a state machine; invariants over histories; schedules as permutations; refutation witness for C31.
- **C33 CUSUM filter flags exactly the threshold crossings since the last reset** — M_sampling; same run-sum invariant as C06.
- **C34 A constant threshold equals its expanded vector, wrong lengths are rejected** — M_sampling; same run-sum invariant as C06.
- **C35 Triple barrier labels use the first touch within the window** — M_tbm; induction over the path; congruence; refutation witness for C38.
- **C36 Triple barrier never looks past the vertical barrier** — M_tbm; induction over the path; congruence; refutation witness for C38.
- **C37 Triple barrier labels and weights are in range and consistent with the return** — M_tbm; induction over the path; congruence; refutation witness for C38.
- **C38 Events whose barrier is touched get weight 1.0** — M_tbm; induction over the path; congruence; refutation witness for C38.
- **C39 Concurrency counts overlapping labels and uniqueness averages its inverse** — M_weights; counting/sum exchange, field identities over Q.
- **C40 Return attribution weights are non-negative and normalise to the event count** — M_weights; counting/sum exchange, field identities over Q.
- **C41 Time decay weights** — M_weights; counting/sum exchange, field identities over Q.
- **C42 Class balancing equalises class totals and keeps the total** — M_weights; counting/sum exchange, field identities over Q.
- **C43 Final sample weights average to one** — M_weights; counting/sum exchange, field identities over Q.
- **C44 Label kit drops exactly the events that cannot be evaluated** — M_tbm `drop_trailing`, `event_index`; searchsorted characterisation.
- **C45 Simple moving average is the exact window mean and stays within the window** — M_features: kernels as folds over Q; rolling-update invariants; refutation witnesses where the code departs from its documentation.
- **C46 Exponential moving average is a convex combination of the past** — M_features: kernels as folds over Q; rolling-update invariants; refutation witnesses where the code departs from its documentation.
- **C47 Stochastic %K stays between 0 and 100** — M_features: kernels as folds over Q; rolling-update invariants; refutation witnesses where the code departs from its documentation.
- **C48 Stochastic core tracks the true rolling extremes** — M_features: kernels as folds over Q; rolling-update invariants; refutation witnesses where the code departs from its documentation.
- **C49 RSI lies in [0,100]** — M_features: kernels as folds over Q; rolling-update invariants; refutation witnesses where the code departs from its documentation.
- **C50 RSI is the same on both computation backends** — M_features: kernels as folds over Q; rolling-update invariants; refutation witnesses where the code departs from its documentation.
- **C51 VPIN lies in [0,1] and equals its window formula** — M_volume `vpin`; cumulative sums and NaN counts reduced to window sums.
- **C52 VWAP distance uses the true rolling VWAP** — M_features: kernels as folds over Q; rolling-update invariants; refutation witnesses where the code departs from its documentation.
- **C53 Price/volume correlation is a Pearson correlation** — M_features: kernels as folds over Q; rolling-update invariants; refutation witnesses where the code departs from its documentation.
- **C54 Volume profile bucketing conserves volume** — M_volume `bucket_price_levels`; integer division arithmetic, double counting.
- **C55 Bucket prices stay inside the traded range** — Refutation witness; exact bound on the overshoot from the bucket arithmetic of C54.
- **C56 Value area contains the POC and reaches the requested volume share** — M_volume `comp_poc_hva_lva`; termination measure, greedy search relation `value_area`.
- **C57 Developing volume profile writes results for every requested bar** — M_volume `volume_profile_developing`; refutation witness and loop invariant over the accumulated profile.
- **C58 Lagged returns use the latest price at or before the lag time** — M_features: kernels as folds over Q; rolling-update invariants; refutation witnesses where the code departs from its documentation.
- **C59 Directional run length counts the current same-sign run** — M_transforms `dir_run_len`; S_transforms `is_run`, int8 counter explicit.
- **C60 CUSUM break age counts bars since the last break** — M_transforms `cusum_age`; S_transforms `since_flag`, uint8 cast explicit.
- **C61 Candle shape shares sum to at most one** — M_transforms `candle_shape`.
- **C62 Opening-range breaks are causal and exclusive** — M_transforms `orb_long`, `orb_short`; S_transforms `breakout` over the block of a calendar day.
- **C63 Day and session cues decode the timestamp correctly** — M_features: kernels as folds over Q; rolling-update invariants; refutation witnesses where the code departs from its documentation.
- **C64 Operator transforms compute pointwise what they are named after** — M_kit `call` on built expressions against row-wise and rational evaluation; shadowing by an existing column stated.
- **C65 Feature kit output does not depend on neighbouring features** — M_kit `kit_build` against evaluation of each feature on the raw frame; refutation by a name collision.
- **C66 Dependency order is respected** — M_graph `topo_sort`, `feature_graph`, `topo_order`; Kahn invariant, exact edge set, all set orders; refutation for cycles.
- **C67 Composition applies steps in order** — M_kit `compose_call` against feeding each result into the next step; refutation.
- **C68 Saved feature configurations rebuild the same computation** — M_config `to_config`, `from_config`, `maybe_unary`, `reload_class` and the table of all transform classes; exact result of loading, same values, six losses refuted or stated.
- **C69 Resampling time bars preserves totals and extremes** — M_tbio `resample`; groups are a partition of the sorted bars, every aggregate is a homomorphism on concatenation; refutation for the median.
- **C70 Gap inspection reports exactly the gaps** — M_tbio `find_gaps`, `inspect_gaps`; induction; refutation across partitions.
- **C71 Reading a daily range is inclusive of the end date** — M_tbio `read`; exact statement and refutation.
- **C72 Month enumeration of the import script is complete** — M_tbio `month_range`; month numbers.
- **C73 Infinite barrier multipliers** — M_tbm; case analysis on the infinite thresholds; the argument checks read off the guard chain.
- **C74 Triple-barrier argument checks and event independence** — M_tbm; case analysis on the infinite thresholds; the argument checks read off the guard chain.
- **C75 A NaN vertical weight spoils all final weights** — M_weights `compute_final_weights` with NaN as None.
- **C76 Every event kept by the label kit is labelled** — M_labelkit; searchsorted characterisation, filters.
- **C77 Event preprocessing keeps exactly the usable rows** — M_labelkit; searchsorted characterisation, filters.
- **C78 The evaluation window of kept events lies inside the data** — M_labelkit; searchsorted characterisation, filters.
- **C79 Spread features measure the price step at side changes** — M_bars `d_step`; invariant over the previous side; refutation for single-trade bars.
- **C80 The tick size estimate divides all sampled price differences** — M_trades `comp_price_tick_size` in exact arithmetic; gcd loop invariant; two refutation witnesses.
- **C81 Order check and fast sort** — M_trades `fast_sort_trades` for any argsort result.
- **C82 No mergeable neighbours after preprocessing** — Corollary of the grouping specification of C22; refutation witness for microsecond input at millisecond resolution.
- **C83 The CUSUM bar indexer rejects inputs of different lengths** — M_logic `cusum_len_check`; exact acceptance condition and refutation witness.
- **C84 A failed save leaves the store unchanged** — M_store; induction over the history of saves, see C29-C32.
- **C85 A group that cannot be read is reported** — M_store; induction over the history of saves, see C29-C32.
- **C86 The view range is a closed contiguous slice** — M_store; induction over the history of saves, see C29-C32.
- **C87 Month keys sort chronologically** — M_store; induction over the history of saves, see C29-C32.
- **C88 Store metadata stays in step with the data** — M_store; induction over the history of saves, see C29-C32.
- **C89 Rolling z-score standardises by its own window** — M_features `comp_zscore`; window lemma and field arithmetic.
- **C90 ADX lies in [0,100] and is the Wilder average of the directional index** — M_features `adx_core`; closed form of Wilder smoothing, bounds by induction.
- **C91 Rate of change and percentage change invert to the price ratio** — M_features `roc`, `pct_change`; direct.
- **C92 Burst ratio divides by the window median** — M_features `comp_burst_ratio`; median characterisation of C12.
- **C93 Aggregated footprints hold the volume of their bars level by level** — M_volume `aggregate_footprint`; fancy-index addition over distinct levels.
- **C94 Rolling volume profile is the profile of the bars in the window** — M_volume `volume_profile_rolling`; C93 and C56 for each window.
- **C95 Share of volume above the POC** — M_volume `pct_above_poc`.
- **C96 Flow acceleration compares the recent volume with the volume before it** — M_volume `comp_flow_acceleration` for any logarithm function.
- **C97 Trimming removes only empty levels** — M_volume `trim_trailing_zeros`; rounding bound.
- **C98 ewms is the bias-corrected weighted standard deviation** — M_volat `ewms`; bias-corrected weighted variance (S_volat `wvar`), any root function.
- **C99 ewmst_mean0 is the root of the time-weighted mean square** — M_volat `ewmst_mean0`; closed-form weights, any root and exponential function with decays in (0,1].
- **C100 ewmst ignores missing values** — M_volat `ewmst`; proved for the zero-filled series, refuted for series with NaN.
- **C101 True range** — M_volat `true_range`.
- **C102 Realised volatility** — M_volat `realized_vol`.
- **C103 Bollinger percent b** — M_volat `bollinger_percent_b`; running sums equal to window sums.
- **C104 Average true range** — M_volat `atr`; simple average outside the index-2 case, closed form of the Wilder average.
- **C105 A normalised ATR is divided by the mid price** — M_volat `atr`; conditional theorem and refutation.
- **C106 Rolling variance** — M_volat `rolling_variance`.
- **C107 Variance ratio** — M_volat `variance_ratio`; factor 4 against the documentation.
- **C108 The half life halves the weights** — S_volat `wt`, `step_decay`, tied to the code by C99 and C100.
- **C109 Parkinson range** — M_volat `parkinson_range` for any logarithm function.
- **C110 CUSUM test statistic is the supremum over start points** — M_cusumtest `comp_max_s_nt`; S_transforms `first_sup`, any root and logarithm function.
- **C111 A CUSUM flag is raised exactly when some start point exceeds its critical value** — M_transforms `cusum_flag` over C110; refutation for any functions with the usual values at 2 and 3.
- **C112 Rolling CUSUM test** — M_cusumtest `cusum_rolling`; window alignment against C110, refutation of prefix stability.
- **C113 Bar rate** — M_transforms `bar_rate`; window counted from its first row, refutation on a regular grid.
- **C114 Daily gap compares midnight with the last close of the previous day** — M_transforms `daily_gap`; day blocks of a sorted index, refutation by look-ahead.
- **C115 Bi-power variation** — M_transforms `bipower`, `bipower_factor`.
- **C116 Lags, returns and bar durations** — M_transforms `shift`, `simple_return`, `bar_duration`.
- **C117 Building features in topological order never misses a dependency** — M_graph `kit_build_topo`; two refutations.
- **C118 Resampled bars count each trade in its own period** — M_tbio `floor_to` on labels of M_logic `time_bar_indexer`; refutation.
- **C119 Reading a range of stored bars loses none** — M_tbio `read_bars` against a filter of all bars.
- **C120 Months on the command line are read correctly** — M_tbio `parse_ym` against decimal text.
- **C121 Adding time bars to a file stores them where they are read** — M_addbar `process_key`, `check_keys` on files as key lists, python string replacement; refutation for the short key.
- **C122 The integrity summary lists exactly the flagged months** — M_addbar `integrity_summary`; refutation for unchecked months.
- **C123 Slices of footprint data keep all arrays together** — M_fpdata `fd_slice`, `getitem`, `is_valid`; position lists of python slices; refutation.
- **C124 The footprint frame holds every level exactly once** — M_fpdata `get_df`; insertion sort, permutation and order; refutation.
- **C125 What a bar builder returns does not depend on earlier calls** — M_builder `exec` state machine; invariant on the cached closes, highs and lows; refutation.
- **C126 Labels of a builder's frames** — M_builder `exec`, loops that append positions, C01; two refutations.
- **C127 CUSUM builders sharing a sigma array** — M_builder `exec`; idempotence of `fill_sigma`; refutation.
- **C128 The frames of a builder agree bar by bar** — M_builder `exec` with C13, C17, C18.
- **C129 Both implementations of the simple moving average** — M_backend `sma_pd`, `sma_nan`, `sma_int`; refutation for integers.
- **C130 Exponential moving averages of the two implementations** — M_backend `ewma_pd`, `ewma_nan`; closed form of the recursion; refutation for gaps.
- **C131 Percent change, realized volatility and VPIN of the two implementations** — M_backend `pct_pd`, `rv_pd`, `vpin_pd` against M_features, M_volat, M_volume; refutations.
- **C132 Price-volume correlation of the two implementations** — M_backend `pv_corr_pd` against M_features `pv_correlation`; moments identity, Cauchy-Schwarz; refutations.
- **C133 MeanReversionZScore** — M_backend `mr_zscore`; Cauchy-Schwarz on the deviations.
- **C134 KurtosisTransform** — M_backend `kurtosis_pd`; Cauchy-Schwarz, affine maps.
- **C135 TrendSlope** — M_backend `trend_slope`; normal equations, optimality and uniqueness of the best line.
- **C136 HurstExponent** — M_backend `hurst`; price path differences are sums of returns; refutation for short windows.
- **C137 Volume bars with float64 rounding** — M_float `rnd`, `volume_bar_indexer_f`; rounding proved to be nearest-even; error analysis by induction over the trades; vm_compute refutation.
- **C138 Dollar bars with float64 rounding** — M_float `dollar_bar_run_f`; error analysis with telescoping remainders; refutation.
- **C139 OHLCV bars with float64 rounding and float32 volume** — M_float `bar_ohlcv_f`; relative error calculus `within`; refutations.
- **C140 Buy and sell totals with float64 rounding and float32 storage** — M_float `bar_directional_f` against M_bars `bar_directional`; absolute errors of signed sums; refutation.
- **C141 Footprint volumes in float32 cells** — M_float `bar_levels_f`; per-level invariant; refutation for every number of trades.
- **C142 Merged trades in float32 cells** — M_float `merge_rows_f` simulated against M_trades `merge_rows`; refutation.
- **C143 Price levels of float prices** — M_float `level_f`; monotone rounding, uniqueness of the nearest integer.
- **C144 Features with several outputs** — M_multi `mkit_build`; locality of `call` by induction on transforms, effect of one step; refutations.
- **C145 External functions as features** — M_multi `ext_call` inside `mkit_build`; case analysis of replies; refutations.
- **C146 Volume profile of a date range equals the profile of all bars** — M_volpro `vp_range`, `vp_compute`; slices of the rolling profile; refutation with irregular bars.
- **C147 Features do not look ahead** — M_features, M_volat, M_volume, M_transforms, M_backend, M_cusumtest; locality of every loop; refutations.
- **C148 Checksum files of the import** — M_binance `read_checksum`, `verify_checksum`; first match of `findall` by induction on the text; refutation.
- **C149 Reading a CSV of trades** — M_binance `load_csv`; column by column; refutations.
- **C150 Imported trades keep their side** — M_binance `process_task`; C149 with the sides theorem of `preprocess` (C23); refutation with an unstable sort.
- **C151 Parallel import does not depend on scheduling** — M_binance `process_all`; induction on the writer's items; refutations.
- **C152 Target file of an import** — M_binance `orchestrate`, `search_date`, `to_rename`, `market_label`; refutations.
- **C153 Output names identify the transform** — M_names `produced`, `core_of`; names split at the last underscore and the first digit; C65 for the kit; refutations.
- **C154 Names of feature expressions are unambiguous** — M_kit `out_name`, `build`; unique reading of printed trees; C65 for the kit; refutations.
- **C155 Simple moving average in float64** — M_float2 `sma_f`; error of a left-to-right sum by induction, exact sums on a grid; refutation.
- **C156 VWAP distance in float64** — M_float2 `vwap_distance_f`; induction on rolling updates, exact sums on grids; refutations for any number of later rows.
- **C157 VPIN in float64 and float32** — M_float2 `vpin_f`; error of running sums, monotone rounding, C51 for the exact ratio; refutation.
- **C158 Flow acceleration in float64** — M_float2 `comp_flow_acceleration_f`; monotone running sums, exact sums on a grid; refutation for any number of later bars.
- **C159 Rolling z-score in float64** — M_float2 `comp_zscore_f`; error of mean and squared deviations, zero variance iff all values equal the mean; refutation.
- **C160 Exponentially weighted moving average in float64** — M_float2 `ewma_f`; relative error of the recursion by induction, scaling by powers of two; refutation.
- **C161 Bars do not depend on the units of prices and amounts** — S_units `sc`, S_unitbars; the loops of two runs related step by step (fold_rel); extremes by the minimum of start value and values seen; refutation.
- **C162 Momentum, trend and distance indicators do not depend on units** — S_units; every kernel of M_features related to itself in the other unit, comparisons and ratios do not see the unit; np.log and np.sqrt are parameters that respect equality and squares.
- **C163 Volatility indicators and units** — As C162 for M_volat and the correlation; exact square root of rational squares in the examples; refutation for a missing high.
- **C164 Flow indicators and the unit of volume** — As C162 for `vpin`; two refutations by the absolute constants.
- **C165 Labels do not depend on the unit of prices** — As C162 for `triple_barrier`, logarithms with unit-free differences; the binary logarithm in the example.
- **C166 Changing units by powers of two is exact in float64** — Rounding commutes with powers of two (`rnd_two`); the runs of M_float and M_float2 related step by step; refutation by 0.1.
- **C167 Saving and loading a whole feature kit** — M_kitcfg `reload_kit` over M_config; values of a kit as one fold over the features (C65), names removed by `unname` do not change values; refutation by a kit whose order changes.
- **C168 Looking up months of a file, before and after adding bars** — M_inspect over the files of M_addbar; frame lemma: adding bars only touches keys below /klines and /klines_meta.
- **C169 What the inspector reports about saved trades** — M_inspect over M_store; invariants of save histories (C88), minimum and maximum by induction; two refutations by appends.
- **C170 The clock only names the bars** — Builder sessions related step by step (`machine_rel`); closed form of the float64 clock between 2^60 and 2^61 (`modern_clock`); five refutations by computation.
- **C171 Indicators and labels do not depend on the date** — Shift lemmas for binary searches and roundings (`f64_shift`: rounding to 256 commutes with multiples of 512); three refutations by computation.
- **C172 Exchanging buyers and sellers exchanges the two columns** — Step lemmas for `d_step` and `fp_step` under negated sides; `rhe (c - x) = c - rhe x` for even c; lists reversed; five refutations by computation.
- **C173 Rises and falls are treated alike** — Both CUSUM sums together never exceed an earlier threshold unless one crosses (`f_inv`, `b_inv`), so no two crossings coincide; scans of `triple_barrier` related step by step; four refutations by computation.
- **C174 A larger parameter means fewer and later reports** — Two runs coupled (`couple`): the one with the smaller threshold is ahead in count or, at equal counts, in its sum; for CUSUM each side separately; four refutations by computation.
- **C175 Time bars built month by month** — Closed form of the frame over absolute tick numbers (`time_bars_closed`); positions and bars of joined lists (`cl_first`, `cl_second`, `bar_l`, `bar_r`); induction over the pieces; four refutations by computation.
- **C176 Indicators of prices with a constant added or turned upside down** — A constant is two reflections (`turn_twice`), so most proofs treat the reflection only; sums of a window and of squares follow by induction (`valid_sums_level`, `bb_sums_level`, `ewl`, `etl`); the scans of the break test keep both statistics side by side; five refutations by computation.
- **C177 The tick size estimate in float64 is the nearest number to the exact tick** — M_tickf `comp_price_tick_size_f`; error of the rounded price in units of the grid (`F_err`), order of distinct prices (`unique_F`), exponent off by at most one (`log_bounds`), exact integers (`int_exact`); three refutations by computation.
- **C178 A run on the trades so far agrees with a run on all trades** — Relation `starts` (one list begins the other) pushed through indexers (`sorted_split`), the calls of a builder (`online_calls`), causal columns, filter and barriers; composed in `C178_pipeline`; four refutations by computation.
- **C179 Which log records are written where** — M_log: set-up as a function of environment and root logger, effective levels by walking up the name; `effective_setup` by induction over the components; two refutations by computation.
- **C180 RSI, stochastic %K and ADX in float64** — M_float3; quotient of two numbers with relative errors (`within_div`), Wilder averages (`wilder_within`, `wsum_within`), exact differences of neighbours (`sterbenz`), error of a ratio bounded by 1 against its scale (`dx_of_near`); two refutations by computation.
- **C181 Which events there are, in what order, and in what units weights are given** — S_weights2 `pick`, `reorders`, `chooses`; overlap of chosen events as a filter over the chosen positions (`overlap_pick`); `final_same`: two calls with proportional raw weights; three refutations by computation.
- **C182 CUSUM events in float64 are those of exact arithmetic away from the threshold** — M_float4; both loops as one step with a decision (`gstep`); each running sum is a sum of consecutive returns or 0, and its error follows e' = (1+u)(e + d) + u B (`cerr_S`, `sync_fold`); two refutations by computation.
- **C183 The triple barrier method in float64** — M_float5; both loops step by step (`scan_sync`, `scan_f_first`); error of a return (`ret_near`), of a quotient by a rounded divisor (`quot3`), of maxima and weights (`upd_near`, `weight_near`); two refutations by computation.
- **C184 Sample weights in float64** — M_float6; S_sumf `some_order`: sums in any order and grouping with every addition rounded (`some_order_within`, `some_order_le`); 1 - p and back is exact for every float p up to 2^53 (`round_trip_small`, `round_trip_big`, `p_range_neg`); products and quotients of relative errors (`within_mult_r`, `within_div_r`); one refutation by computation.
- **C185 Volatility estimators in float64** — M_float7; max and abs commute with rounding (`pmax_r53`, `r53_abs`); magnitude of all terms that entered or left a rolling sum (`moved`, `bb_sums_near`), exact on a grid (`bb_sums_grid`); the four sums of ewms against exact ones with the same decay (`ew_fold_tracks`); mean of absolute values against mean square (`mean_sq_le`); refutations by computation, for every square root.
- **C186 Time-decayed volatility and price/volume correlation in float64** — M_float8; the rounded weights of a step add up to 1 (`decay_exact`, by Sterbenz on either side of 1/2); sums against the weights `wt` of the rounded decays (`m0_tracks`, `et_tracks_all`); sums of products of rounded deviations (`cross_near`); refutations by computation with the float64 value of exp as hypothesis, for every square root.
- **C187 CUSUM test on levels in float64** — M_float9; correctly rounded square root on rationals (`sqrt53`, `half_ulp`); statistics compared by their squares, so no real square root occurs (`rise2`, `fall2`, `stat_within`); the test against 1e-16 passes (`guard_ok`, by Bernoulli's inequality); refutation by computation with `sqrt53`, for every logarithm.
- **C188 Returns, burst ratio, Parkinson range and variance ratio in float64** — M_float10; two float64 numbers differ by more than the unit roundoff of the smaller (`fl_above`, `fl_below`), so that the rounded ratio keeps the comparison (`quot_cmp`); the subtraction of 1 is exact between 1/2 and 2 (Sterbenz); medians of any sign (`median_f_signed`); refutations by computation, for every logarithm.
- **C189 Volume profiles in float32 and float64** — M_float11; the loop against the inductive greedy search `value_area_f` (`va_loop_f_spec`); running volume within one rounding per level (`vaf_cover`), exact on a grid (`vaf_exact`); aggregation by induction on the bars (`agg_fold_f`), levels through the monotone map of prices to rounded quotients (`window_levels_quots`); bucket cells against the exact ones (`cells_fold`); eight decimals: a float32 closer than half the gap is returned (`r24_close`); refutations by computation.
- **C190 Footprint features in float32 and float64** — M_float12; comparison with a float32 number survives rounding of the product (`imb_sound`), exact for short multipliers (`imb_exact`); sums, quotients and squares as relative roundings (`gini_within`); skew: the exact first moment about the exact mean is 0, the rest is the error of the rounded mean, deviations, totals and inner product (`vwap_close`, `dev_close`, `skew_small`); left-to-right float32 inner product as an instance (`dot24_ok`); refutations by computation.
- **C191 Trade-size features in float64 and float32** — M_float13; the rank is rounded to the whole number when 20 divides n - 1 (`r53_near_fl`: nearest float64 within 0.45 roundings) and stays 1/20 away from whole numbers otherwise (`rank_floor`); its fraction and complement are exact on the grid of the rank (`percentile_f_spec`); sums and quotients as relative roundings; share at most 1 by monotone rounding (`block_le`); refutations by computation.
- **C192 Footprints end to end in float32 and float64** — M_float14; cells of M_float.v fed to M_float12.v: cells are float32 numbers (`levels_f_fl`), relative cell roundings through sums, quotients and squares (`within_div_c`, `within_mult_c`), flags and centre of trades by combining the bounds of C141 and C190 (`fpf_flags`, `fpf_cot`, `fpf_gini`, `fpf_skew`), grids for lots (`fpf_lots`); refutation by computation.
- **C193 Powers of two as units cost no rounding** — M_float to M_float14; rounding commutes with powers of two (`sc_rnd`), so does the correctly rounded square root (`sqrt53_binary`); quotients are unit-free before rounding (`r53_ratio`); loops by a relation between the two runs (`fold_rel`); the -1 that marks an exhausted side of the value area is kept apart from volumes (`vu`); refutation by computation.
- **C194 Volatilities and scores up to the final square root in float64** — M_float2, M_float7, M_float8, M_float9; squares of rounded numbers and quotients as relative roundings (`r53_sq`, `quotient_sq`), signs survive rounding (`r53_sign`), the variance bound by relative roundings of non-negative terms (`var_f_within`), then C185/C186; refutations by computation.
- **C195 Downloads of the import script** — M_download `download`, `fetch_month`, `orchestrate_symbol`, `import_main`; the replies of a row of requests as a function of their number (`dl_step`), names by length (`zip_name_inj`), months one after the other (`month_served`, `served_other`), then C72 and C152; refutations by computation, one for any number of runs.
- **C196 Candle shapes, gaps, bar rates, bi-power variation and bar durations in float64** — M_float15 `candle_shape_f`, `daily_gap_f`, `bar_rate_f`, `bipower_f`, `bar_duration_f`, `ewma_pd_f`; relative roundings (`within_div_r`, `sum_within`), absorption of a small addend by the grid of its partner (`absorb`), the two loops of the mean side by side (`mean_step`, `ewm_loops`) down to C130; refutations by computation.
- **C197 Resampled time bars in float32 and float64** — M_float16 `kahan`, `resample_f`; one compensated step keeps sum less compensation up to five roundings of the addend (`kahan_one`), all steps by induction (`kahan_run`), relative errors of quotients (`rel_quot`, `vwap_close`); refutations by computation, one for any number of values.
- **C198 From trades to resampled time bars** — M_pipe `stored_bars`, `stored_bars_f`; the bars of a period are consecutive (`group_range`), candles of neighbouring bars join (`group_candle`), sums over consecutive bars (`group_totals`); relative errors of bars (C139) through the compensated sums (C197); refutations by computation.
- **C199 Stored and resampled time bars do not depend on the units** — relation `same_stored` carried through bars (C166), columns (`prices_units`, `med_units`), the compensated sum (`kahan_units`) and the grouping (`rows_units`); refutation by computation.
- **C200 Stored and resampled time bars do not depend on the clock** — the ticks move with the trades (C170), periods move with the labels (`floor_later`, `uniq_later`, `group_later`), no other column knows the label (`agg_later`, `agg_f_later`); refutation by computation.
- **C201 A range of resampled bars is the range of the bars, resampled** — `uniq_cut`, `group_cut`, `rows_cut` for any aggregation of periods, whole periods by `floor_ge`, `floor_lt`, with C119 for the partitions; refutations by computation.

## What Print Assumptions lists

Every property theorem is followed by `Print Assumptions` at the end of its `T_*.v`
file. For every one of them the answer is *Closed under the global context*: no axiom of
the standard library or of any other library is used, and section variables (root,
logarithm, exponential, sorting order, bar builder, set iteration order, ...) are ordinary
arguments of the closed theorems. `vcheck` also lists seven constants of `Coq.ssr.ssrunder`;
they are in the standard library files loaded by `lia`/`lra`/`field` and no theorem here
depends on them.

## What is modelled, file by file

| file | modelled | not modelled |
|---|---|---|
| `bar/logic.py` | all indexers (`M_logic`), int64 to float64 conversion of time stamps exactly, float64 rounding of volume and dollar bars (`M_float`) | float rounding of CUSUM returns |
| `bar/base.py` | OHLCV, directional, trade-size and footprint kernels (`M_bars`, `M_footprint`), the builder object with its caches (`M_builder`), float64 and float32 rounding (`M_float`) | rounding in the trade-size and footprint features, logging |
| `bar/kit.py` | all builders (`M_builder`) | argument printing |
| `bar/utils.py` | tick size, tick rule sides, median filter, sorting, merging (`M_trades`), imbalance kernels (`M_footprint`), `footprint_to_dataframe` (`M_fpdata`) | `comp_price_tick_size_old` |
| `bar/data_model.py` | `TradesData`: preprocessing (`M_trades`), save, load, view (`M_store`); `FootprintData` (`M_fpdata`) | plotting, pickling, user prompts that are commented out |
| `bar/io.py` | reader, resampling, adding bars, gaps, integrity summary, inspector (`M_tbio`, `M_addbar`, `M_inspect`) | the HDF5 format itself (a file is a finite map from keys to contents), printing |
| `sampling/filters.py` | `M_sampling` | z-score filter bodies that are empty |
| `label/tbm.py`, `label/weights.py`, `label/kit.py` | `M_tbm`, `M_weights`, `M_labelkit` | logging |
| `feature/core/*.py` | `M_features`, `M_volume`, `M_volat`, `M_cusumtest`, `VolumePro` (`M_volpro`), float rounding of averages, VWAP distance, z-score, VPIN and flow acceleration (`M_float2`) | float rounding of the other kernels |
| `feature/transforms.py` | `M_transforms`, both implementations of the rolling transforms (`M_backend`), constructor table of all classes (`M_config`), output names (`M_names`), `ExternalFunction` (`M_multi`) | import of functions by path, `ApproximateEntropy` |
| `feature/base.py`, `feature/kit.py`, `feature/utils.py` | expressions, call, cache, pipelines, kit, graph (`M_kit`, `M_graph`), several-output features (`M_multi`), serialisation (`M_config`, `M_kitcfg`) | drawing of graphs, JSON text itself |
| `scripts/binance2h5.py` | month parsing and enumeration (`M_tbio`); checksum files, CSV tables, tasks, writer, names and renaming (`M_binance`) | download, unpacking, hashing, argument parsing |

## Findings

Statements a user would expect that are false of the code. Each has a theorem
`..._refuted` with a concrete witness, and a theorem with the exact condition under which
the statement holds.

*Bars.* Bar `i` is the slice (close_i, close_{i+1}], so trade 0 is in no tick, volume or
dollar bar and the first tick bar has one trade less. float64 time stamps can move the
first tick past the first trade (C02). Trades appended with the time stamp of the last
trade can move a CUSUM close (C08). An empty leading time bar reads the *last* price (C10), and directional
features of a bar that starts at index -1 use the last trade (C15). Sentinels of 1e9 are
wrong beyond 1e9 (C14). Trade-size features are relative to `theta*theta_mult`, not to
`theta` (C16). A bar of a single trade always counts a spread (C79). The length check of
the CUSUM indexer accepts some different lengths (C83). Millisecond time bars have no OHLCV
frame, because float64 ticks are unevenly spaced and pandas rejects the frequency, and the
first request for footprints raises while the second succeeds (C125, C126). Labels of tick bars repeat
inside equal time stamps (C126). The CUSUM builder overwrites the caller's sigma (C127). The same trades
before and after 2^53 ns (April 1970) give different numbers of time bars, and cutting time stamps to
milliseconds changes CUSUM bars (C170).

*Rounding.* Ten volumes of 0.1 do not close a volume or dollar bar of 1 (C137, C138). The
VWAP can lie above the high (C139). Bar volumes are float32, so buy and sell volume need not
add up to the bar volume (C139, C140). Footprint cells are added to in float32: from 2^24
units on, unit trades vanish in any number (C141). Preprocessing turns every amount into a float32, also
without split trades (C142). The average of 49 ones is below 1, and
exponential averages do not keep a constant 3 (C155, C160). The z-score of three times 0.1 is a number rather than NaN
(C159). Rolling sums never forget: after one large trade the VWAP distance and the flow
acceleration are wrong in every later row, VPIN exceeds 1, and a window without volume does
not repeat the last VWAP distance (C156-C158).

*Footprint data.* `is_valid` accepts bars whose level arrays have different lengths (C123). An
integer key gives an object without length, half-open date slices raise, and the step of a
date slice is ignored (C123). Rows of bars with equal times are interleaved in the frame (C124).

*Trades and store.* `is_buyer_maker` is neither re-ordered nor de-duplicated with the trades
(C23). The resolution is reduced after merging, so mergeable trades remain (C82). The tick
size estimate can be 0 or not divide the prices (C80). Appending to a month replaces its
range and integrity records, which hides older trades (C31); metadata without integrity
flag goes through float64 and hides trades too (C30). Saving an empty view removes the
month and then raises (C84). Unreadable groups are dropped silently when loading in parallel (C85).
An append of clean data resets flag and missing percentage of a month and keeps its old discontinuities (C169).

*Time bar files.* A daily read never contains the end date (C71). Resampled periods are
shifted by one bar interval, because bars are labelled with their closing time (C118).
Medians of two-step resampling differ from one step (C69). Gaps between months are not
found (C70). The documented short keys lose the bars or raise (C121). "No issues" includes
months that were never checked (C122).

*Labels and weights.* The weight of an event whose barrier is touched can be below 1 (C38).
A multiplier of minus infinity touches at once instead of disabling the barrier (C73). Events kept by
the kit can be unlabelled (C76) and evaluated past the data (C78), and one NaN weight makes
all final weights NaN (C75). Concurrency counters are int16 (C39). Time decay does not start
at its documented weight, and -1 divides by zero (C41).

*Features.* Stochastic %K with swapped arguments leaves [0,100] (C47). RSI backends differ
(C50). The first VWAP distance ignores `is_log` (C52). Correlations are clamped to fixed
values (C53). The last bucket price exceeds the traded range (C55). A developing profile
that does not start at bar 0 writes elsewhere (C57). Lagged returns round time stamps
(C58); a shift of the whole history by 20 ns changes labels (C171). Run lengths and ages wrap at 8 bits (C59, C60). Equal time stamps break the opening
range flags (C62). `ewmst` counts NaN as 0 (C100) and its half life is a time constant
(C108). ATR has a special case at index 2 (C104) and mixes normalised with other values
(C105). The variance ratio is four times the documented one (C107). The CUSUM test only
checks the start point with the largest statistic (C111) and changes old values when data
is appended (C112). The bar rate window is closed at both ends (C113). The daily gap looks ahead (C114). The
bi-power factor is sqrt(pi/2) (C115). The two implementations of a transform differ: the numba
SMA truncates integer series (C129), the numba EWMA is missing for ever after one gap (C130),
percent changes differ at gaps and zeros and VPIN at tiny volumes (C131), price-volume
correlations have different hard-coded cases and treat gaps differently (C132). The Hurst
exponent with window 1, 4, 6, 7 or 8 raises and with 2, 3, 5 or 9 is always missing (C136). The volume
profile of a range misses its first bars unless a bar stands exactly one window before the
start (C146). The variance ratio of a short table changes when rows are appended, and the
pandas price-volume correlation uses later rows (C147). Absolute constants make VPIN, flow
acceleration and the running extremes of bars depend on the unit of volume, a missing high
leaves the normalised ATR in price units (C161, C163, C164).

*Symmetry.* Imbalance flags compare buyers with the level below and sellers with the level
above; ties of the point of control and of imbalance runs go to the lower level (C172). When a
rise and a fall are due at one moment the CUSUM filter reports the fall, the CUSUM bars the
rise, and the other sum keeps running; a return of 0 is labelled 1 (C173).
For the same reasons a larger CUSUM threshold can give one event more, and in float64 a larger
dollar threshold one bar more, because the carried amount is rounded (C174).

*Import script.* Files without a well-formed checksum file are accepted unverified (C148).
CSV files with a header line cannot be read; one missing maker flag in a numeric column
clears all flags of the file; unparsable prices become NaN (C149). Trades of equal time may
get each other's side (C150). Two files starting in one month overwrite each other, and a
failing save ends the writer silently (C151). Renaming an older file overwrites an existing
target; months whose task failed are missing (C152).

*Feature kit.* Names are cache keys: two features with one output name share a value (C65),
pipelines read existing columns instead of the previous step (C67). Cycles are not
rejected (C66), the default order misses dependencies and renaming breaks dependents
(C117). Names given to several-output features are ignored and CUSUM tests of one window
on two columns overwrite each other (C144). External functions must not return plain
lists, and without declared names a second use on another column gets the cached values of
the first (C145). Names omit parameters (kind of return, degrees of freedom, band width,
sample correction, windows of whole minutes) and, for transforms of several columns, the
columns (C153); applied functions omit their arguments (C154). Saving loses parameters of several transforms and replaces or breaks applied functions (C68);
a loaded kit may compute its features in another order (C167).

*Bars in pieces.* `AddTimeBarH5` builds each month by itself: the first trade of a month is
in no bar if its time is a whole second, while it would be in a bar had all trades been
read together (C175); seconds without trades at the turn of a month have no bar.

*Direction of prices.* Falling prices have RSI 0, but rising ones have none with numba; flat
prices are at 100 with pandas whichever way they are turned. A missing return counts as a
return of 0 in `ewmst`, so adding a constant to all returns changes that volatility (C176).

*Tick size in float64.* Prices 100000 and 200000 give the tick size 99999.99999999999, because
the scale 10^-5 is not a float64 number; prices 1.5 and 2.5 give 0 (C177). On prices with at
most 12 decimals and a pair fewer than ten steps apart the estimate is correctly rounded.

*Look-ahead in the first time bar.* Time bars may start at the first trade of the array. For
such a bar `comp_bar_directional_features` takes `trade_sides[-1]` and `prices[-1]`, the last
trade of the whole array, as the trade before the first, so its spread changes with every
later trade (C178).

*Logging.* `FMK_LOG_FILE_PATH=finmlkit.log` makes the first import raise FileNotFoundError
(`os.makedirs("")`), and as the console handler is already attached the next import succeeds
without a log file. An unknown file level raises TypeError even when nothing is logged to a
file (C179).

*Oscillators in float64.* The stochastic %K of a close at the top of its window can be
100.00000000000001 (low 1.0, high 1.11). ADX compares rounded moves: highs 2, 3 with lows 1,
2^-60 give 0 where the exact value is 100; with neighbouring prices within a factor of two the
moves are exact and this cannot happen (C180).

*Sample weights.* Leaving an event out can lower the return attribution of another one (shared
returns no longer cancel in part); a class of total weight 0 takes its share of the total with
it, so balanced weights are not balanced again (C181).

*CUSUM in float64.* A running sum that lies within its rounding error of the threshold can
report an event that exact arithmetic does not report or miss one, and all later sums then
start elsewhere (C182).

*Triple barrier in float64.* A return that equals a barrier up to rounding may touch it in
float64 and not in exact arithmetic, and prices whose logarithms round to the same number give
the label 1 whatever the sign of the exact return (C183).

*Sample weights in float64.* With a negative last_weight an event at the boundary of the erased
part, weight 0 in exact arithmetic, can keep a positive weight of order 1e-17 (C184).

*Volatility in float64.* Variances are computed as mean square minus squared mean. For values of
size 1e8 that differ by 1 the rolling variance is wrong by a factor (3 instead of 1) and `ewms`
is 0; around 1e9 a variance of 2/3 is reported as 0. `bollinger_percent_b` updates its sums, so
the rounding of one very large close stays in them: closes 1, 2, 1e9, 1, 2, 1.5, ... with window
3 give NaN for every bar after the outlier has left the window. `ewms` after a single value
and some NaN should be NaN, but its denominator can be a rounding error above 0: [5, NaN, NaN] with span
28 gives 7.448; and after a long gap it is NaN although two values are present (C185).

*Time-decayed volatility and correlation in float64.* After a single observation `ewmst` should return
the floor. Its raw variance and its denominator are then both 0 up to rounding, and where both are
rounding errors above 0 their quotient is of the size of the squared return: two timestamps 49 s apart, half-life 30 s
and a return of 0.001 give a deviation of 0.00124 instead of 1e-12. Flat series get deviations of
about 1e-8 times the value instead of the floor. `rolling_price_volume_correlation` of returns and volumes that
do not vary should be NaN; three returns of 0.1 and volumes of 0.1 give 1 (C186).

The CUSUM test on levels reports the critical value of the start point with the largest computed statistic. Where two start
points tie but for the last bit, rounding decides which, and the critical values differ: log prices 0, 0, 0.45876, 1, 2.5
(C187).

`variance_ratio_1_4_core` guards against a zero variance, but rounding gets past the guard: seven prices growing by exactly
1 percent per bar have equal returns and no variance, and window 3 returns 0.25 instead of NaN. The lagged simple return is
`close[i] / close[j] - 1`, which has no bound on its relative error (50 percent for neighbouring prices at 1.5), while
`pct_change`, `(x - base) / base`, has one of two roundings (C188).

Volume profiles add float32 volumes in float32 cells and a float32 total. A cell or total of 2^24 absorbs volumes of 1: a value
area of 100 percent over the levels (2^24, 1, 1) is the first level alone; the share above the POC exceeds 1 for
(1/4, 2^24, 1, 1) with the POC passed as the lowest level, since its numerator is summed in float64; and a level of
2^24 + 1 + 1 traded in three bars loses the POC to a lower level of 2^24. `trim_trailing_zeros` rounds the volumes it returns to
eight decimals, which zeroes volumes below 5e-9 and changes some below 1/4 (C189).

`comp_footprint_features` computes `vp_skew` as the volume weighted mean deviation from the volume weighted mean, which is 0 for
every input (C21). What it returns is the rounding error of float32 arithmetic on integer level numbers: -1/16 of a tick for a
single level 1000003 with volume 17, and never more than 9n + 29 float32 roundings of the level number (C190).

`comp_bar_trade_size_features` takes numba's `np.percentile`, which computes `lower * (1 - m) + upper * m`: the 95th percentile of
three trades of 2.9 is 2.9000000000000004, above the maximum. A trade of 0.30000000000000004 is above 3 times the float64 number
0.1 and yet no block, since the rounded product equals it (C191).

`comp_bar_footprints` adds float32 cells trade by trade, so unit trades on a level that has reached 2^24 are lost: five sells of
2^24, 1, 1, 1, 1 one level below buys of 2^24 and 2 give a buy imbalance at multiplier 1 although more was sold (C192).

Footprint levels are `round(price / tick)`, so quoting the same prices in cents instead of dollars can move a half-tick price to
another level: 0.15 at tick 0.1 is level 1, 1.5 at tick 1 is level 2. Units that are powers of two change nothing (C193).

The price-volume correlation divides by a product of two rounded square roots and is cut at 1 only from above: two rows with
volumes proportional to returns give 0.9999999999999998. The sample z-score of the second of two neighbouring floats is 1 instead
of 0.7071, since the mean rounds to the first (C194).

`orchestrate_symbol` renews a zip file that does not match its checksum file, but never the checksum file: if that one is wrong, a
sound zip is deleted and fetched again in every run and the import still rejects it. `download_file` writes to the final name, so a
broken download leaves part of a file. The next run takes it for complete unless a checksum file says otherwise, and a later 404 in
the same call reports the month as not found while its part is imported. An address that fails three times ends the whole program:
months already downloaded are not stored and later symbols are not tried (C195).

`CandleShape` adds 1e-12 to the range so that a flat bar does not divide by zero. The constant is absolute: at ranges from 2^14 it
is lost altogether, and on instruments quoted in units of 1e-12 or less it halves every ratio or worse. The three ratios of a bar
can add up to more than 1 (wick 0.8, body 0.2). `BarRate` divides before it multiplies: 57 bars within the hour are reported as
57.00000000000001 per hour. pandas' exponentially weighted mean of two neighbouring floats can lie below both
(C196).

Stored volumes are float32, and so are resampled ones. pandas' compensated sum keeps the error near 11 roundings however long the
period, but the result is a float32 again: 16777216 + 1 + 1 is 16777218 in one step and 16777216 if the first two are resampled
before (C197).

Resampling promises to leave out periods without trading. It drops rows whose open is NaN, but a stored bar without trades repeats
the last price and has no NaN: every period between the first and the last bar is kept, empty ones with volume 0 and VWAP NaN. For
the same reason a period that starts with a quiet second opens with a price of an earlier period, and its high or low may be that
price although nothing traded there (C198).

Daily rows cannot be read in instalments: `read` up to one date and from the next date on leaves out the day of the first end date,
which is complete and part of the requested range. A start inside a period gives a first row labelled before the start that holds
only a part of the period (C201).

## Trials with wrong programs

`seeded/LOG.jsonl` lists the edits of the model that were tried and the theorems that failed. Proofs that broke were replaced by
assumptions in a scratch copy and the theorems depending on them counted as failed. Edits after which the model or a statement no
longer type-checked, and edits whose rebuild ran out of time, showed nothing either way and are not in the log.
