{
 "claims": [
  {
   "property": "C01",
   "status": "proved",
   "theorems": [
    "C01_clock",
    "C01_close_positions",
    "C01_bar_of_trade",
    "C01_cover",
    "C01_microseconds"
   ],
   "note": "Close positions and bar membership hold for every sorted input; the clock form and coverage hold when the first/last trade are not within the float64 rounding window of a boundary (always true for microsecond timestamps, C01_microseconds)."
  },
  {
   "property": "C02",
   "status": "partial",
   "theorems": [
    "C02_first_tick_refuted",
    "C02_last_trade_uncovered_refuted",
    "C02_first_tick_partial"
   ],
   "note": "Refuted: int64->float64 conversion can move the first trade past a boundary. Partial theorem: the error is at most 128 ns and only occurs in the last 128 ns before a boundary."
  },
  {
   "property": "C03",
   "status": "proved",
   "theorems": [
    "C03_tick_positions",
    "C03_tick_closed_form",
    "C03_tick_threshold_one"
   ],
   "note": ""
  },
  {
   "property": "C04",
   "status": "proved",
   "theorems": [
    "C04_volume_greedy",
    "C04_volume_greedy_unique"
   ],
   "note": ""
  },
  {
   "property": "C05",
   "status": "proved",
   "theorems": [
    "C05_dollar_closes",
    "C05_dollar_sorted",
    "C05_dollar_conservation",
    "C05_dollar_residual_nonneg"
   ],
   "note": ""
  },
  {
   "property": "C06",
   "status": "proved",
   "theorems": [
    "C06_cusum_bars"
   ],
   "note": ""
  },
  {
   "property": "C07",
   "status": "proved",
   "theorems": [
    "C07_sigma_fill",
    "C07_sigma_unknown"
   ],
   "note": ""
  },
  {
   "property": "C08",
   "status": "proved",
   "theorems": [
    "C08_tick_prefix",
    "C08_volume_prefix",
    "C08_dollar_prefix",
    "C08_cusum_bar_prefix",
    "C08_cusum_bar_block_refuted",
    "C08_cusum_filter_prefix"
   ],
   "note": "Tick, volume, dollar bars and the CUSUM filter (C33 file) for every cut; CUSUM bars for every cut outside a block of equal timestamps, with the witness showing the block condition is needed."
  },
  {
   "property": "C09",
   "status": "proved",
   "theorems": [
    "C09_ohlc",
    "C09_order",
    "C09_errors"
   ],
   "note": "Includes the error cases. Out-of-range close indices are outside the hypotheses (the code reads out of bounds)."
  },
  {
   "property": "C10",
   "status": "proved",
   "theorems": [
    "C10_empty_bar",
    "C10_leading_empty_refuted"
   ],
   "note": "For close index >= 0. With close index -1 twice (no trade before) the last price of the data is reported (C10_leading_empty_refuted); the time indexer never produces this."
  },
  {
   "property": "C11",
   "status": "proved",
   "theorems": [
    "C11_totals"
   ],
   "note": "The dollar part needs non-negative amounts."
  },
  {
   "property": "C12",
   "status": "proved",
   "theorems": [
    "C12_median"
   ],
   "note": ""
  },
  {
   "property": "C13",
   "status": "proved",
   "theorems": [
    "C13_parts",
    "C13_add_up"
   ],
   "note": ""
  },
  {
   "property": "C14",
   "status": "proved",
   "theorems": [
    "C14_extremes",
    "C14_sentinel_refuted"
   ],
   "note": "Within the stated +-1e9; beyond it the sentinels win (C14_sentinel_refuted)."
  },
  {
   "property": "C15",
   "status": "proved",
   "theorems": [
    "C15_locality",
    "C15_first_bar_refuted"
   ],
   "note": "Locality for bars that do not start at trade 0; C15_first_bar_refuted is the stated failure."
  },
  {
   "property": "C16",
   "status": "proved",
   "theorems": [
    "C16_ranges",
    "C16_nan",
    "C16_relative",
    "C16_relative_to_theta_refuted"
   ],
   "note": "Also: exact value of mean/p95; the docstring's 'relative to theta' is refuted (the code divides by theta*theta_mult). log1p is an arbitrary function."
  },
  {
   "property": "C17",
   "status": "proved",
   "theorems": [
    "C17_levels",
    "C17_totals",
    "C17_level_unique"
   ],
   "note": ""
  },
  {
   "property": "C18",
   "status": "proved",
   "theorems": [
    "C18_builder_ok",
    "C18_only_value_errors",
    "C18_out_of_range_raises",
    "C18_zero_tick"
   ],
   "note": ""
  },
  {
   "property": "C19",
   "status": "proved",
   "theorems": [
    "C19_flags"
   ],
   "note": ""
  },
  {
   "property": "C20",
   "status": "proved",
   "theorems": [
    "C20_max_run"
   ],
   "note": ""
  },
  {
   "property": "C21",
   "status": "proved",
   "theorems": [
    "C21_profile"
   ],
   "note": ""
  },
  {
   "property": "C22",
   "status": "proved",
   "theorems": [
    "C22_groups",
    "C22_laws",
    "C22_no_mergeable_neighbours"
   ],
   "note": "The grouping specification (S_trades.grouping) says every input trade is in exactly one group of consecutive trades."
  },
  {
   "property": "C23",
   "status": "partial",
   "theorems": [
    "C23_sides_partial",
    "C23_order_refuted",
    "C23_duplicate_refuted"
   ],
   "note": "Refuted for out-of-order and for duplicated ids; proved for strictly increasing ids with non-decreasing timestamps."
  },
  {
   "property": "C24",
   "status": "proved",
   "theorems": [
    "C24_preprocess",
    "C24_unique_ids_keep_all",
    "C24_first_occurrence",
    "C24_errors"
   ],
   "note": "For every function that sorts by id (pandas quicksort need not be stable); the first occurrence is kept if it is stable."
  },
  {
   "property": "C25",
   "status": "proved",
   "theorems": [
    "C25_gaps"
   ],
   "note": ""
  },
  {
   "property": "C26",
   "status": "proved",
   "theorems": [
    "C26_floor",
    "C26_resolution",
    "C26_unit",
    "C26_convert"
   ],
   "note": "The nanosecond boundary is 1e18+64 because numpy compares int64 with a float literal in float64."
  },
  {
   "property": "C27",
   "status": "proved",
   "theorems": [
    "C27_tick_rule",
    "C27_determined",
    "C27_values"
   ],
   "note": ""
  },
  {
   "property": "C28",
   "status": "proved",
   "theorems": [
    "C28_median",
    "C28_symmetric"
   ],
   "note": ""
  },
  {
   "property": "C29",
   "status": "proved",
   "theorems": [
    "C29_key_load",
    "C29_save_succeeds"
   ],
   "note": "save_h5 with overwriting, any mixture of explicit and derived month keys; PyTables and file system behaviour as stated in M_store.v."
  },
  {
   "property": "C30",
   "status": "partial",
   "theorems": [
    "C30_range_load",
    "C30_chronological",
    "C30_unpreprocessed_refuted"
   ],
   "note": "Proved when data_ok is set (preprocessed data) or the frame's end timestamps are not moved by float64; refuted for data_ok None, where pandas stores the metadata as float64."
  },
  {
   "property": "C31",
   "status": "partial",
   "theorems": [
    "C31_append_partial",
    "C31_hidden_refuted",
    "C31_integrity_refuted"
   ],
   "note": "Refuted (older trades and older integrity records); the partial theorem gives the exact outcome of a range load after an append."
  },
  {
   "property": "C32",
   "status": "proved",
   "theorems": [
    "C32_schedule_independent",
    "C32_reachable_consistent"
   ],
   "note": "For every completion order, including a failing pool (sequential fallback) and failing groups."
  },
  {
   "property": "C33",
   "status": "proved",
   "theorems": [
    "C33_cusum_filter"
   ],
   "note": "For every series and every threshold list without negative entries (NaN thresholds allowed)."
  },
  {
   "property": "C34",
   "status": "proved",
   "theorems": [
    "C34_constant_threshold",
    "C34_errors"
   ],
   "note": ""
  },
  {
   "property": "C35",
   "status": "proved",
   "theorems": [
    "C35_float64_monotone",
    "C35_first_touch",
    "C35_skipped"
   ],
   "note": "For every monotone conversion of timestamps to floats (float64 is one: C35_float64_monotone) and every logarithm function."
  },
  {
   "property": "C36",
   "status": "proved",
   "theorems": [
    "C36_no_lookahead",
    "C36_events_independent"
   ],
   "note": "Stated per event (C36_no_lookahead) plus independence of events at the public function."
  },
  {
   "property": "C37",
   "status": "proved",
   "theorems": [
    "C37_labels_weights"
   ],
   "note": "The weight is None (NaN) when the barrier in the direction of the return is infinite or zero; see C38."
  },
  {
   "property": "C38",
   "status": "partial",
   "theorems": [
    "C38_touched_weight_refuted",
    "C38_vertical_weight_partial"
   ],
   "note": "Refuted: a touch exactly at the vertical-barrier record gets the approach-ratio weight, which may be below 1. The partial theorem gives the exact weight there; touches strictly before it have weight 1 (C37)."
  },
  {
   "property": "C39",
   "status": "proved",
   "theorems": [
    "C39_concurrency",
    "C39_uniqueness",
    "C39_total",
    "C39_overflow_refuted"
   ],
   "note": "Exact below 32768 simultaneous labels; beyond that the int16 counter wraps (C39_overflow_refuted)."
  },
  {
   "property": "C40",
   "status": "proved",
   "theorems": [
    "C40_attribution",
    "C40_normalised",
    "C40_raises"
   ],
   "note": ""
  },
  {
   "property": "C41",
   "status": "proved",
   "theorems": [
    "C41_formula",
    "C41_shape",
    "C41_raises",
    "C41_oldest_weight_refuted",
    "C41_minus_one_refuted"
   ],
   "note": "The documented 'oldest gets last_weight' is false in general (C41_oldest_weight_refuted) and last_weight=-1 divides by zero; the statement of the property itself is proved."
  },
  {
   "property": "C42",
   "status": "proved",
   "theorems": [
    "C42_class_totals",
    "C42_total_and_proportions",
    "C42_classes"
   ],
   "note": ""
  },
  {
   "property": "C43",
   "status": "proved",
   "theorems": [
    "C43_mean_one",
    "C43_balanced"
   ],
   "note": ""
  },
  {
   "property": "C44",
   "status": "proved",
   "theorems": [
    "C44_kept_events"
   ],
   "note": ""
  },
  {
   "property": "C45",
   "status": "proved",
   "theorems": [
    "C45_sma"
   ],
   "note": ""
  },
  {
   "property": "C46",
   "status": "proved",
   "theorems": [
    "C46_ewma",
    "C46_rejects",
    "C46_causal"
   ],
   "note": ""
  },
  {
   "property": "C47",
   "status": "partial",
   "theorems": [
    "C47_core_range_partial",
    "C47_transform_refuted"
   ],
   "note": "The kernel stays in [0,100] when called with (close, low, high); the StochK transform passes (high, low, close) and leaves the range (refuted)."
  },
  {
   "property": "C48",
   "status": "proved",
   "theorems": [
    "C48_extremes"
   ],
   "note": ""
  },
  {
   "property": "C49",
   "status": "proved",
   "theorems": [
    "C49_value",
    "C49_range"
   ],
   "note": ""
  },
  {
   "property": "C50",
   "status": "partial",
   "theorems": [
    "C50_backends_partial",
    "C50_no_loss_refuted",
    "C50_short_refuted"
   ],
   "note": "Backends agree exactly where a loss is still visible; refuted otherwise (NaN vs 100) and for series not longer than the window (all NaN vs IndexError)."
  },
  {
   "property": "C51",
   "status": "proved",
   "theorems": [
    "C51_vpin",
    "C51_range"
   ],
   "note": ""
  },
  {
   "property": "C52",
   "status": "partial",
   "theorems": [
    "C52_rolling_partial",
    "C52_total",
    "C52_first_log_refuted"
   ],
   "note": "All rolling values proved; the first defined value ignores is_log (refuted)."
  },
  {
   "property": "C53",
   "status": "partial",
   "theorems": [
    "C53_pearson_partial",
    "C53_range",
    "C53_hardcoded_refuted",
    "C53_single_refuted"
   ],
   "note": "Pearson coefficient proved outside indices 4..9; hard-coded branch refuted."
  },
  {
   "property": "C54",
   "status": "proved",
   "theorems": [
    "C54_buckets"
   ],
   "note": ""
  },
  {
   "property": "C55",
   "status": "partial",
   "theorems": [
    "C55_range_refuted",
    "C55_overshoot"
   ],
   "note": "Refuted; prices are never below the lowest level and at most half a bucket width above the highest."
  },
  {
   "property": "C56",
   "status": "proved",
   "theorems": [
    "C56_value_area",
    "C56_greedy"
   ],
   "note": "Also for zero total volume; the search order is given by the inductive relation value_area."
  },
  {
   "property": "C57",
   "status": "partial",
   "theorems": [
    "C57_every_bar_refuted",
    "C57_late_start",
    "C57_from_first_partial"
   ],
   "note": "Refuted whenever a bar lies before the start; proved (without buckets) when the range starts at or before the first bar."
  },
  {
   "property": "C58",
   "status": "partial",
   "theorems": [
    "C58_grid_partial",
    "C58_accuracy",
    "C58_causal",
    "C58_rejects",
    "C58_rounding_refuted"
   ],
   "note": "Exact on a 256 ns grid, within 384 ns of float64 rounding in general; refuted for microsecond timestamps with the default window."
  },
  {
   "property": "C59",
   "status": "partial",
   "theorems": [
    "C59_run_partial",
    "C59_run_unique",
    "C59_long_run_refuted",
    "C59_missing_counts_one"
   ],
   "note": "Runs up to 127 bars proved, longer ones refuted (int8); a missing return counts as a run of one."
  },
  {
   "property": "C60",
   "status": "partial",
   "theorems": [
    "C60_age_partial",
    "C60_large_max_age_refuted",
    "C60_before_first_break",
    "C60_score",
    "C60_score_missing"
   ],
   "note": "max_age up to 255 proved, refuted beyond (uint8); before the first break the age counts from the start."
  },
  {
   "property": "C61",
   "status": "proved",
   "theorems": [
    "C61_candle",
    "C61_vwap_drift"
   ],
   "note": ""
  },
  {
   "property": "C62",
   "status": "proved",
   "theorems": [
    "C62_long",
    "C62_short",
    "C62_exclusive",
    "C62_causal",
    "C62_duplicates_refuted"
   ],
   "note": "Strictly increasing time stamps; with repeated ones refuted (C62_duplicates_refuted)."
  },
  {
   "property": "C63",
   "status": "proved",
   "theorems": [
    "C63_time_cues",
    "C63_rowwise"
   ],
   "note": ""
  },
  {
   "property": "C64",
   "status": "proved",
   "theorems": [
    "C64_pointwise",
    "C64_nan",
    "C64_rational",
    "C64_shadow"
   ],
   "note": "For frames without a column named like the feature or one of its operands; with such a column the cached column is returned (C64_shadow)."
  },
  {
   "property": "C65",
   "status": "partial",
   "theorems": [
    "C65_independent_partial",
    "C65_order",
    "C65_collision_refuted"
   ],
   "note": "Proved when output names determine the computation and no pipeline consults a feature column; the unconditional statement is refuted by a name collision."
  },
  {
   "property": "C66",
   "status": "partial",
   "theorems": [
    "C66_topological_sort",
    "C66_cycle_dropped",
    "C66_graph",
    "C66_order",
    "C66_cycle_rejected_refuted"
   ],
   "note": "Permutation and dependency order proved for every iteration order; rejection of cycles is refuted."
  },
  {
   "property": "C67",
   "status": "partial",
   "theorems": [
    "C67_compose_partial",
    "C67_earlier_steps_ignored",
    "C67_default_columns_refuted"
   ],
   "note": "Proved when no step name or required column of a later step is in the frame; refuted otherwise."
  },
  {
   "property": "C68",
   "status": "partial",
   "theorems": [
    "C68_class_partial",
    "C68_class_table",
    "C68_returnt",
    "C68_returnt_refuted",
    "C68_shallow",
    "C68_method",
    "C68_roundtrip_partial",
    "C68_values",
    "C68_expressions",
    "C68_ema_refuted",
    "C68_apply_refuted",
    "C68_unknown_name",
    "C68_dependent_refuted"
   ],
   "note": "Proved for operators and methods over leaves that store their parameters; refuted for ReturnT, ema(adjust=False), apply with a known name and kits depending on an apply name. ExternalFunction is not modelled."
  },
  {
   "property": "C69",
   "status": "partial",
   "theorems": [
    "C69_totals",
    "C69_rows",
    "C69_fields",
    "C69_two_steps",
    "C69_median",
    "C69_median_two_steps_refuted"
   ],
   "note": "All proved except that the median trade size of two steps may differ from one step (refuted). Bars without open must be empty, volumes not negative. float32 rounding not modelled."
  },
  {
   "property": "C70",
   "status": "partial",
   "theorems": [
    "C70_exact",
    "C70_positions",
    "C70_none",
    "C70_file_refuted"
   ],
   "note": "Exact per partition; gaps between partitions are missed (refuted)."
  },
  {
   "property": "C71",
   "status": "partial",
   "theorems": [
    "C71_daily",
    "C71_end_inclusive_refuted",
    "C71_other"
   ],
   "note": "Refuted for daily timeframes, exact statement proved; other timeframes keep the end date."
  },
  {
   "property": "C72",
   "status": "proved",
   "theorems": [
    "C72_range"
   ],
   "note": ""
  },
  {
   "property": "C73",
   "status": "partial",
   "theorems": [
    "C73_negative_infinity",
    "C73_negative_infinity_disables_refuted"
   ],
   "note": "Refuted for -inf. +inf multipliers are covered by C35 (number_or_inf)."
  },
  {
   "property": "C74",
   "status": "proved",
   "theorems": [
    "C74_value_errors",
    "C74_no_other_error"
   ],
   "note": "Event independence is C36_events_independent."
  },
  {
   "property": "C75",
   "status": "partial",
   "theorems": [
    "C75_nan_poisons",
    "C75_kit_weights_finite_refuted"
   ],
   "note": ""
  },
  {
   "property": "C76",
   "status": "partial",
   "theorems": [
    "C76_labelled_iff_partial",
    "C76_every_kept_event_labelled_refuted"
   ],
   "note": "Refuted; the partial theorem characterises exactly which kept events are labelled."
  },
  {
   "property": "C77",
   "status": "proved",
   "theorems": [
    "C77_rows_kept",
    "C77_raises"
   ],
   "note": ""
  },
  {
   "property": "C78",
   "status": "partial",
   "theorems": [
    "C78_window_inside_data_refuted",
    "C78_window_inside_data_partial"
   ],
   "note": "Refuted; proved when the event time is a trade time."
  },
  {
   "property": "C79",
   "status": "proved",
   "theorems": [
    "C79_spread",
    "C79_single_trade_refuted",
    "C79_no_sided"
   ],
   "note": "Both the positive part and the stated failure are proved."
  },
  {
   "property": "C80",
   "status": "partial",
   "theorems": [
    "C80_exact_partial",
    "C80_constant",
    "C80_zero_refuted",
    "C80_divides_refuted"
   ],
   "note": "Refuted twice (0 for two different prices; 0.2 for a 0.05 grid). Exact arithmetic; float64 is C177."
  },
  {
   "property": "C81",
   "status": "proved",
   "theorems": [
    "C81_order_check",
    "C81_fast_sort"
   ],
   "note": "For every argsort result that is a sorting permutation."
  },
  {
   "property": "C82",
   "status": "partial",
   "theorems": [
    "C82_separated_partial",
    "C82_resolution_refuted"
   ],
   "note": "Proved when no (or the same) processing resolution is given, refuted for a coarser one."
  },
  {
   "property": "C83",
   "status": "partial",
   "theorems": [
    "C83_accepts_iff",
    "C83_equal_lengths_refuted"
   ],
   "note": "Refuted; exact acceptance condition proved."
  },
  {
   "property": "C84",
   "status": "partial",
   "theorems": [
    "C84_outcome_partial",
    "C84_atomic_refuted"
   ],
   "note": "Refuted; outcome characterised on every consistent store."
  },
  {
   "property": "C85",
   "status": "partial",
   "theorems": [
    "C85_dropped_refuted",
    "C85_readable_partial"
   ],
   "note": "Refuted; exactly the readable groups are returned."
  },
  {
   "property": "C86",
   "status": "proved",
   "theorems": [
    "C86_view_range",
    "C86_view_data",
    "C86_no_view"
   ],
   "note": ""
  },
  {
   "property": "C87",
   "status": "proved",
   "theorems": [
    "C87_month_order",
    "C87_injective"
   ],
   "note": ""
  },
  {
   "property": "C88",
   "status": "proved",
   "theorems": [
    "C88_metadata"
   ],
   "note": ""
  },
  {
   "property": "C89",
   "status": "proved",
   "theorems": [
    "C89_zscore"
   ],
   "note": ""
  },
  {
   "property": "C90",
   "status": "proved",
   "theorems": [
    "C90_range",
    "C90_value"
   ],
   "note": ""
  },
  {
   "property": "C91",
   "status": "proved",
   "theorems": [
    "C91_roc",
    "C91_pct"
   ],
   "note": ""
  },
  {
   "property": "C92",
   "status": "proved",
   "theorems": [
    "C92_burst"
   ],
   "note": ""
  },
  {
   "property": "C93",
   "status": "proved",
   "theorems": [
    "C93_aggregate"
   ],
   "note": ""
  },
  {
   "property": "C94",
   "status": "proved",
   "theorems": [
    "C94_rolling",
    "C94_prices"
   ],
   "note": "Without buckets (n_bins None); with buckets see C54-C56 for the single steps."
  },
  {
   "property": "C95",
   "status": "proved",
   "theorems": [
    "C95_share"
   ],
   "note": ""
  },
  {
   "property": "C96",
   "status": "proved",
   "theorems": [
    "C96_flow_acceleration"
   ],
   "note": ""
  },
  {
   "property": "C97",
   "status": "proved",
   "theorems": [
    "C97_trim"
   ],
   "note": ""
  },
  {
   "property": "C98",
   "status": "proved",
   "theorems": [
    "C98_ewms",
    "C98_small_span"
   ],
   "note": ""
  },
  {
   "property": "C99",
   "status": "proved",
   "theorems": [
    "C99_ewmst_mean0",
    "C99_zero_half_life"
   ],
   "note": ""
  },
  {
   "property": "C100",
   "status": "partial",
   "theorems": [
    "C100_zero_filled_partial",
    "C100_missing_refuted"
   ],
   "note": "Refuted for series with NaN; proved for the zero-filled series."
  },
  {
   "property": "C101",
   "status": "proved",
   "theorems": [
    "C101_true_range",
    "C101_lengths"
   ],
   "note": ""
  },
  {
   "property": "C102",
   "status": "proved",
   "theorems": [
    "C102_realized_vol"
   ],
   "note": ""
  },
  {
   "property": "C103",
   "status": "proved",
   "theorems": [
    "C103_percent_b",
    "C103_window_one"
   ],
   "note": ""
  },
  {
   "property": "C104",
   "status": "partial",
   "theorems": [
    "C104_sma_partial",
    "C104_index_two_refuted",
    "C104_ema"
   ],
   "note": "Index-2 special case refuted; simple average proved elsewhere, Wilder average proved in full."
  },
  {
   "property": "C105",
   "status": "partial",
   "theorems": [
    "C105_normalised",
    "C105_all_normalised_refuted"
   ],
   "note": "Refuted at bars with missing or non-positive mid price; proved elsewhere."
  },
  {
   "property": "C106",
   "status": "proved",
   "theorems": [
    "C106_rolling_variance"
   ],
   "note": ""
  },
  {
   "property": "C107",
   "status": "partial",
   "theorems": [
    "C107_ratio",
    "C107_documented_refuted"
   ],
   "note": "Documented scale refuted; returned value characterised."
  },
  {
   "property": "C108",
   "status": "partial",
   "theorems": [
    "C108_time_constant",
    "C108_half_life_refuted"
   ],
   "note": "Refuted; the factor is exp(-1)."
  },
  {
   "property": "C109",
   "status": "proved",
   "theorems": [
    "C109_parkinson"
   ],
   "note": ""
  },
  {
   "property": "C110",
   "status": "proved",
   "theorems": [
    "C110_suprema",
    "C110_no_start_point"
   ],
   "note": ""
  },
  {
   "property": "C111",
   "status": "partial",
   "theorems": [
    "C111_flag_sound_partial",
    "C111_flag_complete_refuted"
   ],
   "note": "Soundness proved, completeness refuted."
  },
  {
   "property": "C112",
   "status": "partial",
   "theorems": [
    "C112_rolling",
    "C112_raises",
    "C112_prefix_stable_refuted"
   ],
   "note": "Window alignment and errors proved; prefix stability refuted."
  },
  {
   "property": "C113",
   "status": "partial",
   "theorems": [
    "C113_count",
    "C113_window",
    "C113_regular",
    "C113_bars_per_hour_refuted"
   ],
   "note": "Window count proved; reading as bars per hour on a regular grid refuted."
  },
  {
   "property": "C114",
   "status": "partial",
   "theorems": [
    "C114_value",
    "C114_elsewhere",
    "C114_documented_partial",
    "C114_lookahead_refuted"
   ],
   "note": "Exact value proved; documented meaning and causality refuted."
  },
  {
   "property": "C115",
   "status": "partial",
   "theorems": [
    "C115_value",
    "C115_missing",
    "C115_scale",
    "C115_jump",
    "C115_factor_too_small",
    "C115_factor_refuted"
   ],
   "note": "Formula proved; the factor is refuted."
  },
  {
   "property": "C116",
   "status": "proved",
   "theorems": [
    "C116_duration_sum",
    "C116_duration_positive",
    "C116_lag",
    "C116_lag_compose",
    "C116_negative_lag",
    "C116_return",
    "C116_compound",
    "C116_missing"
   ],
   "note": ""
  },
  {
   "property": "C117",
   "status": "partial",
   "theorems": [
    "C117_topo_build",
    "C117_defined_refuted",
    "C117_renamed_refuted"
   ],
   "note": "Proved for order='topo' with output names as feature names; refuted for the default order and for renamed features."
  },
  {
   "property": "C118",
   "status": "partial",
   "theorems": [
    "C118_period",
    "C118_bars",
    "C118_same_period_refuted"
   ],
   "note": "Refuted; the exact period is proved."
  },
  {
   "property": "C119",
   "status": "proved",
   "theorems": [
    "C119_no_bar_lost",
    "C119_reversed",
    "C119_end_day",
    "C119_written"
   ],
   "note": "For metadata that bounds each partition, which holds for the metadata written with sorted bars."
  },
  {
   "property": "C120",
   "status": "proved",
   "theorems": [
    "C120_round_trip",
    "C120_valid",
    "C120_bad_month"
   ],
   "note": ""
  },
  {
   "property": "C121",
   "status": "partial",
   "theorems": [
    "C121_full_key",
    "C121_skip",
    "C121_short_key",
    "C121_empty",
    "C121_keys",
    "C121_formats_refuted"
   ],
   "note": "Proved for listed keys; refuted for the documented short key format."
  },
  {
   "property": "C122",
   "status": "partial",
   "theorems": [
    "C122_summary",
    "C122_checked_refuted"
   ],
   "note": "Exact content proved; the documented meaning of None is refuted."
  },
  {
   "property": "C123",
   "status": "partial",
   "theorems": [
    "C123_slice_aligned",
    "C123_range",
    "C123_tail",
    "C123_reverse",
    "C123_compose",
    "C123_valid_kept",
    "C123_from_numba",
    "C123_dates",
    "C123_half_open",
    "C123_int_no_length",
    "C123_valid_refuted"
   ],
   "note": "All slices proved; that is_valid excludes misaligned data is refuted."
  },
  {
   "property": "C124",
   "status": "partial",
   "theorems": [
    "C124_rows",
    "C124_order",
    "C124_totals",
    "C124_contiguous_refuted"
   ],
   "note": "Rows, order and totals proved; contiguity for equal bar times refuted."
  },
  {
   "property": "C125",
   "status": "partial",
   "theorems": [
    "C125_information_bars",
    "C125_time_bars",
    "C125_history_refuted"
   ],
   "note": "Proved under the float64 conditions for time bars; refuted for millisecond bars."
  },
  {
   "property": "C126",
   "status": "partial",
   "theorems": [
    "C126_labels",
    "C126_information_labels",
    "C126_positions",
    "C126_cusum_labels",
    "C126_time_labels",
    "C126_unique_refuted",
    "C126_millisecond_refuted"
   ],
   "note": "Proved; uniqueness of labels and millisecond frames refuted."
  },
  {
   "property": "C127",
   "status": "partial",
   "theorems": [
    "C127_second_builder",
    "C127_get_sigma",
    "C127_input_kept_refuted"
   ],
   "note": "Proved; that the caller's array is unchanged is refuted."
  },
  {
   "property": "C128",
   "status": "proved",
   "theorems": [
    "C128_succeeds",
    "C128_consistent"
   ],
   "note": ""
  },
  {
   "property": "C129",
   "status": "partial",
   "theorems": [
    "C129_mean",
    "C129_agree",
    "C129_complete",
    "C129_integer_refuted",
    "C129_integer_partial"
   ],
   "note": "Proved for float series; refuted for integer series (truncation)."
  },
  {
   "property": "C130",
   "status": "partial",
   "theorems": [
    "C130_pandas",
    "C130_complete",
    "C130_agree",
    "C130_gap",
    "C130_gap_refuted",
    "C130_span_one",
    "C130_durations"
   ],
   "note": "Proved; agreement on series with gaps refuted."
  },
  {
   "property": "C131",
   "status": "partial",
   "theorems": [
    "C131_pct_complete",
    "C131_pct_partial",
    "C131_pct_refuted",
    "C131_realized_vol",
    "C131_vpin_partial",
    "C131_vpin_refuted"
   ],
   "note": "Exact conditions proved; refuted beyond them."
  },
  {
   "property": "C132",
   "status": "partial",
   "theorems": [
    "C132_agree_partial",
    "C132_missing_refuted",
    "C132_hardcoded_refuted"
   ],
   "note": "Proved for columns without gaps outside the hard-coded cases, for square roots exact at the points used; refuted beyond them."
  },
  {
   "property": "C133",
   "status": "proved",
   "theorems": [
    "C133_value",
    "C133_bound",
    "C133_agree",
    "C133_single"
   ],
   "note": ""
  },
  {
   "property": "C134",
   "status": "proved",
   "theorems": [
    "C134_value",
    "C134_affine"
   ],
   "note": ""
  },
  {
   "property": "C135",
   "status": "proved",
   "theorems": [
    "C135_value",
    "C135_exact",
    "C135_rising",
    "C135_scale"
   ],
   "note": ""
  },
  {
   "property": "C136",
   "status": "partial",
   "theorems": [
    "C136_value",
    "C136_short",
    "C136_raises",
    "C136_raises_refuted",
    "C136_affine",
    "C136_first"
   ],
   "note": "Proved; windows 1, 4, 6, 7, 8 raise TypeError (refuted that a valid window never raises)."
  },
  {
   "property": "C137",
   "status": "partial",
   "theorems": [
    "C137_rounding",
    "C137_greedy",
    "C137_clear",
    "C137_integers",
    "C137_prefix",
    "C137_exact_closes_refuted"
   ],
   "note": "Proved up to rounding error and exactly on binary grids; exact closes refuted."
  },
  {
   "property": "C138",
   "status": "partial",
   "theorems": [
    "C138_conserve",
    "C138_integers",
    "C138_prefix",
    "C138_exact_closes_refuted"
   ],
   "note": "Proved up to rounding error and exactly on binary grids; exact closes refuted."
  },
  {
   "property": "C139",
   "status": "partial",
   "theorems": [
    "C139_prices",
    "C139_volume",
    "C139_vwap",
    "C139_vwap_range",
    "C139_median",
    "C139_integers",
    "C139_shape",
    "C139_vwap_in_range_refuted",
    "C139_volume_exact_refuted"
   ],
   "note": "Error bounds proved; VWAP between low and high and exact volume refuted."
  },
  {
   "property": "C140",
   "status": "partial",
   "theorems": [
    "C140_sides",
    "C140_extremes",
    "C140_spread",
    "C140_add_up",
    "C140_add_up_exactly_refuted"
   ],
   "note": "Error bounds proved; exact sum of buy and sell refuted."
  },
  {
   "property": "C141",
   "status": "partial",
   "theorems": [
    "C141_levels",
    "C141_integers",
    "C141_monotone",
    "C141_conserved_refuted"
   ],
   "note": "Error bounds proved; conservation refuted for any number of trades."
  },
  {
   "property": "C142",
   "status": "partial",
   "theorems": [
    "C142_rows",
    "C142_total",
    "C142_integers",
    "C142_unsplit_kept_refuted"
   ],
   "note": "Proved up to rounding error; unchanged amounts of unsplit trades refuted."
  },
  {
   "property": "C143",
   "status": "proved",
   "theorems": [
    "C143_no_error",
    "C143_level",
    "C143_monotone",
    "C143_errors"
   ],
   "note": ""
  },
  {
   "property": "C144",
   "status": "partial",
   "theorems": [
    "C144_local",
    "C144_independent",
    "C144_outputs",
    "C144_name_ignored",
    "C144_rename",
    "C144_renamed_refuted",
    "C144_overwritten",
    "C144_collision_refuted"
   ],
   "note": "Proved for features that do not interfere; renaming and two tests on one window refuted."
  },
  {
   "property": "C145",
   "status": "partial",
   "theorems": [
    "C145_call",
    "C145_errors",
    "C145_plain_list_refuted",
    "C145_default_name_refuted"
   ],
   "note": "Proved; plain lists and default names refuted."
  },
  {
   "property": "C146",
   "status": "partial",
   "theorems": [
    "C146_range",
    "C146_exact_start",
    "C146_all_rows_refuted",
    "C146_prices"
   ],
   "note": "Proved row by row; complete rows only with a bar exactly one window before start, refuted otherwise."
  },
  {
   "property": "C147",
   "status": "partial",
   "theorems": [
    "C147_averages",
    "C147_momentum",
    "C147_trend",
    "C147_returns",
    "C147_volatility",
    "C147_others",
    "C147_cusum",
    "C147_variance_ratio",
    "C147_variance_ratio_refuted",
    "C147_cusum_refuted",
    "C147_pv_correlation_refuted",
    "C147_negative_lag_refuted"
   ],
   "note": "Proved for all listed features; variance ratio and CUSUM on short tables, pandas price-volume correlation and negative lags refuted."
  },
  {
   "property": "C148",
   "status": "partial",
   "theorems": [
    "C148_digest",
    "C148_verify",
    "C148_unverified_refuted"
   ],
   "note": "Proved; verification of every accepted file refuted."
  },
  {
   "property": "C149",
   "status": "partial",
   "theorems": [
    "C149_rows",
    "C149_sorted",
    "C149_errors",
    "C149_header_refuted",
    "C149_flags_refuted",
    "C149_price_refuted"
   ],
   "note": "Proved; header lines, missing flags and unparsable prices refuted."
  },
  {
   "property": "C150",
   "status": "partial",
   "theorems": [
    "C150_sides_partial",
    "C150_ties_refuted"
   ],
   "note": "Proved for files in order of ids with distinct times or an order-keeping sort; refuted for ties otherwise."
  },
  {
   "property": "C151",
   "status": "partial",
   "theorems": [
    "C151_stored",
    "C151_order",
    "C151_same_month_refuted",
    "C151_lost_refuted"
   ],
   "note": "Proved for different months and a consistent file; refuted for equal months and failing saves."
  },
  {
   "property": "C152",
   "status": "partial",
   "theorems": [
    "C152_month",
    "C152_found",
    "C152_target_partial",
    "C152_overwritten_refuted",
    "C152_failed_refuted",
    "C152_markets"
   ],
   "note": "Proved; survival of an existing target and completeness refuted."
  },
  {
   "property": "C153",
   "status": "partial",
   "theorems": [
    "C153_distinct",
    "C153_same_class",
    "C153_several_columns",
    "C153_kit",
    "C153_columns",
    "C153_options_refuted",
    "C153_columns_refuted",
    "C153_rate_refuted"
   ],
   "note": "Proved for the classes that show all parameters; hidden options, columns and windows refuted."
  },
  {
   "property": "C154",
   "status": "partial",
   "theorems": [
    "C154_expression",
    "C154_kit",
    "C154_apply_refuted",
    "C154_glue_refuted"
   ],
   "note": "Proved for operator expressions; applied functions refuted."
  },
  {
   "property": "C155",
   "status": "partial",
   "theorems": [
    "C155_rows",
    "C155_near",
    "C155_range",
    "C155_exact",
    "C155_constant_refuted"
   ],
   "note": "Proved; exactness on constant windows refuted."
  },
  {
   "property": "C156",
   "status": "partial",
   "theorems": [
    "C156_near",
    "C156_exact",
    "C156_empty_window_refuted",
    "C156_recovers_refuted"
   ],
   "note": "Proved; empty windows and recovery after a large trade refuted."
  },
  {
   "property": "C157",
   "status": "partial",
   "theorems": [
    "C157_near",
    "C157_exact",
    "C157_range_refuted"
   ],
   "note": "Proved; upper bound 1 refuted off the grid."
  },
  {
   "property": "C158",
   "status": "partial",
   "theorems": [
    "C158_defined",
    "C158_near",
    "C158_exact",
    "C158_recovers_refuted"
   ],
   "note": "Proved; recovery after a large bar refuted."
  },
  {
   "property": "C159",
   "status": "partial",
   "theorems": [
    "C159_near",
    "C159_constant",
    "C159_constant_refuted"
   ],
   "note": "Proved; NaN on every constant window refuted."
  },
  {
   "property": "C160",
   "status": "partial",
   "theorems": [
    "C160_rejects",
    "C160_near",
    "C160_constant",
    "C160_constant_refuted"
   ],
   "note": "Proved for non-negative series; constants other than powers of two refuted."
  },
  {
   "property": "C161",
   "status": "partial",
   "theorems": [
    "C161_volume",
    "C161_dollar",
    "C161_cusum",
    "C161_ohlcv",
    "C161_flow",
    "C161_extremes_refuted",
    "C161_extremes",
    "C161_sizes",
    "C161_footprints"
   ],
   "note": "Proved; running extremes refuted, true inside the start values."
  },
  {
   "property": "C162",
   "status": "proved",
   "theorems": [
    "C162_averages",
    "C162_momentum",
    "C162_vwap",
    "C162_relative"
   ],
   "note": ""
  },
  {
   "property": "C163",
   "status": "partial",
   "theorems": [
    "C163_scale",
    "C163_free",
    "C163_normalised",
    "C163_normalised_refuted"
   ],
   "note": "Proved; normalised ATR refuted for missing highs."
  },
  {
   "property": "C164",
   "status": "partial",
   "theorems": [
    "C164_vpin_refuted",
    "C164_vpin",
    "C164_flow_refuted"
   ],
   "note": "Refuted; VPIN proved where both values exist."
  },
  {
   "property": "C165",
   "status": "proved",
   "theorems": [
    "C165_labels"
   ],
   "note": ""
  },
  {
   "property": "C166",
   "status": "partial",
   "theorems": [
    "C166_bars",
    "C166_ohlcv",
    "C166_features",
    "C166_bars_refuted"
   ],
   "note": "Proved for powers of two; other factors refuted."
  },
  {
   "property": "C167",
   "status": "partial",
   "theorems": [
    "C167_outcome",
    "C167_names",
    "C167_same",
    "C167_build",
    "C167_missing_keys",
    "C167_graph_refuted"
   ],
   "note": "Proved; same dependency graph refuted."
  },
  {
   "property": "C168",
   "status": "partial",
   "theorems": [
    "C168_lookup",
    "C168_add_bars",
    "C168_bar_list",
    "C168_other_keys_refuted"
   ],
   "note": "Proved; restriction to trade keys refuted."
  },
  {
   "property": "C169",
   "status": "partial",
   "theorems": [
    "C169_statistics",
    "C169_months",
    "C169_agree",
    "C169_range_refuted",
    "C169_flag_refuted"
   ],
   "note": "Proved; range and flag after appends refuted."
  },
  {
   "property": "C170",
   "status": "partial",
   "theorems": [
    "C170_counted",
    "C170_cusum",
    "C170_time",
    "C170_clock",
    "C170_modern",
    "C170_part_refuted",
    "C170_epoch_refuted",
    "C170_rounding_refuted",
    "C170_coarser_refuted"
   ],
   "note": "Proved; partial intervals, crossings of 2^53 and roundings, coarser clocks refuted."
  },
  {
   "property": "C171",
   "status": "partial",
   "theorems": [
    "C171_durations",
    "C171_profiles",
    "C171_calendar",
    "C171_lagged",
    "C171_barriers",
    "C171_labels",
    "C171_lagged_refuted",
    "C171_labels_refuted",
    "C171_zone_refuted"
   ],
   "note": "Proved; shifts of less than 512 ns and time zones refuted."
  },
  {
   "property": "C172",
   "status": "partial",
   "theorems": [
    "C172_directional",
    "C172_sides",
    "C172_flags_refuted",
    "C172_upside_down",
    "C172_half_tick_refuted",
    "C172_peak_refuted",
    "C172_run_refuted"
   ],
   "note": "Proved; imbalance flags without turning prices, half ticks, ties refuted."
  },
  {
   "property": "C173",
   "status": "partial",
   "theorems": [
    "C173_filter",
    "C173_constant",
    "C173_falling_refuted",
    "C173_unknown_refuted",
    "C173_bars",
    "C173_block_refuted",
    "C173_tick_rule",
    "C173_vpin",
    "C173_labels",
    "C173_meta_labels",
    "C173_flat_refuted"
   ],
   "note": "Proved; falling or unknown thresholds, blocks of equal times, zero returns refuted."
  },
  {
   "property": "C174",
   "status": "partial",
   "theorems": [
    "C174_tick",
    "C174_volume",
    "C174_volume_float",
    "C174_volume_subset_refuted",
    "C174_dollar",
    "C174_dollar_float_refuted",
    "C174_filter",
    "C174_filter_constant",
    "C174_filter_falling_refuted",
    "C174_bars",
    "C174_block_refuted",
    "C174_barriers",
    "C174_horizon",
    "C174_min_ret",
    "C174_value_area",
    "C174_flags",
    "C174_gaps"
   ],
   "note": "Proved; dollar bars in float64, falling CUSUM thresholds, equal time stamps, subset of closes refuted."
  },
  {
   "property": "C175",
   "status": "partial",
   "theorems": [
    "C175_two",
    "C175_pieces",
    "C175_on_the_tick_refuted",
    "C175_same_interval_refuted",
    "C175_directional_refuted",
    "C175_tick_bars_refuted"
   ],
   "note": "Proved; first trades on a tick, shared intervals, directional features, tick bars refuted."
  },
  {
   "property": "C176",
   "status": "partial",
   "theorems": [
    "C176_averages",
    "C176_rsi",
    "C176_rsi_refuted",
    "C176_stochastic",
    "C176_stochastic_refuted",
    "C176_trend",
    "C176_ranges",
    "C176_ranges_refuted",
    "C176_deviations",
    "C176_volatilities",
    "C176_volatilities_refuted",
    "C176_zero_mean",
    "C176_log",
    "C176_log_refuted",
    "C176_break_test"
   ],
   "note": "Proved; RSI at its ends, stochastic transform, ATR in units of the close, missing returns, simple returns refuted."
  },
  {
   "property": "C177",
   "status": "partial",
   "theorems": [
    "C177_estimate",
    "C177_level",
    "C177_edges",
    "C177_positive_refuted",
    "C177_close_pair_refuted",
    "C177_large_steps_refuted"
   ],
   "note": "Proved; positive estimate, no close pair, steps of 100000 refuted."
  },
  {
   "property": "C178",
   "status": "partial",
   "theorems": [
    "C178_builders",
    "C178_time_bars",
    "C178_features",
    "C178_events",
    "C178_labels",
    "C178_pipeline",
    "C178_last_time_bar_refuted",
    "C178_first_time_bar_refuted",
    "C178_inferred_tick_refuted",
    "C178_open_window_refuted"
   ],
   "note": ""
  },
  {
   "property": "C179",
   "status": "partial",
   "theorems": [
    "C179_succeeds",
    "C179_records",
    "C179_once",
    "C179_failure_refuted",
    "C179_unused_level_refuted"
   ],
   "note": ""
  },
  {
   "property": "C180",
   "status": "partial",
   "theorems": [
    "C180_rsi",
    "C180_stoch",
    "C180_stoch_refuted",
    "C180_adx_range",
    "C180_adx",
    "C180_adx_gap_refuted"
   ],
   "note": ""
  },
  {
   "property": "C181",
   "status": "partial",
   "theorems": [
    "C181_fewer",
    "C181_order",
    "C181_attribution_order",
    "C181_balance_order",
    "C181_final_order",
    "C181_decay_order_refuted",
    "C181_attribution_fewer_refuted",
    "C181_join",
    "C181_scale",
    "C181_balance",
    "C181_balance_zero_refuted"
   ],
   "note": ""
  },
  {
   "property": "C182",
   "status": "partial",
   "theorems": [
    "C182_filter",
    "C182_filter_refuted",
    "C182_bars",
    "C182_bars_refuted"
   ],
   "note": ""
  },
  {
   "property": "C183",
   "status": "partial",
   "theorems": [
    "C183_touch",
    "C183_weight",
    "C183_touch_refuted",
    "C183_label_refuted",
    "C183_float"
   ],
   "note": ""
  },
  {
   "property": "C184",
   "status": "partial",
   "theorems": [
    "C184_uniqueness",
    "C184_attribution",
    "C184_normalised",
    "C184_decay",
    "C184_erased_refuted",
    "C184_balance",
    "C184_final"
   ],
   "note": ""
  },
  {
   "property": "C185",
   "status": "partial",
   "theorems": [
    "C185_true_range",
    "C185_atr",
    "C185_realized_vol",
    "C185_rolling_variance",
    "C185_variance_refuted",
    "C185_bollinger",
    "C185_bollinger_grid",
    "C185_spike_refuted",
    "C185_ewms_nan",
    "C185_ewms",
    "C185_ewms_refuted",
    "C185_ewms_flat_refuted"
   ],
   "note": ""
  },
  {
   "property": "C186",
   "status": "partial",
   "theorems": [
    "C186_argument",
    "C186_decay",
    "C186_mean0",
    "C186_ewmst",
    "C186_first_refuted",
    "C186_flat_refuted",
    "C186_corr_range",
    "C186_corr",
    "C186_corr_nan",
    "C186_corr_flat_refuted"
   ],
   "note": ""
  },
  {
   "property": "C187",
   "status": "partial",
   "theorems": [
    "C187_sqrt",
    "C187_statistic",
    "C187_flag_sound",
    "C187_flat",
    "C187_start_point_refuted",
    "C187_rolling"
   ],
   "note": ""
  },
  {
   "property": "C188",
   "status": "partial",
   "theorems": [
    "C188_ratio",
    "C188_lagged",
    "C188_lagged_relative_refuted",
    "C188_pct",
    "C188_roc",
    "C188_burst",
    "C188_parkinson",
    "C188_variance_ratio",
    "C188_trend_refuted"
   ],
   "note": ""
  },
  {
   "property": "C189",
   "status": "partial",
   "theorems": [
    "C189_area",
    "C189_coverage",
    "C189_lots",
    "C189_full_refuted",
    "C189_share",
    "C189_share_refuted",
    "C189_buckets",
    "C189_rolling",
    "C189_poc_refuted",
    "C189_round8",
    "C189_round8_refuted"
   ],
   "note": ""
  },
  {
   "property": "C190",
   "status": "partial",
   "theorems": [
    "C190_run",
    "C190_flags",
    "C190_flags_refuted",
    "C190_cot",
    "C190_cot_refuted",
    "C190_gini",
    "C190_gini_refuted",
    "C190_skew",
    "C190_skew_refuted"
   ],
   "note": ""
  },
  {
   "property": "C191",
   "status": "partial",
   "theorems": [
    "C191_nan",
    "C191_mean",
    "C191_p95",
    "C191_p95_refuted",
    "C191_block",
    "C191_block_refuted",
    "C191_gini",
    "C191_gini_refuted"
   ],
   "note": ""
  },
  {
   "property": "C192",
   "status": "partial",
   "theorems": [
    "C192_builder",
    "C192_errors",
    "C192_rows",
    "C192_flags",
    "C192_run",
    "C192_profile",
    "C192_lots",
    "C192_flags_refuted"
   ],
   "note": ""
  },
  {
   "property": "C193",
   "status": "partial",
   "theorems": [
    "C193_operations",
    "C193_returns",
    "C193_momentum",
    "C193_cusum",
    "C193_volatility",
    "C193_ranges",
    "C193_scores",
    "C193_flow",
    "C193_sizes",
    "C193_footprints",
    "C193_footprints_refuted",
    "C193_profile"
   ],
   "note": ""
  },
  {
   "property": "C194",
   "status": "partial",
   "theorems": [
    "C194_realized_vol",
    "C194_realized_bound",
    "C194_mean0",
    "C194_zscore",
    "C194_corr",
    "C194_corr_one_refuted",
    "C194_zscore_pair_refuted"
   ],
   "note": ""
  },
  {
   "property": "C195",
   "status": "partial",
   "theorems": [
    "C195_addresses",
    "C195_outcome",
    "C195_month_local",
    "C195_kept",
    "C195_run",
    "C195_again",
    "C195_imported",
    "C195_symbols",
    "C195_refused",
    "C195_wrong_checksum_refuted",
    "C195_broken_off_refuted",
    "C195_not_found_refuted",
    "C195_others_refuted"
   ],
   "note": ""
  },
  {
   "property": "C196",
   "status": "partial",
   "theorems": [
    "C196_shares",
    "C196_flat",
    "C196_full_body",
    "C196_exact_body",
    "C196_small_range",
    "C196_total_refuted",
    "C196_drift",
    "C196_gap",
    "C196_rate",
    "C196_rate_refuted",
    "C196_bipower",
    "C196_bipower_missing",
    "C196_duration",
    "C196_duration_missing",
    "C196_apart_refuted",
    "C196_ewma",
    "C196_duration_ewma",
    "C196_ewma_hull",
    "C196_ewma_constant",
    "C196_hull_refuted"
   ],
   "note": ""
  },
  {
   "property": "C197",
   "status": "partial",
   "theorems": [
    "C197_kahan",
    "C197_kahan_exact",
    "C197_plain_refuted",
    "C197_resample",
    "C197_rows",
    "C197_volume_exact",
    "C197_day",
    "C197_two_steps_refuted"
   ],
   "note": ""
  },
  {
   "property": "C198",
   "status": "partial",
   "theorems": [
    "C198_ticks",
    "C198_builder",
    "C198_row",
    "C198_periods",
    "C198_totals",
    "C198_float",
    "C198_no_empty_periods_refuted",
    "C198_first_trade_opens_refuted"
   ],
   "note": ""
  },
  {
   "property": "C199",
   "status": "partial",
   "theorems": [
    "C199_order",
    "C199_resample",
    "C199_resample_float",
    "C199_trades",
    "C199_trades_float",
    "C199_any_unit_refuted"
   ],
   "note": ""
  },
  {
   "property": "C200",
   "status": "partial",
   "theorems": [
    "C200_order",
    "C200_resample",
    "C200_trades",
    "C200_part_refuted"
   ],
   "note": ""
  },
  {
   "property": "C201",
   "status": "partial",
   "theorems": [
    "C201_cut",
    "C201_read",
    "C201_read_from",
    "C201_read_until",
    "C201_split",
    "C201_consecutive",
    "C201_daily_consecutive_refuted",
    "C201_start_refuted"
   ],
   "note": ""
  }
 ]
}