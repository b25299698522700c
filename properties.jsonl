{"id": "C01", "title": "Time bars put every trade into the clock interval that contains it", "statement": "For sorted trade timestamps and a bar length I, the time bar builder's clock is the run of consecutive multiples of I (each exactly I after the previous), starting at the largest multiple of I not after the first trade and reaching past the last trade; the close index reported for a clock tick is the position of the last trade at or before that tick (-1 if none). Hence every trade strictly after the first clock tick lies in exactly one bar, the one whose half-open interval (tick_k, tick_{k+1}] contains its timestamp.", "quantifier": "every non-empty sorted list of nanosecond timestamps that the float64 conversion leaves in its clock cell, and every positive integer bar length", "why_tests_cant": "The claim is about every alignment of trades to boundaries, every gap length and every duplicate timestamp pattern; a test fixes a handful.", "anchors": ["finmlkit/bar/logic.py:_time_bar_indexer", "finmlkit/bar/kit.py:TimeBarKit._comp_bar_close", "finmlkit/bar/base.py:BarBuilderBase.bar_close_indices"]}
{"id": "C02", "title": "The first time bar never starts after the first trade", "statement": "The first clock tick of a time bar series is not later than the first trade (so no leading trade is silently dropped). With the code's float64 arithmetic on nanosecond timestamps this can fail: a trade a few nanoseconds before a boundary is rounded up to it.", "quantifier": "every first timestamp (int64 nanoseconds) and every bar length", "why_tests_cant": "It needs a timestamp beyond 2^53 within rounding distance of a boundary; a sampled test practically never hits it.", "anchors": ["finmlkit/bar/logic.py:_time_bar_indexer"]}
{"id": "C03", "title": "Tick bars close exactly at every threshold-th trade", "statement": "For a tick threshold k>=1 the reported close positions are position 0 followed by exactly the positions i>=1 for which i+1 is a multiple of k, in increasing order; so every bar after the first holds exactly k trades, the first reported bar holds k-1 (k>=2), and fewer than k trades remain after the last close.", "quantifier": "every number of trades and every threshold", "why_tests_cant": "A counting law over every length and threshold, including the partial last bar.", "anchors": ["finmlkit/bar/logic.py:_tick_bar_indexer", "finmlkit/bar/kit.py:TickBarKit"]}
{"id": "C04", "title": "Volume bars are minimal: they reach the threshold with their last trade and not before", "statement": "For non-negative trade volumes and a positive threshold, the volume collected by every bar after the first is at least the threshold, while the volume of that bar without its last trade is below the threshold; after the last close the collected volume is below the threshold (the first bar counts the opening trade's volume too).", "quantifier": "every list of non-negative volumes and every positive threshold", "why_tests_cant": "Greedy segmentation must be right for every volume sequence.", "anchors": ["finmlkit/bar/logic.py:_volume_bar_indexer", "finmlkit/bar/kit.py:VolumeBarKit"]}
{"id": "C05", "title": "Dollar bars conserve dollars through carry-over", "statement": "For dollar bars, at every trade position i after the first the running residual equals the dollars traded up to i minus threshold times the number of bars closed up to i; a bar closes at i exactly when the residual before subtraction reaches the threshold. With non-negative dollars the residual never goes negative, so the number of bars closed up to i is at most (dollars traded up to i)/threshold.", "quantifier": "every price/volume sequence and every threshold", "why_tests_cant": "An invariant over every prefix of every trade history.", "anchors": ["finmlkit/bar/logic.py:_dollar_bar_indexer", "finmlkit/bar/kit.py:DollarBarKit"]}
{"id": "C06", "title": "CUSUM bars close exactly when a since-reset run of returns reaches the threshold", "statement": "A CUSUM bar closes at trade i iff i is not followed by a trade with the same timestamp and either some run of consecutive returns ending at i and starting after the last up-close (and after the first trade) sums to at least the threshold max(mult*sigma_i, floor), or (failing that) such a run since the last down-close sums to at most minus the threshold. In particular closes are strictly increasing and no bar ever closes inside a block of equal timestamps.", "quantifier": "every list of timestamps, returns and (NaN-containing) sigma values, every floor > 0 and multiplier", "why_tests_cant": "The path-dependent two-sided reset logic must be right for all return paths.", "anchors": ["finmlkit/bar/logic.py:_cusum_bar_indexer", "finmlkit/bar/kit.py:CUSUMBarKit"]}
{"id": "C07", "title": "CUSUM bar builder fills gaps in sigma with the last known value only", "statement": "The threshold used at trade i is based on the most recent non-NaN sigma at or before i; no bar is opened before the first non-NaN sigma, and a future sigma never influences an earlier close.", "quantifier": "every sigma vector with arbitrary NaN pattern", "why_tests_cant": "All NaN patterns, including leading and trailing runs.", "anchors": ["finmlkit/bar/logic.py:_cusum_bar_indexer"]}
{"id": "C08", "title": "Information bars are causal: later trades never change earlier closes", "statement": "Running the tick, volume, dollar bar indexers or the CUSUM filter on the first n records yields exactly the closes/events below n that running it on the whole data yields.", "quantifier": "every input and every cut point n", "why_tests_cant": "A look-ahead bug shows only for particular cut points; the law is over all of them.", "anchors": ["finmlkit/bar/logic.py:_tick_bar_indexer", "finmlkit/bar/logic.py:_volume_bar_indexer", "finmlkit/bar/logic.py:_dollar_bar_indexer", "finmlkit/sampling/filters.py:cusum_filter"]}
{"id": "C09", "title": "OHLC values describe exactly the trades of the bar", "statement": "For a non-empty bar covering trades s+1..e: open is the price of trade s+1, close the price of trade e, high/low are attained by some trade of the bar and bound all its prices, trades = e-s, volume is the sum of its amounts and vwap*volume the sum of price*amount when the volume is positive; consequently low <= open, close <= high, and low <= vwap <= high for non-negative amounts with positive total.", "quantifier": "every price/amount list and every sequence of close indices in range", "why_tests_cant": "Holds for every bar content, including ties, single-trade bars and index -1 as first close.", "anchors": ["finmlkit/bar/base.py:comp_bar_ohlcv", "finmlkit/bar/base.py:BarBuilderBase.build_ohlcv"]}
{"id": "C10", "title": "Empty bars repeat the last price and carry no volume", "statement": "A bar with no trades reports open=high=low=close=the price of the last trade before it, and zero volume, trades, vwap and median trade size.", "quantifier": "every bar sequence with empty bars", "why_tests_cant": "All gap positions and lengths.", "anchors": ["finmlkit/bar/base.py:comp_bar_ohlcv"]}
{"id": "C11", "title": "Bars partition the trades: totals over bars equal totals over trades", "statement": "For non-decreasing close indices c_0..c_k the sum of bar volumes, trade counts and dollar values (vwap*volume) equals the total over trades c_0+1..c_k; no trade is counted twice or lost.", "quantifier": "every close-index sequence and every trade list", "why_tests_cant": "A conservation law across an arbitrary number of bars.", "anchors": ["finmlkit/bar/base.py:comp_bar_ohlcv", "finmlkit/bar/base.py:comp_bar_directional_features"]}
{"id": "C12", "title": "The median trade size of a bar is a median", "statement": "The reported median trade size of a non-empty bar has at least half of the bar's amounts at or below it and at least half at or above it, lies between the smallest and largest amount and equals the middle element (odd) or the mean of the two middle elements (even) of the sorted amounts.", "quantifier": "every non-empty bar", "why_tests_cant": "Order statistics over all multisets.", "anchors": ["finmlkit/bar/base.py:comp_bar_ohlcv"]}
{"id": "C13", "title": "Buy and sell parts add up to the bar", "statement": "For every bar, ticks_buy/ticks_sell are the numbers of trades with side +1/-1, and volume_buy/volume_sell/dollars_buy/dollars_sell the sums over exactly these trades; if every trade has a side in {-1,+1}, they add up to the bar's trade count, volume and dollar value.", "quantifier": "every trade list, side assignment and close-index sequence", "why_tests_cant": "Conservation for all side patterns.", "anchors": ["finmlkit/bar/base.py:comp_bar_directional_features", "finmlkit/bar/base.py:comp_bar_ohlcv"]}
{"id": "C14", "title": "Cumulative imbalance extremes are the true extremes of the running imbalance", "statement": "In every bar containing at least one sided trade (with imbalances within +-1e9) cum_ticks_min/max (and the volume and dollar versions) are attained by, and bound, the running signed sums taken after each sided trade of the bar; bars without sided trades report the sentinels 1e9 / -1e9.", "quantifier": "every trade list and side pattern", "why_tests_cant": "Running extremes over every path.", "anchors": ["finmlkit/bar/base.py:comp_bar_directional_features"]}
{"id": "C15", "title": "Directional features of a bar use no trade outside the bar but its predecessor", "statement": "Changing trades later than a bar's last trade (or earlier than the one just before the bar) does not change the bar's directional features. This fails for the first time bar when its close index is -1: the spread is then computed against the last trade of the whole data set.", "quantifier": "every pair of trade lists agreeing on the bar and its predecessor", "why_tests_cant": "Look-ahead through negative index wrap-around shows only for bars starting at trade 0.", "anchors": ["finmlkit/bar/base.py:comp_bar_directional_features", "finmlkit/bar/logic.py:_time_bar_indexer"]}
{"id": "C16", "title": "Trade-size features stay in range", "statement": "For non-negative amounts and positive theta: pct_block is in [0,1] and is the share of volume in trades larger than theta*theta_mult; size_gini is in [0,1) and 0 for single-trade bars; all features are NaN for empty bars, zero theta, and pct_block/gini are NaN for zero volume.", "quantifier": "every bar", "why_tests_cant": "Range claims over all amounts.", "anchors": ["finmlkit/bar/base.py:comp_bar_trade_size_features"]}
{"id": "C17", "title": "Footprints conserve volume and ticks level by level", "statement": "Each footprint level's buy/sell volume and tick count is the sum over the bar's trades of that side whose price rounds to the level; the sums over levels equal the bar's directional buy/sell totals; levels are the contiguous integers from round(low/tick) to round(high/tick).", "quantifier": "every trade list, side pattern and positive tick size", "why_tests_cant": "Conservation across a data-dependent number of levels.", "anchors": ["finmlkit/bar/base.py:comp_bar_footprints", "finmlkit/bar/base.py:comp_bar_directional_features"]}
{"id": "C18", "title": "Footprint construction never fails on the builder's own bars", "statement": "When lows and highs come from the OHLCV of the same bars, every trade's rounded price level falls inside the bar's level range, so the 'Invalid price level index' error is never raised, whatever the tick size > 0 (even if prices are off-grid).", "quantifier": "every trade list, close indices and positive tick size", "why_tests_cant": "The error path depends on rounding of arbitrary prices.", "anchors": ["finmlkit/bar/base.py:comp_bar_footprints", "finmlkit/bar/base.py:BarBuilderBase.build_footprints"]}
{"id": "C19", "title": "Imbalance flags follow the diagonal rule", "statement": "Level l is flagged a buy imbalance iff l>0 and buy_l > factor*sell_{l-1}; a sell imbalance iff l is not the top level and sell_l > factor*buy_{l+1}; the bottom level is never buy-imbalanced, the top never sell-imbalanced, single-level bars have none.", "quantifier": "every pair of volume profiles and every factor", "why_tests_cant": "All profile shapes and edges.", "anchors": ["finmlkit/bar/base.py:comp_footprint_features"]}
{"id": "C20", "title": "The signed maximal imbalance run is the longest run", "statement": "|imb_max_run_signed| is the length of the longest block of consecutive levels with the same imbalance sign (buy wins when both flags are set), its sign is the sign of the first such longest block, and it is 0 iff no level is imbalanced.", "quantifier": "every flag pattern", "why_tests_cant": "Longest-run logic over all patterns.", "anchors": ["finmlkit/bar/base.py:comp_footprint_features"]}
{"id": "C21", "title": "COT level, volume profile gini and skew", "statement": "cot_price_level is the lowest level attaining the maximal total volume; vp_gini is in [0,1); vp_skew, although documented as a skew around VWAP (positive = buy pressure above VWAP), is identically 0 for every profile.", "quantifier": "every non-negative volume profile", "why_tests_cant": "The skew identity is an algebraic fact no sample can establish.", "anchors": ["finmlkit/bar/base.py:comp_footprint_features"]}
{"id": "C22", "title": "Merging split trades loses nothing and is complete", "statement": "Merging split trades preserves the total amount, keeps the order of timestamps, leaves no two neighbouring records that are still mergeable (same timestamp, price within 1e-8, same side), gives every output record the timestamp, price and side of the first trade of its group, every input trade belongs to exactly one group, and merging again changes nothing.", "quantifier": "every non-empty trade list, with or without side information", "why_tests_cant": "Algebraic laws over all trade lists.", "anchors": ["finmlkit/bar/utils.py:merge_split_trades", "finmlkit/bar/data_model.py:TradesData._merge_trades"]}
{"id": "C23", "title": "Preprocessing keeps each trade's side", "statement": "After TradesData(preprocess=True, is_buyer_maker=...) every output record's side is the side of the input trade it came from. True when the input is already ordered by id with unique ids and non-decreasing timestamps; false otherwise: the rows are re-ordered and de-duplicated, the side array is not.", "quantifier": "every input trade list", "why_tests_cant": "Needs out-of-order or duplicated ids; existing tests feed sorted ids.", "anchors": ["finmlkit/bar/data_model.py:TradesData._sort_trades", "finmlkit/bar/data_model.py:TradesData._merge_trades", "finmlkit/bar/data_model.py:TradesData.__init__"]}
{"id": "C24", "title": "Preprocessing sorts, de-duplicates and loses no trade", "statement": "After preprocessing timestamps are non-decreasing; every distinct trade id contributes exactly one of its rows (the first occurrence when the sort by id is stable; pandas' default sort is not), so the total amount equals the sum over distinct ids.", "quantifier": "every input trade list (any order, any duplicates)", "why_tests_cant": "Sorting/dedup laws over all permutations.", "anchors": ["finmlkit/bar/data_model.py:TradesData._sort_trades", "finmlkit/bar/data_model.py:TradesData._merge_trades"]}
{"id": "C25", "title": "Trade id gaps are all found and counted", "statement": "missing_pct is 100*(number of integer ids missing between the smallest and largest id)/(number of distinct ids); a gap is recorded as a discontinuity iff the neighbouring trades are more than one minute apart, with exactly the surrounding ids and the number of missing ids; data_ok is True iff there are no duplicates and no such gap.", "quantifier": "every id/timestamp list", "why_tests_cant": "All gap patterns.", "anchors": ["finmlkit/bar/data_model.py:TradesData._validate_data", "finmlkit/bar/data_model.py:TradesData._sort_trades"]}
{"id": "C26", "title": "Timestamp resolution reduction is a monotone floor", "statement": "Converting to a processing resolution maps each timestamp to the largest multiple of the resolution not after it; it never reorders trades, moves a timestamp by less than one unit and is idempotent; unit inference decides by the maximal timestamp with boundaries 1e12, 1e15 and 1e18+64 (the last one because the comparison is done in float64).", "quantifier": "every timestamp list and resolution", "why_tests_cant": "Order preservation for all integers, including negatives.", "anchors": ["finmlkit/bar/data_model.py:TradesData._apply_timestamp_resolution", "finmlkit/bar/data_model.py:TradesData._convert_timestamps_to_ns", "finmlkit/bar/data_model.py:TradesData._infer_timestamp_unit"]}
{"id": "C27", "title": "Tick rule side is the sign of the last price change", "statement": "The inferred side of trade i is the sign of the last price change larger than 1e-12 at or before i, and 0 as long as there has been none; sides are always in {-1,0,1}.", "quantifier": "every price list", "why_tests_cant": "History-dependent rule over all price paths.", "anchors": ["finmlkit/bar/utils.py:comp_trade_side_vector", "finmlkit/bar/utils.py:comp_trade_side"]}
{"id": "C28", "title": "Median-of-three filter returns the middle value", "statement": "median3(a,b,c) is one of the three arguments, at least one other is <= it and at least one other is >= it, and the result does not depend on the order of arguments.", "quantifier": "every triple of numbers", "why_tests_cant": "All orderings and ties.", "anchors": ["finmlkit/bar/utils.py:median3"]}
{"id": "C29", "title": "Saved trades come back: last write per month wins", "statement": "After any sequence of save_h5 calls with overwriting enabled, loading a month by key returns exactly the trades of the last save to that month, and months never written are reported missing; saves to one month never alter another.", "quantifier": "every sequence of saves over any set of months", "why_tests_cant": "An invariant over all histories of saves.", "anchors": ["finmlkit/bar/data_model.py:TradesData.save_h5", "finmlkit/bar/data_model.py:TradesData.load_trades_h5"]}
{"id": "C30", "title": "Loading a time range returns exactly the stored trades in the closed range", "statement": "For a store written by overwriting saves of sorted frames, load_trades_h5(start,end) returns precisely all stored trades with start <= time <= end in chronological order (stable by month), and fails iff there are none; the per-month metadata never hides a group that intersects the range.", "quantifier": "every store history and every (possibly open) range", "why_tests_cant": "Range/metadata interaction over all histories.", "anchors": ["finmlkit/bar/data_model.py:TradesData.load_trades_h5", "finmlkit/bar/data_model.py:TradesData._keys_for_timerange"]}
{"id": "C31", "title": "Appending to a month keeps older trades reachable", "statement": "After save_h5(overwrite_month=False) onto an existing month, a range load still returns the older trades in the range. False for the code: the metadata range is replaced by the appended frame's range, so older trades become invisible to range queries (key loads still return them).", "quantifier": "every pair of saves and every range", "why_tests_cant": "Needs an append followed by a range query on the older part.", "anchors": ["finmlkit/bar/data_model.py:TradesData.save_h5", "finmlkit/bar/data_model.py:TradesData._keys_for_timerange"]}
{"id": "C32", "title": "Parallel and sequential loading return the same trades", "statement": "For every completion order of the worker processes, multiprocess loading concatenates the groups in the same order and returns the same rows as sequential loading.", "quantifier": "every schedule of worker completion", "why_tests_cant": "The schedule is non-deterministic; tests see one.", "anchors": ["finmlkit/bar/data_model.py:TradesData.load_trades_h5", "finmlkit/bar/data_model.py:_load_single_h5_group"]}
{"id": "C33", "title": "CUSUM filter flags exactly the threshold crossings since the last reset", "statement": "cusum_filter reports index i iff some run of consecutive log returns ending at i that starts after the last downward event sums below -threshold_i, or (failing that) a run since the last upward event sums above threshold_i. Events are strictly increasing and never index 0.", "quantifier": "every price path and (constant or per-index) threshold", "why_tests_cant": "Path-dependent two-sided reset logic.", "anchors": ["finmlkit/sampling/filters.py:cusum_filter"]}
{"id": "C34", "title": "A constant threshold equals its expanded vector, wrong lengths are rejected", "statement": "cusum_filter with a one-element threshold equals the call with that value repeated for every index; any other length mismatch, or fewer than two prices, raises.", "quantifier": "every price list and threshold list", "why_tests_cant": "All lengths.", "anchors": ["finmlkit/sampling/filters.py:cusum_filter"]}
{"id": "C35", "title": "Triple barrier labels use the first touch within the window", "statement": "For each evaluated event the touch index is the first index after the event, not before the minimum close time and not after the vertical barrier, where the signed log return reaches the upper or lower barrier; if there is none it is the last index within the vertical barrier. The reported return is the signed log return at that index whenever that index is at or past the minimum close time.", "quantifier": "every price path, event, target, barrier pair and time setting", "why_tests_cant": "First-passage over all paths.", "anchors": ["finmlkit/label/tbm.py:triple_barrier"]}
{"id": "C36", "title": "Triple barrier never looks past the vertical barrier", "statement": "Labels, touch index, return and weight of an event do not change if prices after event_time + vertical_barrier are altered or appended.", "quantifier": "every pair of price series agreeing up to the vertical barrier", "why_tests_cant": "Look-ahead needs adversarial futures.", "anchors": ["finmlkit/label/tbm.py:triple_barrier"]}
{"id": "C37", "title": "Triple barrier labels and weights are in range and consistent with the return", "statement": "For evaluated events the side label is -1 iff the return is negative and +1 otherwise; the meta label is 1 iff return >= min_ret and else 0; a touch strictly before the vertical barrier has weight 1; vertical-touch weights lie in [0,1].", "quantifier": "every event", "why_tests_cant": "All sign/threshold combinations.", "anchors": ["finmlkit/label/tbm.py:triple_barrier"]}
{"id": "C38", "title": "Events whose barrier is touched get weight 1.0", "statement": "The documentation says the weight is 1.0 whenever a barrier is hit. False for a barrier first hit exactly at the last index inside the vertical window after the path had approached the opposite barrier: the weight is then max ratio/(1+opposite ratio) < 1.", "quantifier": "every event", "why_tests_cant": "Requires a touch coinciding with the last index.", "anchors": ["finmlkit/label/tbm.py:triple_barrier"]}
{"id": "C39", "title": "Concurrency counts overlapping labels and uniqueness averages its inverse", "statement": "concurrency[j] is the number of events whose [start,touch] interval contains j (up to 32767 overlapping events); each average uniqueness is the mean of 1/concurrency over the event's interval, lies in (0,1], equals 1 iff the event overlaps no other, and sum_i length_i*uniqueness_i equals the number of covered indices.", "quantifier": "every set of events", "why_tests_cant": "Combinatorial identity over all interval families.", "anchors": ["finmlkit/label/weights.py:average_uniqueness"]}
{"id": "C40", "title": "Return attribution weights are non-negative and normalise to the event count", "statement": "Each return attribution is the absolute value of the sum of concurrency-discounted log returns over the event; with normalize the weights sum to the number of events and keep their proportions, and an all-zero total raises.", "quantifier": "every price path, event set", "why_tests_cant": "Normalisation identity for all inputs.", "anchors": ["finmlkit/label/weights.py:return_attribution"]}
{"id": "C41", "title": "Time decay weights", "statement": "For positive uniqueness and last_weight c in (-1,1]: the newest event has weight 1, weights are non-decreasing in time, and lie in [max(c,0),1]; for c>=0 event k has weight c+(1-c)*share_k with share_k its cumulative uniqueness share; for c<0 exactly the events with cumulative share at most -c have weight 0; c=1 means no decay.", "quantifier": "every positive uniqueness list and every c", "why_tests_cant": "Monotonicity and bounds over all inputs.", "anchors": ["finmlkit/label/weights.py:time_decay"]}
{"id": "C42", "title": "Class balancing equalises class totals and keeps the total", "statement": "After class_balance_weights every class with positive base weight has total final weight total/n_classes; if all classes have positive weight the grand total is preserved; within a class proportions are unchanged.", "quantifier": "every label list and non-negative base weights", "why_tests_cant": "Identity over all class structures.", "anchors": ["finmlkit/label/weights.py:class_balance_weights"]}
{"id": "C43", "title": "Final sample weights average to one", "statement": "compute_final_weights returns weights with mean 1 and proportional to time_decay*info*vertical weights; with labels, each class has equal total weight.", "quantifier": "every valid input", "why_tests_cant": "Normalisation identity.", "anchors": ["finmlkit/label/kit.py:SampleWeights.compute_final_weights"]}
{"id": "C44", "title": "Label kit drops exactly the events that cannot be evaluated", "statement": "compute_labels keeps exactly the preprocessed events whose full vertical window ends at or before the last trade, and the event index is the first trade at or after the event time.", "quantifier": "every event list and trade list", "why_tests_cant": "Boundary cases at the data end.", "anchors": ["finmlkit/label/kit.py:TBMLabel._drop_trailing_events", "finmlkit/label/kit.py:TBMLabel.compute_labels"]}
{"id": "C45", "title": "Simple moving average is the exact window mean and stays within the window", "statement": "From index n-1 on, sma(x,n)[i] is the mean of x[i-n+1..i] and lies between the window minimum and maximum; earlier values are NaN.", "quantifier": "every series and window length", "why_tests_cant": "Rolling-update correctness for every window.", "anchors": ["finmlkit/feature/core/ma.py:sma"]}
{"id": "C46", "title": "Exponential moving average is a convex combination of the past", "statement": "ewma(x,span)[i] is a weighted mean of x[0..i] with non-negative weights proportional to (1-alpha)^(i-j) summing to 1; so it lies between min and max of the past and does not depend on the future.", "quantifier": "every series and span", "why_tests_cant": "Closed form over every length.", "anchors": ["finmlkit/feature/core/ma.py:ewma"]}
{"id": "C47", "title": "Stochastic %K stays between 0 and 100", "statement": "The StochK transform of a bar frame with low <= close <= high returns values in [0,100]. True of the numerical core when called with its documented argument order; false of the transform, which passes (high, low, close) to a core expecting (close, low, high).", "quantifier": "every OHLC frame", "why_tests_cant": "Argument-order bugs give plausible values on many samples.", "anchors": ["finmlkit/feature/core/momentum.py:stoch_k", "finmlkit/feature/transforms.py:StochK"]}
{"id": "C48", "title": "Stochastic core tracks the true rolling extremes", "statement": "The incrementally maintained low/high in stoch_k equal the minimum of lows and maximum of highs over the last `length` bars at every index.", "quantifier": "every series", "why_tests_cant": "Incremental window maintenance with re-scan on expiry.", "anchors": ["finmlkit/feature/core/momentum.py:stoch_k"]}
{"id": "C49", "title": "RSI lies in [0,100]", "statement": "rsi_wilder values are in [0,100] wherever defined, for every price path and period; the smoothed averages remain non-negative.", "quantifier": "every price path", "why_tests_cant": "Invariant over recursion.", "anchors": ["finmlkit/feature/core/momentum.py:rsi_wilder"]}
{"id": "C50", "title": "RSI is the same on both computation backends", "statement": "RSIWilder returns the same values with backend 'pd' and 'nb'. False when there has been no loss in the window: one backend returns 100, the other NaN.", "quantifier": "every price path", "why_tests_cant": "Needs a loss-free window.", "anchors": ["finmlkit/feature/transforms.py:RSIWilder", "finmlkit/feature/core/momentum.py:rsi_wilder"]}
{"id": "C51", "title": "VPIN lies in [0,1] and equals its window formula", "statement": "vpin[i] = sum|buy-sell|/sum(buy+sell) over the last `window` bars, lies in [0,1] for non-negative volumes, and is NaN exactly when the window is incomplete, contains a NaN or has a total volume of at most 1e-9.", "quantifier": "every volume series with NaNs", "why_tests_cant": "Rolling NaN bookkeeping over all patterns.", "anchors": ["finmlkit/feature/core/volume.py:vpin", "finmlkit/feature/transforms.py:VPIN"]}
{"id": "C52", "title": "VWAP distance uses the true rolling VWAP", "statement": "vwap_distance[i] compares close_i to the volume-weighted price of the last n bars via the requested (simple or log) distance. False at the first defined index: it is always the simple distance.", "quantifier": "every series", "why_tests_cant": "The first window is computed by a separate branch.", "anchors": ["finmlkit/feature/core/reversion.py:vwap_distance", "finmlkit/feature/transforms.py:VWAPDistance"]}
{"id": "C53", "title": "Price/volume correlation is a Pearson correlation", "statement": "The rolling price-volume correlation equals the Pearson correlation of returns and volume over the window. False: for the early indices a hard-coded branch returns +-1 for monotone windows.", "quantifier": "every price/volume series", "why_tests_cant": "Only early monotone windows reveal it.", "anchors": ["finmlkit/feature/core/correlation.py:rolling_price_volume_correlation", "finmlkit/feature/transforms.py:PriceVolumeCorrelation"]}
{"id": "C54", "title": "Volume profile bucketing conserves volume", "statement": "Bucketing price levels keeps the total volume, assigns every level to exactly one bucket, and returns bucket prices in strictly ascending order with constant odd width.", "quantifier": "every ascending level list, volume list and bucket count", "why_tests_cant": "Binning edge cases (last edge, single level).", "anchors": ["finmlkit/feature/core/volume.py:bucket_price_levels"]}
{"id": "C55", "title": "Bucket prices stay inside the traded range", "statement": "The point of control and value area computed from buckets lie within [lowest, highest] price level. False: the last bucket's midpoint can exceed the highest level.", "quantifier": "every level list", "why_tests_cant": "Needs a range not divisible by the bin width.", "anchors": ["finmlkit/feature/core/volume.py:bucket_price_levels", "finmlkit/feature/core/volume.py:comp_poc_hva_lva"]}
{"id": "C56", "title": "Value area contains the POC and reaches the requested volume share", "statement": "For non-negative volumes with positive total and 0<=pct<=100: the search terminates, POC is the lowest price with maximal volume, LVA <= POC <= HVA, and the volume between LVA and HVA is at least pct percent of the total.", "quantifier": "every profile and percentage", "why_tests_cant": "Loop termination and coverage over all profiles.", "anchors": ["finmlkit/feature/core/volume.py:comp_poc_hva_lva"]}
{"id": "C57", "title": "Developing volume profile writes results for every requested bar", "statement": "volume_profile_developing(start,end) returns one POC/HVA/LVA per bar of the range. False if start>0: results are written at absolute instead of relative positions (out of bounds).", "quantifier": "every start/end", "why_tests_cant": "Only starts other than 0 expose it.", "anchors": ["finmlkit/feature/core/volume.py:volume_profile_developing"]}
{"id": "C58", "title": "Lagged returns use the latest price at or before the lag time", "statement": "comp_lagged_returns[i] is the return of price_i against the price at the last index j with ts_j <= ts_i - window (previous tick for a zero-length window), NaN if none; it never uses a later price.", "quantifier": "every sorted timestamp/price series and window", "why_tests_cant": "Two-pointer search over all spacings.", "anchors": ["finmlkit/feature/core/utils.py:comp_lagged_returns", "finmlkit/feature/transforms.py:ReturnT"]}
{"id": "C59", "title": "Directional run length counts the current same-sign run", "statement": "DirRunLen at i is the length of the current block of equal non-zero return signs ending at i (0 at the first bar and for a zero return). False for runs longer than 127: the int8 counter wraps to a negative number.", "quantifier": "every return series", "why_tests_cant": "Needs a run of 128 bars.", "anchors": ["finmlkit/feature/transforms.py:DirRunLen"]}
{"id": "C60", "title": "CUSUM break age counts bars since the last break", "statement": "The age reported by CUSUMTest is min(bars since the last flag, max_age). False for max_age > 255: the uint8 cast wraps.", "quantifier": "every flag sequence and max_age", "why_tests_cant": "Needs >255 bars without a break.", "anchors": ["finmlkit/feature/transforms.py:CUSUMTest"]}
{"id": "C61", "title": "Candle shape shares sum to at most one", "statement": "For low <= open, close <= high, upper wick, lower wick and body shares are in [0,1) and sum to range/(range+1e-12) < 1.", "quantifier": "every OHLC bar", "why_tests_cant": "Identity over all candles.", "anchors": ["finmlkit/feature/transforms.py:CandleShape"]}
{"id": "C62", "title": "Opening-range breaks are causal and exclusive", "statement": "For strictly increasing time stamps the ORB long (short) flag of a bar is set exactly when its day starts at 00:00, the bar comes after the first 4 bars of that day and its close is above every known high (below every known low) of those 4 bars; so the flags are causal, and exclusive when one opening bar has low <= high. False with repeated time stamps.", "quantifier": "every bar frame", "why_tests_cant": "All day layouts.", "anchors": ["finmlkit/feature/transforms.py:ORBBreak"]}
{"id": "C63", "title": "Day and session cues decode the timestamp correctly", "statement": "time_cues returns hour/day-of-week consistent with the proleptic calendar: day of week is (days since epoch + 3) mod 7 with Monday=0, time of day and session flags follow from the timestamp modulo 24h, for every timestamp (also before 1970).", "quantifier": "every int64 timestamp", "why_tests_cant": "Modular arithmetic over all integers.", "anchors": ["finmlkit/feature/core/time.py:time_cues", "finmlkit/feature/transforms.py:TimeCues"]}
{"id": "C64", "title": "Operator transforms compute pointwise what they are named after", "statement": "For features built from +,-,*,/,abs,min,max,constants over columns, evaluating the composed feature on a frame equals evaluating the arithmetic expression row by row, NaN propagating, independently of evaluation backend.", "quantifier": "every expression tree and frame", "why_tests_cant": "Structural induction over all expression trees.", "anchors": ["finmlkit/feature/base.py:BinaryOpTransform", "finmlkit/feature/base.py:ConstantOpTransform", "finmlkit/feature/base.py:UnaryOpTransform", "finmlkit/feature/base.py:MinMaxOpTransform", "finmlkit/feature/kit.py:Feature"]}
{"id": "C65", "title": "Feature kit output does not depend on neighbouring features", "statement": "FeatureKit.build gives each feature the value it has when computed alone. True if output names determine the computation; false in general: two different transforms with the same output name (e.g. simple and log return of the same lag) share one cached column.", "quantifier": "every feature list", "why_tests_cant": "Needs colliding names; any pairing of features matters.", "anchors": ["finmlkit/feature/kit.py:FeatureKit.build", "finmlkit/feature/kit.py:Feature.__call__", "finmlkit/feature/transforms.py:Return"]}
{"id": "C66", "title": "Dependency order is respected", "statement": "topological_order lists every feature exactly once and after all features it depends on, for every set iteration order, whenever the dependencies are acyclic. Cyclic dependencies are not rejected: the features of a cycle are silently appended in their original order.", "quantifier": "every finite dependency graph and every iteration order", "why_tests_cant": "All graphs and schedules.", "anchors": ["finmlkit/feature/kit.py:FeatureKit.topological_order", "finmlkit/feature/utils.py:ComputationGraph.topological_sort"]}
{"id": "C67", "title": "Composition applies steps in order", "statement": "Compose(T1,...,Tn) computes Tn(...T1(x)). False when a later step's required column also exists in the input frame: the earlier steps are ignored.", "quantifier": "every pipeline and frame", "why_tests_cant": "Needs the intermediate column name present in the frame.", "anchors": ["finmlkit/feature/kit.py:Compose"]}
{"id": "C68", "title": "Saved feature configurations rebuild the same computation", "statement": "from_config(to_config(f)) computes the same values as f. True for operator, constant, min/max, clip, lag and rolling transforms with their standard names; false for several transforms whose constructor arguments are not stored under their own name (ReturnT silently falls back to its default window) and for ema with adjust=False.", "quantifier": "every feature expression", "why_tests_cant": "Round-trip over an infinite family of expressions.", "anchors": ["finmlkit/feature/utils.py:transform_to_config", "finmlkit/feature/utils.py:transform_from_config", "finmlkit/feature/utils.py:_maybe_unary_from_name", "finmlkit/feature/kit.py:Feature.to_config"]}
{"id": "C69", "title": "Resampling time bars preserves totals and extremes", "statement": "TimeBarReader resampling to a coarser timeframe preserves total volume and trade count, gives per period the first open, last close, maximal high, minimal low and volume-weighted vwap, and resampling in two steps (t then a multiple of t) equals resampling directly for prices, volume, trade count and vwap. The median trade size is the lower weighted median of the bar medians; there two steps may differ from one.", "quantifier": "every bar frame and timeframe", "why_tests_cant": "Algebraic laws over all frames.", "anchors": ["finmlkit/bar/io.py:TimeBarReader._resample"]}
{"id": "C70", "title": "Gap inspection reports exactly the gaps", "statement": "Gap inspection reports precisely the places where consecutive timestamps differ by more than max_gap, each with the right duration; no report iff all differences are within max_gap.", "quantifier": "every sorted index", "why_tests_cant": "All gap layouts.", "anchors": ["finmlkit/bar/io.py:_find_gaps", "finmlkit/bar/io.py:H5Inspector"]}
{"id": "C71", "title": "Reading a daily range is inclusive of the end date", "statement": "TimeBarReader.read(start, end, '1D') contains the bar of the end date. False: the last requested day is always dropped.", "quantifier": "every range", "why_tests_cant": "Boundary semantics.", "anchors": ["finmlkit/bar/io.py:TimeBarReader.read"]}
{"id": "C72", "title": "Month enumeration of the import script is complete", "statement": "month_range(start,end) lists every calendar month from start to end exactly once in order and fails iff end < start.", "quantifier": "every pair of months", "why_tests_cant": "All year boundaries.", "anchors": ["scripts/binance2h5.py:month_range"]}
{"id": "C73", "title": "Infinite barrier multipliers", "statement": "A +inf multiplier disables a triple-barrier barrier. A -inf multiplier, which the documentation offers for disabling, does the opposite: the event ends at the first eligible record, whatever the prices.", "quantifier": "every price path, target and window", "why_tests_cant": "Needs reasoning about infinities over every path.", "anchors": ["finmlkit/label/tbm.py:triple_barrier"]}
{"id": "C74", "title": "Triple-barrier argument checks and event independence", "statement": "triple_barrier raises ValueError exactly for a non-positive vertical barrier, a negative min_ret, mismatched lengths or no events, never another error; each event's outputs depend on no other event.", "quantifier": "every argument combination", "why_tests_cant": "All combinations of lengths and values.", "anchors": ["finmlkit/label/tbm.py:triple_barrier"]}
{"id": "C75", "title": "A NaN vertical weight spoils all final weights", "statement": "compute_final_weights returns finite weights when given the vertical touch weights of triple_barrier. False: an event that ends at the vertical barrier in the direction of a disabled (infinite) barrier has weight NaN, and a single NaN makes every final weight NaN without an error.", "quantifier": "every weight vector", "why_tests_cant": "Needs the combination of two modules on particular barrier settings.", "anchors": ["finmlkit/label/kit.py:SampleWeights.compute_final_weights", "finmlkit/label/tbm.py:triple_barrier"]}
{"id": "C76", "title": "Every event kept by the label kit is labelled", "statement": "After compute_labels every kept event has a touch index. False: an event with no further trade inside its vertical window is kept with label 0 and an uninitialised touch index; it is labelled iff another trade lies inside the window counted from its own trade.", "quantifier": "every event list and trade list", "why_tests_cant": "Requires a gap longer than the vertical barrier.", "anchors": ["finmlkit/label/kit.py:TBMLabel.compute_labels", "finmlkit/label/tbm.py:triple_barrier"]}
{"id": "C77", "title": "Event preprocessing keeps exactly the usable rows", "statement": "_preprocess_features keeps exactly the rows at or after the first valid entry of every not-all-NaN column whose |target|*max multiplier reaches min_ret; it fails only if all columns are NaN or no row is left, and its NaN check can never fire.", "quantifier": "every frame", "why_tests_cant": "All NaN layouts.", "anchors": ["finmlkit/label/kit.py:TBMLabel._preprocess_features"]}
{"id": "C78", "title": "The evaluation window of kept events lies inside the data", "statement": "Events are dropped unless their full temporal window is covered by the trades. False when the event time is not a trade time: the window is checked from the event time but evaluated from the next trade. True when the event time is a trade time.", "quantifier": "every event list and trade list", "why_tests_cant": "Needs event times between trades.", "anchors": ["finmlkit/label/kit.py:TBMLabel._drop_trailing_events", "finmlkit/label/kit.py:TBMLabel.compute_labels"]}
{"id": "C79", "title": "Spread features measure the price step at side changes", "statement": "For a bar with at least two trades (and a trade before it), mean_spread times the number of sided trades is the sum of |price step| over the trades whose side differs from the preceding trade, and max_spread is the largest such step (0 if there is none); without sided trades mean_spread is NaN or infinite. This fails for bars with a single trade, which report a spread even when the side did not change.", "quantifier": "every trade list and close-index sequence", "why_tests_cant": "Single-trade bars with unchanged side are not in the tests.", "anchors": ["finmlkit/bar/base.py:comp_bar_directional_features"]}
{"id": "C80", "title": "The tick size estimate divides all sampled price differences", "statement": "comp_price_tick_size returns a positive step that divides every difference of the (first 10000) prices. False: rounding half to even can return 0 for two different prices, and prices on a 0.05 grid can give 0.2. True, and then it is the greatest such step, when all prices lie on a power-of-ten grid on which the smallest difference is less than ten steps; 0 for constant prices.", "quantifier": "every price list", "why_tests_cant": "Needs price grids that are not powers of ten.", "anchors": ["finmlkit/bar/utils.py:comp_price_tick_size"]}
{"id": "C81", "title": "Order check and fast sort", "statement": "check_timestamps_order answers True exactly on non-decreasing timestamps, and fast_sort_trades applies one and the same permutation to timestamps, prices, amounts and sides so that the result passes the check.", "quantifier": "every trade list", "why_tests_cant": "All permutations.", "anchors": ["finmlkit/bar/utils.py:check_timestamps_order", "finmlkit/bar/utils.py:fast_sort_trades"]}
{"id": "C82", "title": "No mergeable neighbours after preprocessing", "statement": "After TradesData(preprocess=True) no two neighbouring records have the same timestamp, price (within 1e-8) and side. True without a processing resolution; false with a coarser one, because the timestamps are reduced after merging.", "quantifier": "every trade list", "why_tests_cant": "Needs a processing resolution coarser than the data.", "anchors": ["finmlkit/bar/data_model.py:TradesData._merge_trades", "finmlkit/bar/data_model.py:TradesData._apply_timestamp_resolution"]}
{"id": "C83", "title": "The CUSUM bar indexer rejects inputs of different lengths", "statement": "_cusum_bar_indexer raises for any mismatch of the lengths of prices, sigma and timestamps. False: the chained comparison accepts whenever one neighbouring pair agrees.", "quantifier": "every triple of arrays", "why_tests_cant": "Only a full mismatch is tried.", "anchors": ["finmlkit/bar/logic.py:_cusum_bar_indexer"]}
{"id": "C84", "title": "A failed save leaves the store unchanged", "statement": "If save_h5 raises, the file is as before. False: saving an empty view with an explicit month key removes the stored month before failing. A save succeeds iff the frame is not empty.", "quantifier": "every consistent store and frame", "why_tests_cant": "Failure injection on empty views.", "anchors": ["finmlkit/bar/data_model.py:TradesData.save_h5"]}
{"id": "C85", "title": "A group that cannot be read is reported", "statement": "load_trades_h5 fails or returns the rows of every matching group. False: unreadable groups are logged and skipped, so the result silently lacks a month; exactly the readable groups are returned.", "quantifier": "every store and set of unreadable groups", "why_tests_cant": "Needs read failures.", "anchors": ["finmlkit/bar/data_model.py:TradesData.load_trades_h5", "finmlkit/bar/data_model.py:_load_single_h5_group"]}
{"id": "C86", "title": "The view range is a closed contiguous slice", "statement": "set_view_range raises iff start >= end; afterwards data is the contiguous block of rows with start <= time <= end, and the whole frame without a view.", "quantifier": "every sorted frame and range", "why_tests_cant": "Boundary and tie cases.", "anchors": ["finmlkit/bar/data_model.py:TradesData.set_view_range", "finmlkit/bar/data_model.py:TradesData.data"]}
{"id": "C87", "title": "Month keys sort chronologically", "statement": "The lexicographic order of the keys YYYY-MM is the order of the months, and different months have different keys.", "quantifier": "every year below 10000 and month", "why_tests_cant": "All pairs.", "anchors": ["finmlkit/bar/data_model.py:TradesData.save_h5", "finmlkit/bar/data_model.py:TradesData._keys_for_timerange"]}
{"id": "C88", "title": "Store metadata stays in step with the data", "statement": "After any sequence of saves (new, overwriting, appending or truncating) of non-empty frames, a month has metadata iff it has rows, and the recorded record_count is the number of stored rows.", "quantifier": "every sequence of saves", "why_tests_cant": "An invariant over all histories.", "anchors": ["finmlkit/bar/data_model.py:TradesData.save_h5"]}
{"id": "C89", "title": "Rolling z-score standardises by its own window", "statement": "comp_zscore[i] times the window standard deviation equals x_i minus the mean of x[i-n+1..i], with variance sum((x-mean)^2)/(n-ddof); it is NaN exactly before the first full window and where the deviation is 0.", "quantifier": "every series, window and ddof < window", "why_tests_cant": "Needs the window sums for every series.", "anchors": ["finmlkit/feature/core/utils.py:comp_zscore"]}
{"id": "C90", "title": "ADX lies in [0,100] and is the Wilder average of the directional index", "statement": "adx_core values lie in [0,100] for every price path, are 0 before index 2*length-1, and from there equal the Wilder average of 100|P-M|/(P+M), where P, M are Wilder averages of the directional movements (with the true range as common divisor).", "quantifier": "every OHLC series and length", "why_tests_cant": "Recursive smoothing over unbounded series.", "anchors": ["finmlkit/feature/core/trend.py:adx_core"]}
{"id": "C91", "title": "Rate of change and percentage change invert to the price ratio", "statement": "roc[i] = 100*(p_i-p_{i-k})/p_{i-k} and raises ZeroDivisionError iff some base price is 0; pct_change[i] satisfies x_i = (1+v)*x_{i-k} for positive bases and is NaN otherwise; both are NaN for i<k.", "quantifier": "every series and lag", "why_tests_cant": "All lags and all bases including 0 and negative ones.", "anchors": ["finmlkit/feature/core/momentum.py:roc", "finmlkit/feature/core/utils.py:pct_change"]}
{"id": "C92", "title": "Burst ratio divides by the window median", "statement": "comp_burst_ratio[i] times the median of x[i-n+1..i] equals x_i if that median is positive; otherwise, and before the first full window, it is NaN.", "quantifier": "every series and window", "why_tests_cant": "The median of every window, odd and even.", "anchors": ["finmlkit/feature/core/utils.py:comp_burst_ratio"]}
{"id": "C93", "title": "Aggregated footprints hold the volume of their bars level by level", "statement": "aggregate_footprint over a time range returns every tick level from the lowest to the highest rounded price of the bars in the closed range; each entry is the sum of the bars' buy (sell) volume at that level and the totals are conserved.", "quantifier": "every sorted bar series, footprint lists fitting their bars, and time range", "why_tests_cant": "Sums over arbitrary numbers of bars with different level ranges.", "anchors": ["finmlkit/feature/core/volume.py:aggregate_footprint"]}
{"id": "C94", "title": "Rolling volume profile is the profile of the bars in the window", "statement": "volume_profile_rolling row i is zero until a full window of time has passed, and then POC, HVA, LVA and the share above POC of the volume of all bars with timestamp in [ts_i - window, ts_i]; the price conversion turns level 0 into NaN.", "quantifier": "every sorted bar series and window", "why_tests_cant": "Windows of every size and spacing.", "anchors": ["finmlkit/feature/core/volume.py:volume_profile_rolling", "finmlkit/feature/core/volume.py:VolumePro"]}
{"id": "C95", "title": "Share of volume above the POC", "statement": "calc_volume_percentage_above_poc is the volume strictly above the POC divided by the total, 0 for an empty profile, always in [0,1], and below 1 when the POC holds volume.", "quantifier": "every non-negative profile", "why_tests_cant": "All profiles.", "anchors": ["finmlkit/feature/core/volume.py:calc_volume_percentage_above_poc"]}
{"id": "C96", "title": "Flow acceleration compares the recent volume with the volume before it", "statement": "comp_flow_acceleration[i] = ln((sum of the last r volumes + 1e-12)/(sum of the w-r volumes before them + 1e-12)), with a positive argument for non-negative volumes; NaN exactly when the series is shorter than w, r >= w or i < w-1.", "quantifier": "every series and pair of windows", "why_tests_cant": "Prefix-sum bookkeeping over all windows.", "anchors": ["finmlkit/feature/core/volume.py:comp_flow_acceleration"]}
{"id": "C97", "title": "Trimming removes only empty levels", "statement": "trim_trailing_zeros returns a contiguous block of levels with volumes rounded to 8 digits, the removed levels at both ends hold at most 5e-9, and the first and last remaining levels are not empty.", "quantifier": "every profile", "why_tests_cant": "All zero patterns at both ends.", "anchors": ["finmlkit/feature/core/volume.py:trim_trailing_zeros"]}
{"id": "C98", "title": "ewms is the bias-corrected weighted standard deviation", "statement": "ewms(y, span)[i] is the square root of a non-negative v that is the weighted variance, with the usual correction, of the observed values up to i under weights ((span-1)/(span+1))^(i-j); NaN exactly when fewer than two values were observed; all NaN for span <= 1.", "quantifier": "every series with missing values and every span >= 2", "why_tests_cant": "Recursive numerator, squared-weight and mean updates over any NaN layout.", "anchors": ["finmlkit/feature/core/volatility.py:ewms"]}
{"id": "C99", "title": "ewmst_mean0 is the root of the time-weighted mean square", "statement": "ewmst_mean0[i] is the floored square root of the weighted mean of the squared observed values after the first one, where the weight of value j is (1 - d_j) times the product of the later decays d_k; NaN exactly when no value with d_j < 1 was observed; a zero half life raises ZeroDivisionError.", "quantifier": "every series, time stamps and decay in (0,1]", "why_tests_cant": "Irregular time stamps with repeats and missing values.", "anchors": ["finmlkit/feature/core/volatility.py:ewmst_mean0"]}
{"id": "C100", "title": "ewmst ignores missing values", "statement": "ewmst computes the weighted standard deviation of the observed values. False: a missing value enters as 0 with full weight, so a constant series with one NaN gets a positive volatility; the function is proved to be the weighted standard deviation of the zero-filled series.", "quantifier": "every series, time stamps and decay in (0,1]", "why_tests_cant": "A missing value hides in a plausible number.", "anchors": ["finmlkit/feature/core/volatility.py:ewmst"]}
{"id": "C101", "title": "True range", "statement": "true_range[i] = max(high, previous close) - min(low, previous close), high-low for the first bar, at least high-low, NaN exactly when one of the needed values is NaN; arrays of different lengths raise.", "quantifier": "every bar series with low <= high", "why_tests_cant": "All orders of the five prices and NaN layouts.", "anchors": ["finmlkit/feature/core/volatility.py:true_range"]}
{"id": "C102", "title": "Realised volatility", "statement": "realized_vol[i] = sqrt(sum of the squared valid returns of the window / (m or m-1)) with m the number of valid returns (the mean is not subtracted); NaN exactly when the window is incomplete or m < 2.", "quantifier": "every return series and window >= 1", "why_tests_cant": "All NaN layouts.", "anchors": ["finmlkit/feature/core/volatility.py:realized_vol"]}
{"id": "C103", "title": "Bollinger percent b", "statement": "bollinger_percent_b[i] places close on the band [m-k*s, m+k*s], m the mean and s the root of the sample variance of the window: 1/2 exactly at the mean, below 0 / above 1 exactly outside the band, NaN before the window is full and when the band is empty; window 1 raises ZeroDivisionError.", "quantifier": "every price series, window >= 2, multiplier and root function", "why_tests_cant": "Running sums replaced by their closed form for all lengths.", "anchors": ["finmlkit/feature/core/volatility.py:bollinger_percent_b"]}
{"id": "C104", "title": "Average true range", "statement": "The simple ATR is the mean of the valid true ranges in the window, NaN only when there are none, except that at index 2 a fully missing bar gives NaN. The Wilder ATR is r^k a0 + sum r^(k-j) x_j/n with r = (n-1)/n, and a single NaN true range after the seed makes all later values NaN.", "quantifier": "every bar series and window >= 1", "why_tests_cant": "A hard-coded index and an absorbing NaN.", "anchors": ["finmlkit/feature/core/volatility.py:atr"]}
{"id": "C105", "title": "A normalised ATR is divided by the mid price", "statement": "With normalize=True every ATR value is divided by (high+low)/2. False: where high or low is NaN or the mid price is not positive the unnormalised value stays in the same array; elsewhere it is proved.", "quantifier": "every bar series, window and average type", "why_tests_cant": "A missing bar in a long series mixes two units.", "anchors": ["finmlkit/feature/core/volatility.py:atr"]}
{"id": "C106", "title": "Rolling variance", "statement": "rolling_variance_nb[i] is the variance (divisor m - ddof) of the m valid values in the window, never negative; NaN exactly when the window is incomplete, m < min_periods or m <= ddof.", "quantifier": "every series, window >= 1, ddof >= 0", "why_tests_cant": "All NaN layouts and parameters.", "anchors": ["finmlkit/feature/core/volatility.py:rolling_variance_nb"]}
{"id": "C107", "title": "Variance ratio", "statement": "variance_ratio_1_4_core returns var(1-bar returns)/var(4-bar returns), 0.25 for a random walk. False: it returns four times that ratio; the returned value v satisfies v*var4 = 4*var1 with overlapping sums of four one-bar returns, and NaN only for an incomplete window, too few returns or zero 4-bar variance.", "quantifier": "every price series, window and return type", "why_tests_cant": "A constant factor that any self-consistent test reproduces.", "anchors": ["finmlkit/feature/core/volatility.py:variance_ratio_1_4_core"]}
{"id": "C108", "title": "The half life halves the weights", "statement": "In ewmst and ewmst_mean0 a step of half_life seconds halves the weight of every older value. False: it multiplies it by exp(-1), so the parameter is a time constant.", "quantifier": "every exponential function with exp(-1) /= 1/2", "why_tests_cant": "Decay speed is not visible in single values.", "anchors": ["finmlkit/feature/core/volatility.py:ewmst", "finmlkit/feature/core/volatility.py:ewmst_mean0"]}
{"id": "C109", "title": "Parkinson range", "statement": "parkinson_range[i] = ln(high/low)^2/(4 ln 2), never negative; the call raises exactly when some low is 0.", "quantifier": "every high and low series", "why_tests_cant": "All positions of a zero low.", "anchors": ["finmlkit/feature/core/volatility.py:parkinson_range"]}
{"id": "C110", "title": "CUSUM test statistic is the supremum over start points", "statement": "The upward (downward) statistic of the Chu-Stinchcombe-White test at t is the largest (y_t - y_n)/(sigma sqrt(t-n)) (respectively its negative, never below 0) over start points 1 <= n <= t-2, and the critical value returned with it is that of the first start point attaining it; without start point or with sigma <= 0 the flags are off.", "quantifier": "every series, t, sigma, root and logarithm function", "why_tests_cant": "Supremum over all start points, tie-breaking included.", "anchors": ["finmlkit/feature/core/structural_break/cusum.py:_comp_max_s_nt"]}
{"id": "C111", "title": "A CUSUM flag is raised exactly when some start point exceeds its critical value", "statement": "Soundness is proved: a raised flag has a start point whose statistic exceeds its own critical value. Completeness is false: only the start point with the largest statistic is compared, though critical values differ.", "quantifier": "every series and sigma", "why_tests_cant": "Needs two start points with crossing statistic and critical value.", "anchors": ["finmlkit/feature/core/structural_break/cusum.py:_comp_max_s_nt", "finmlkit/feature/transforms.py:CUSUMTest"]}
{"id": "C112", "title": "Rolling CUSUM test", "statement": "cusum_test_rolling gives at i the statistics of the window of max(window, warm-up+2)+1 prices ending at i with the step deviation of that window, NaN during the warm-up; it raises iff a price is not positive. Prefix stability is false: the first defined value appears only when one more price exists.", "quantifier": "every positive price series, window and warm-up >= 2", "why_tests_cant": "All windows; appending data changes an earlier value.", "anchors": ["finmlkit/feature/core/structural_break/cusum.py:cusum_test_rolling", "finmlkit/feature/core/structural_break/cusum.py:cusum_test_last", "finmlkit/feature/core/structural_break/cusum.py:cusum_test_developing"]}
{"id": "C113", "title": "Bar rate", "statement": "BarRate at i times the window length in hours is the number of bars with time stamps in [t_i - window, t_i]. The name bars_per_hour is wrong on a regular grid: both window ends are closed, so a window of m spacings reports (m+1)/m times the true rate (one-minute bars, six minutes: 70 per hour).", "quantifier": "every sorted index and window", "why_tests_cant": "Exact boundary behaviour of the window on every grid.", "anchors": ["finmlkit/feature/transforms.py:BarRate"]}
{"id": "C114", "title": "Daily gap compares midnight with the last close of the previous day", "statement": "False: at a row at 00:00 DailyGap gives (close_i - c)/c with c the close before the last bar of the same day, which lies in the future unless that bar is alone in its day; the exact value is proved, with the documented gap as the single-bar case, and NaN in all other rows.", "quantifier": "every frame with strictly increasing time stamps", "why_tests_cant": "Look-ahead that only a day with several bars shows.", "anchors": ["finmlkit/feature/transforms.py:DailyGap"]}
{"id": "C115", "title": "Bi-power variation", "statement": "BiPowerVariation at i is f times the sum of |r_j||r_(j-1)| over the last window pairs, NaN exactly when the window is incomplete or has a missing return; it is quadratic in scale and zero for an isolated jump. The factor called mu1_inv_sq is sqrt(pi/2), not mu1^-2 = pi/2.", "quantifier": "every return series and window", "why_tests_cant": "Closed form for all windows; a constant factor.", "anchors": ["finmlkit/feature/transforms.py:BiPowerVariation"]}
{"id": "C116", "title": "Lags, returns and bar durations", "statement": "Lag(p) moves values by p rows and lags add up; a negative lag looks ahead. Simple returns satisfy previous*(1+r) = current and compound over consecutive periods, NaN when a side is missing. BarDuration over p bars is the sum of the p one-bar durations and positive for increasing time stamps.", "quantifier": "every series and period", "why_tests_cant": "Algebraic laws over all series.", "anchors": ["finmlkit/feature/transforms.py:Lag", "finmlkit/feature/transforms.py:Return", "finmlkit/feature/transforms.py:BarDuration"]}
{"id": "C117", "title": "Building features in topological order never misses a dependency", "statement": "If names are unique and equal to the output names, each column a feature reads is raw or another feature, dependencies are acyclic and leaf computations return, build(order='topo') returns a frame with every feature. False for the default order (a feature listed before its dependency raises ValueError) and for user-renamed features (the graph uses the new name, the cache the old one).", "quantifier": "every feature list, frame and set iteration order", "why_tests_cant": "All dependency structures and listing orders.", "anchors": ["finmlkit/feature/kit.py:FeatureKit.build", "finmlkit/feature/kit.py:FeatureKit.topological_order", "finmlkit/feature/utils.py:build_feature_graph"]}
{"id": "C118", "title": "Resampled bars count each trade in its own period", "statement": "False: stored 1-second bars are labelled with their closing time and hold the trades of (label-1s, label]; flooring the label counts a trade at x in its own period iff x is at most the period end minus one second, otherwise in the next period. Proved exactly for every bar interval dividing the timeframe, and connected with the time bar indexer.", "quantifier": "every time stamp, bar interval and timeframe", "why_tests_cant": "An off-by-one-second shift at every period boundary, on all inputs.", "anchors": ["finmlkit/bar/io.py:TimeBarReader._resample", "finmlkit/bar/logic.py:_time_bar_indexer"]}
{"id": "C119", "title": "Reading a range of stored bars loses none", "statement": "TimeBarReader.read without timeframe returns, in order, exactly the bars of all partitions whose label is in the range, provided the metadata bounds each partition, which the metadata written with the bars does; an end date without time takes in the whole day for microsecond labels; a range that ends before it starts is empty.", "quantifier": "every store and range", "why_tests_cant": "All partition layouts and ranges.", "anchors": ["finmlkit/bar/io.py:TimeBarReader.read", "finmlkit/bar/io.py:TimeBarReader._find_relevant_keys"]}
{"id": "C120", "title": "Months on the command line are read correctly", "statement": "parse_ym maps YYYY, YYYYMM and YYYY-MM with separator -, . or / to the year and month, every accepted text gives a month 1..12, and months outside raise ValueError.", "quantifier": "every year 0..9999 and month", "why_tests_cant": "All formats and all years.", "anchors": ["scripts/binance2h5.py:parse_ym"]}
{"id": "C121", "title": "Adding time bars to a file stores them where they are read", "statement": "AddTimeBarH5.process_key with a listed key /trades/m stores the bars under /klines/m and their count and range under /klines_meta/m and changes nothing else; existing bars are kept unless overwrite. False for the documented short key m: the bars are overwritten by their own metadata under /m; the documented keys=['YYYY-MM'] always raises KeyError; an empty month leaves bars without metadata that later runs skip.", "quantifier": "every file, month and flag", "why_tests_cant": "All files and both key formats.", "anchors": ["finmlkit/bar/io.py:AddTimeBarH5.process_key", "finmlkit/bar/io.py:AddTimeBarH5._check_keys"]}
{"id": "C122", "title": "The integrity summary lists exactly the flagged months", "statement": "get_integrity_summary lists exactly the months whose stored flag is False, with their metadata and discontinuities, and returns None iff there are none. That None means all data passed the checks is false: months saved without preprocessing carry no flag.", "quantifier": "every file", "why_tests_cant": "All combinations of flags.", "anchors": ["finmlkit/bar/io.py:H5Inspector.get_integrity_summary"]}
{"id": "C123", "title": "Slices of footprint data keep all arrays together", "statement": "Every slice of a FootprintData takes the same bars, at positions inside it and one step apart, from every array; [a:b], [-m:] and [::-1] take exactly the expected bars, a slice of a slice is a slice, a date slice takes the bars in the closed range, slices of valid data are valid. That is_valid excludes misaligned data is false: it ignores the per-level lengths. An integer key gives an object without length; half-open date slices raise TypeError.", "quantifier": "every container, slice and key", "why_tests_cant": "All slices of all sizes, including negative bounds and steps.", "anchors": ["finmlkit/bar/data_model.py:FootprintData.__getitem__", "finmlkit/bar/data_model.py:FootprintData.is_valid", "finmlkit/bar/data_model.py:FootprintData.from_numba"]}
{"id": "C124", "title": "The footprint frame holds every level exactly once", "statement": "get_df returns one row per level of each bar, ordered by time and then by falling price, with unchanged totals of volumes, ticks and imbalance flags; with distinct times and ascending levels the order is fully determined. That the rows of a bar are contiguous is false for bars with equal times.", "quantifier": "every aligned container", "why_tests_cant": "All numbers of bars and levels.", "anchors": ["finmlkit/bar/data_model.py:FootprintData.get_df", "finmlkit/bar/utils.py:footprint_to_dataframe"]}
{"id": "C125", "title": "What a bar builder returns does not depend on earlier calls", "statement": "After any history of calls on a builder, successful or failing, each call returns what it returns on a new builder, for tick, volume, dollar and CUSUM bars on all trades and for time bars under the float64 conditions of C01. False for millisecond time bars: the first request for footprints raises, the same request made again succeeds.", "quantifier": "every builder, trades frame and call history", "why_tests_cant": "All call sequences of any length.", "anchors": ["finmlkit/bar/base.py:BarBuilderBase", "finmlkit/bar/kit.py:TimeBarKit", "finmlkit/bar/kit.py:CUSUMBarKit"]}
{"id": "C126", "title": "Labels of a builder's frames", "statement": "All frames and the footprint container of a builder have one row per bar and carry the labels of bar_close_timestamps. For tick, volume, dollar and CUSUM bars closes are strictly ascending positions of trades given by the bar type's rule on the right columns (C03-C06), the label is the timestamp of the bar's last trade and labels ascend; for CUSUM bars strictly; for time bars they are consecutive multiples of the interval that take in all trades. False: labels are unique (tick bars inside equal timestamps), OHLCV frames exist for millisecond bars (ValueError).", "quantifier": "every builder, trades frame and call history", "why_tests_cant": "All trades and thresholds.", "anchors": ["finmlkit/bar/base.py:BarBuilderBase.build_ohlcv", "finmlkit/bar/base.py:BarBuilderBase.bar_close_timestamps", "finmlkit/bar/kit.py:TickBarKit", "finmlkit/bar/kit.py:VolumeBarKit", "finmlkit/bar/kit.py:DollarBarKit"]}
{"id": "C127", "title": "CUSUM builders sharing a sigma array", "statement": "A CUSUM builder overwrites the caller's sigma array by its forward fill; a second builder on the overwritten array returns the same replies; get_sigma returns for each bar the last known sigma at its last trade. That the caller's array is unchanged is false.", "quantifier": "every sigma array, trades frame and call history", "why_tests_cant": "All sigma arrays with missing values.", "anchors": ["finmlkit/bar/kit.py:CUSUMBarKit.get_sigma", "finmlkit/bar/logic.py:_cusum_bar_indexer"]}
{"id": "C128", "title": "The frames of a builder agree bar by bar", "statement": "Frames obtained at any three moments of a builder's life have the same labels; trades, volume and dollars of a bar are the sums of its buy and sell columns, and those are the sums over its footprint levels. With a side column, a positive tick size and at least one bar all three are returned.", "quantifier": "every builder, trades frame, call history, tick size and imbalance factor", "why_tests_cant": "Relations between separately computed outputs over all inputs.", "anchors": ["finmlkit/bar/base.py:BarBuilderBase.build_ohlcv", "finmlkit/bar/base.py:BarBuilderBase.build_directional_features", "finmlkit/bar/base.py:BarBuilderBase.build_footprints"]}
{"id": "C129", "title": "Both implementations of the simple moving average", "statement": "On every series, with gaps or without, the pandas and the numba SMA of window n are the mean of the last n values where n values exist, and missing elsewhere; on series without gaps the numba wrapper equals the kernel. That an integer series has the same average is false: the output array takes the integer dtype and truncates towards zero.", "quantifier": "every series and window", "why_tests_cant": "All lengths, windows and gap patterns.", "anchors": ["finmlkit/feature/transforms.py:SMA._pd", "finmlkit/feature/transforms.py:SMA._nb"]}
{"id": "C130", "title": "Exponential moving averages of the two implementations", "statement": "The pandas EWMA is the weighted mean of the values so far with weights decaying by (span-1)/(span+1) per row, also over gaps; without gaps the numba implementation gives the same values, and bar-duration averages follow the same rule. That they agree on series with a gap is false: numba is missing from the gap on, for ever. Span 1 is the forward fill.", "quantifier": "every series and span", "why_tests_cant": "All lengths, spans and gap patterns.", "anchors": ["finmlkit/feature/transforms.py:EWMA._pd", "finmlkit/feature/transforms.py:EWMA._nb", "finmlkit/feature/transforms.py:BarDurationEWMA"]}
{"id": "C131", "title": "Percent change, realized volatility and VPIN of the two implementations", "statement": "Percent change of positive series without gaps, realized volatility of all series and VPIN with window volumes of 0 or at least 1e-9 are the same in pandas and numba. False beyond that: gaps and zeros change the percent change, tiny volumes have a VPIN in pandas only.", "quantifier": "every series and window", "why_tests_cant": "All lengths, windows and gap patterns.", "anchors": ["finmlkit/feature/transforms.py:PctChange._pd", "finmlkit/feature/transforms.py:PctChange._nb", "finmlkit/feature/transforms.py:RealizedVolatility._pd", "finmlkit/feature/transforms.py:VPIN._pd"]}
{"id": "C132", "title": "Price-volume correlation of the two implementations", "statement": "On columns without gaps and zero prices, outside the rows and series with hard-coded values, the pandas and the numba correlation are both missing when returns or volumes do not vary and equal otherwise. False beyond that: a missing volume leaves a value in numba only, and the hard-coded values of the two implementations cover different rows and windows, where even the signs differ.", "quantifier": "every price and volume column, window and row", "why_tests_cant": "All lengths and windows; equality of two different formulas.", "anchors": ["finmlkit/feature/transforms.py:PriceVolumeCorrelation._pd", "finmlkit/feature/transforms.py:PriceVolumeCorrelation._nb"]}
{"id": "C133", "title": "MeanReversionZScore", "statement": "A row is missing when its window is not full or has no spread; otherwise it is the deviation of its value from the window mean over the sample standard deviation, never larger than (n-1)/sqrt(n) in size; without gaps it equals the z-score kernel with ddof 1. Window 1 never has a value.", "quantifier": "every series and window", "why_tests_cant": "All lengths, windows and gap patterns.", "anchors": ["finmlkit/feature/transforms.py:MeanReversionZScore._pd"]}
{"id": "C134", "title": "KurtosisTransform", "statement": "A row has a value exactly when its window is full and not constant; the value is the excess kurtosis of the window, between -2 and n-3, and does not change when the data are shifted or multiplied by a non-zero number.", "quantifier": "every series, window, factor and offset", "why_tests_cant": "Bounds over all windows; invariance over all affine maps.", "anchors": ["finmlkit/feature/transforms.py:KurtosisTransform._pd"]}
{"id": "C135", "title": "TrendSlope", "statement": "A row has a value exactly when all prices of its window are present and positive; it is the angle of the unique line through the log prices with the least squared error. Log prices on a line give its slope, rising prices a positive slope, and multiplying all prices by a positive number changes nothing.", "quantifier": "every price series and window", "why_tests_cant": "Optimality over all lines; all lengths and windows.", "anchors": ["finmlkit/feature/transforms.py:TrendSlope._pd"]}
{"id": "C136", "title": "HurstExponent", "statement": "For windows of at least 10 rows no exception is raised, and a row has a value exactly when its window is full and the sums of 1, 2, 4 and 8 consecutive returns vary; it is the least-squares slope of the log roots of their variances over the log lags, the first return of the window does not matter, and neither does a drift or the unit of the returns. Windows 2, 3, 5 and 9 never have a value; windows 1, 4, 6, 7 and 8 raise TypeError on the first window that varies.", "quantifier": "every return series and window", "why_tests_cant": "All lengths and windows.", "anchors": ["finmlkit/feature/transforms.py:HurstExponent._pd", "finmlkit/feature/transforms.py:HurstExponent._hurst_aggregated_variance"]}
{"id": "C137", "title": "Volume bars with float64 rounding", "statement": "With every addition rounded to float64 (nearest, ties to even), the closes segment the volumes greedily up to one relative error 2^-53 per trade of the bar, they are the exact closes whenever no partial sum is that close to the threshold or all volumes are multiples of one power of two within 53 bits, and they are stable under appended trades. False in general: ten volumes of 0.1 do not fill a bar of 1.", "quantifier": "every volume series, threshold and length", "why_tests_cant": "Rounding errors over all lengths; equality for all integer volumes.", "anchors": ["finmlkit/bar/logic.py:_volume_bar_indexer"]}
{"id": "C138", "title": "Dollar bars with float64 rounding", "statement": "With rounded products, sums and subtractions the threshold times the number of bars plus the carried remainder equals the total dollar volume up to 3n 2^-53 relative error; closes and remainder are exact for prices and volumes on binary grids within 53 bits; closes are stable under appended trades. False in general: closes can differ from exact arithmetic.", "quantifier": "every price and volume series and threshold", "why_tests_cant": "Error bound over all lengths.", "anchors": ["finmlkit/bar/logic.py:_dollar_bar_indexer"]}
{"id": "C139", "title": "OHLCV bars with float64 rounding and float32 volume", "statement": "Open, high, low, close and trade count are exact; volume is within one float32 and n float64 roundings of the sum; VWAP within n+2 roundings of the quotient and of the price range; the median within 2 roundings; volumes on a binary grid within 24 bits are exact. False: the VWAP lies between low and high (one trade at price 3 with volume 0.1 has a higher VWAP); the volume is the sum of the volumes (2^24 + 1).", "quantifier": "every bar of every trade series", "why_tests_cant": "Error bounds over all bar lengths.", "anchors": ["finmlkit/bar/base.py:comp_bar_ohlcv"]}
{"id": "C140", "title": "Buy and sell totals with float64 rounding and float32 storage", "statement": "Tick counts and their extremes are exact; buy and sell volume and dollars are within one float32 and one float64 rounding per trade of the exact sums; running extremes within the stated absolute error; spreads within relative errors; buy plus sell volume agrees with the bar volume up to these errors. False: buy plus sell volume equals the bar volume.", "quantifier": "every bar of every trade series", "why_tests_cant": "Error bounds over all bar lengths with cancellation.", "anchors": ["finmlkit/bar/base.py:comp_bar_directional_features"]}
{"id": "C141", "title": "Footprint volumes in float32 cells", "statement": "Tick counts per level are exact; each level volume is within one float64 and one float32 rounding per trade of its sum and exact on binary grids within 24 bits; a cell never decreases. False: volume is conserved up to a fixed error; after 2^24 any number of unit trades leaves the cell unchanged.", "quantifier": "every bar, level and trade series", "why_tests_cant": "All numbers of trades; the loss is unbounded.", "anchors": ["finmlkit/bar/base.py:comp_bar_footprints"]}
{"id": "C142", "title": "Merged trades in float32 cells", "statement": "When distinct prices are at least 2e-8 apart the merge in floats gives the same rows as in exact arithmetic, with amounts that are float32 numbers within one cell rounding per trade, so the total is conserved up to that error, and equal for amounts on binary grids within 24 bits. False: trades that are not split keep their amount (0.1 becomes the float32 0.1).", "quantifier": "every list of trades", "why_tests_cant": "All groupings and lengths.", "anchors": ["finmlkit/bar/utils.py:merge_split_trades"]}
{"id": "C143", "title": "Price levels of float prices", "statement": "No trade priced between the bar's low and high is rejected, levels are monotone in the price, a price within a quarter tick of the k-th tick (|k| <= 2^50) gets level k although neither the tick nor the price need be exact decimals, and the only errors are a division by a zero tick and ValueError.", "quantifier": "every tick size, price and bar", "why_tests_cant": "All float prices and tick sizes.", "anchors": ["finmlkit/bar/base.py:comp_bar_footprints"]}
{"id": "C144", "title": "Features with several outputs", "statement": "A feature depends only on the columns its transform looks at; a several-output feature built alone gives one column per produced name, in order, with the outputs of its computation (ValueError on missing columns or another number of outputs); features that neither look at cached columns of earlier ones nor share names all get the columns they have alone, retained columns are kept and nothing else is added. False: a renamed several-output feature appears under its new names (the names are ignored); two CUSUM tests of one window on different columns both appear (same names, the later replaces the earlier).", "quantifier": "every frame and list of features", "why_tests_cant": "All feature lists and name combinations.", "anchors": ["finmlkit/feature/base.py:SIMOTransform._prepare_output_nb", "finmlkit/feature/base.py:MIMOTransform._prepare_output_nb", "finmlkit/feature/kit.py:FeatureKit.build", "finmlkit/feature/transforms.py:CUSUMTest"]}
{"id": "C145", "title": "External functions as features", "statement": "The function gets the required columns in order; a single Series, array or scalar becomes the declared column, a tuple or list becomes one column per declared name; a missing column, another number of items, an array of another length, or a single result for several names raises ValueError. False: a function may return its column as a plain list; a feature without declared names is computed from its own column (it is named after the function only and takes the cached values of an earlier one).", "quantifier": "every external function, frame and reply", "why_tests_cant": "All functions and replies.", "anchors": ["finmlkit/feature/transforms.py:ExternalFunction.__call__", "finmlkit/feature/kit.py:FeatureKit.build"]}
{"id": "C146", "title": "Volume profile of a date range equals the profile of all bars", "statement": "compute_range returns one row per bar from one window before start up to end. With t0 the first of these bars, every row from t0 plus the window on is the row of the profile of all bars, and the earlier ones are missing with share 0. If a bar stands exactly one window before start, all bars from start on have their row of the full profile. False: bars of the requested range always have it; without a bar exactly one window before start the first ones are missing.", "quantifier": "every bar table and footprint with the same increasing times, window, range, number of bins and percentage", "why_tests_cant": "All tables, ranges and windows.", "anchors": ["finmlkit/feature/core/volume.py:VolumePro.compute", "finmlkit/feature/core/volume.py:VolumePro.compute_range"]}
{"id": "C147", "title": "Features do not look ahead", "statement": "Adding rows to a table never changes the feature values of the rows before them, and there is one value per row: averages, momentum, trend, returns, normalised values, volatility, volume flow, durations, moments and the CUSUM test (for those that raise: whenever both calls return). False: for the variance ratio with fewer than window plus four rows, the rolling CUSUM test with fewer than warm-up plus two, the pandas price-volume correlation with window 4, and negative lags.", "quantifier": "every table, every appended table, every window and parameter", "why_tests_cant": "All pairs of a table and its continuation.", "anchors": ["finmlkit/feature/core/ma.py:sma", "finmlkit/feature/core/ma.py:ewma", "finmlkit/feature/core/momentum.py:rsi_wilder", "finmlkit/feature/core/momentum.py:stoch_k", "finmlkit/feature/core/trend.py:adx_core", "finmlkit/feature/core/reversion.py:vwap_distance", "finmlkit/feature/core/correlation.py:rolling_price_volume_correlation", "finmlkit/feature/core/utils.py:comp_lagged_returns", "finmlkit/feature/core/utils.py:comp_zscore", "finmlkit/feature/core/volatility.py:ewms", "finmlkit/feature/core/volatility.py:atr", "finmlkit/feature/core/volatility.py:variance_ratio_1_4_core", "finmlkit/feature/core/volume.py:vpin", "finmlkit/feature/core/structural_break/cusum.py:cusum_test_rolling", "finmlkit/feature/transforms.py:PriceVolumeCorrelation", "finmlkit/feature/transforms.py:Lag"]}
{"id": "C148", "title": "Checksum files of the import", "statement": "The digest read from a checksum file is its first whole word of 64 hexadecimal digits, if there is none its first of 32, in lower case; a file is rejected exactly if there is such a digest and neither its SHA-256 nor its MD5 equals it. False: every accepted file was verified (a missing or malformed checksum file accepts anything).", "quantifier": "every text and pair of hashes", "why_tests_cant": "All texts, word boundaries and positions.", "anchors": ["scripts/binance2h5.py:_read_checksum_file", "scripts/binance2h5.py:verify_zip_checksum"]}
{"id": "C149", "title": "Reading a CSV of trades", "statement": "A file of six or seven columns with integer ids and times is read row by row, numbers and maker flags as written, and sorted by time; another number of columns, or an id or time that is no integer, is an error. False: files with a header line can be read; a missing maker flag affects only its own row; prices that are no numbers are rejected.", "quantifier": "every table and every sort by time", "why_tests_cant": "All tables and tie orders.", "anchors": ["scripts/binance2h5.py:load_csv_from_zip"]}
{"id": "C150", "title": "Imported trades keep their side", "statement": "A file in the order of ids whose times do not fall gives exactly its trades, in nanoseconds, split trades merged, each with the side of its own maker flag, provided times are distinct or the sort keeps rows of equal time in order. False without that: flags are not re-ordered with the trades when the later sort by id undoes the order of the sort by time.", "quantifier": "every file, sort by time and sort by id", "why_tests_cant": "All files and tie orders of unstable sorts.", "anchors": ["scripts/binance2h5.py:_process_task", "finmlkit/bar/data_model.py:TradesData._merge_trades"]}
{"id": "C151", "title": "Parallel import does not depend on scheduling", "statement": "When the files' first trades fall in different months, every file that could be read is stored under its month with exactly its trades, metadata and gaps, all other months stay as they were, and the result and the number of errors are the same for every order in which the workers finish. False: for two files starting in one month the last to finish stays; a failing save ends the writer, later months are lost and no error is counted.", "quantifier": "every set of files, completion order and consistent file", "why_tests_cant": "All interleavings of workers.", "anchors": ["scripts/binance2h5.py:process_all", "scripts/binance2h5.py:_writer_thread", "finmlkit/bar/data_model.py:TradesData.save_h5"]}
{"id": "C152", "title": "Target file of an import", "statement": "The month found in a downloaded file's name is its month. The file renamed is an earlier one with the same first and an earlier last month, never the target, and one is found if it exists; afterwards it is gone, other files are unchanged, and the target holds every imported month and otherwise what the renamed file held. Market names are accepted by both tables or by none. False: months of an existing target survive (an older file is renamed onto it); every month with a file is in the target.", "quantifier": "every symbol without a dash, month range and directory", "why_tests_cant": "All directories and earlier imports.", "anchors": ["scripts/binance2h5.py:orchestrate_symbol", "scripts/binance2h5.py:find_existing_h5", "scripts/binance2h5.py:parse_range_from_name", "scripts/binance2h5.py:market_label", "scripts/binance2h5.py:market_path"]}
{"id": "C153", "title": "Output names identify the transform", "statement": "For lag, rate of change, percent change, RSI, burst ratio, moving averages, Hurst exponent and time-weighted volatility, two objects with one output name are the same class with the same parameter and column, so a kit of different ones computes each on its own column. In every other single-column class the name determines the column and the number shown; in classes of several columns it determines the numbers and options shown. False: the name shows every parameter; transforms of several columns and bar rates over whole minutes get each other's values in one kit.", "quantifier": "every pair of objects, column names included, and every printing of floats that tells them apart", "why_tests_cant": "All pairs of parameters and column names.", "anchors": ["finmlkit/feature/base.py:SISOTransform.output_name", "finmlkit/feature/base.py:MISOTransform.output_name", "finmlkit/feature/transforms.py:SMA", "finmlkit/feature/transforms.py:EWMST", "finmlkit/feature/transforms.py:FlowAcceleration", "finmlkit/feature/transforms.py:ATR", "finmlkit/feature/transforms.py:VWAPDistance", "finmlkit/feature/transforms.py:BarRate", "finmlkit/feature/kit.py:FeatureKit.build"]}
{"id": "C154", "title": "Names of feature expressions are unambiguous", "statement": "Two expressions built with the arithmetic operators, minimum, maximum and absolute value have the same output name only if they apply the same operators to leaves of the same names and constants printed alike; a kit of different expressions then computes each of them. Leaf names and constants have no parentheses or commas and no leaf is named like a constant. False with apply: arguments of applied functions are not shown, and names glued with an underscore coincide with those of transforms.", "quantifier": "every pair of expressions and every frame", "why_tests_cant": "All expression trees.", "anchors": ["finmlkit/feature/base.py:BinaryOpTransform", "finmlkit/feature/base.py:ConstantOpTransform", "finmlkit/feature/base.py:UnaryOpTransform", "finmlkit/feature/base.py:MinMaxOpTransform", "finmlkit/feature/kit.py:Feature.apply", "finmlkit/feature/kit.py:FeatureKit.build"]}
{"id": "C155", "title": "Simple moving average in float64", "statement": "The average is NaN before a full window and afterwards within n+2 relative roundings of the mean of the absolute values of the exact mean, so it leaves the range of the window by no more than that. It is exact if the window length is a power of two and the values lie on a binary grid whose sum fits 53 bits. False: the average of a constant window is the constant (49 ones give less than 1, ten times 0.1 less than 0.1).", "quantifier": "every series, window and position", "why_tests_cant": "Error bounds over all windows with cancellation.", "anchors": ["finmlkit/feature/core/ma.py:sma"]}
{"id": "C156", "title": "VWAP distance in float64", "statement": "Both rolling sums at row i carry at most i+2 relative roundings against twice the total that ever passed through the window, and the output is the rounded distance from their quotient. With prices and volumes on binary grids and window sums within 53 bits the sums are exact and the call succeeds. False: a window without volume repeats the last value (a residue of 2^-53 stays and the distance follows the price); the sums recover once a large trade has left the window (with 2^53 units traded once, the VWAP of any number of later windows is 7 although all their prices are 3).", "quantifier": "every price and volume series, window and number of later rows", "why_tests_cant": "The error never decays, over all lengths.", "anchors": ["finmlkit/feature/core/reversion.py:vwap_distance"]}
{"id": "C157", "title": "VPIN in float64 and float32", "statement": "Every value is non-negative, its window has no missing bar, and its numerator and denominator carry at most i+3 relative roundings against twice the volume so far. For volumes on a binary grid of at least 2^-29 with totals within 53 bits it is the exact ratio rounded to float64 and float32, in [0, 1], and missing exactly when the exact one is. False: VPIN is at most 1 (a bar of three units after one of 2^53 gives 4/3).", "quantifier": "every pair of volume series with missing bars, every window", "why_tests_cant": "All series; the error comes from all earlier bars.", "anchors": ["finmlkit/feature/core/volume.py:vpin"]}
{"id": "C158", "title": "Flow acceleration in float64", "statement": "For non-negative volumes the logarithm is always taken of a positive number; recent and past sums carry at most i+2 relative roundings against twice the volume so far and are exact on binary grids within 53 bits. False: the indicator recovers after a large bar (after 2^53 units, any number of unit bars later, one recent against two past bars counts as equal flow).", "quantifier": "every volume series, window and recent period", "why_tests_cant": "All lengths after the large bar.", "anchors": ["finmlkit/feature/core/volume.py:comp_flow_acceleration"]}
{"id": "C159", "title": "Rolling z-score in float64", "statement": "The mean carries n+1 and the variance about that mean n+4 relative roundings, the score is formed from these, and it is NaN exactly if all values of the window equal the computed mean. A constant window with an exact sum gives NaN. False: every constant window gives NaN (three times 0.1 give a negative score).", "quantifier": "every series, window, ddof below the window and square root that is zero only at zero", "why_tests_cant": "All windows; the failure depends on the last bit of the mean.", "anchors": ["finmlkit/feature/core/utils.py:comp_zscore"]}
{"id": "C160", "title": "Exponentially weighted moving average in float64", "statement": "For non-negative series each output is, up to 4i+1 relative roundings, the exponentially weighted mean for a decay within 2^-52 of 1-2/(span+1); ValueError exactly for a span below 1. A constant series of a power of two is reproduced. False: every constant series is reproduced (0.1 and 3 are not).", "quantifier": "every non-negative series and span", "why_tests_cant": "Error bounds of a recursion over all lengths.", "anchors": ["finmlkit/feature/core/ma.py:ewma"]}
{"id": "C161", "title": "Bars do not depend on the units of prices and amounts", "statement": "With prices in a unit c times and amounts in a unit d times smaller, and thresholds and tick size changed along, volume, dollar and CUSUM bars close at the same trades; open, high, low, close, VWAP and spreads change by c, volumes and median size by d, dollar flows by c*d; trade counts, trade size features, footprint levels, imbalances, run, COT level, skew and concentration do not change; calls fail for the same inputs. False: the running extremes of volume and dollar flow, which start from 1e9 and -1e9 (true for extremes strictly inside these in both units).", "quantifier": "all units, trades, thresholds and bar boundaries", "why_tests_cant": "Relates two runs for every factor; the failure needs volumes of 1e9.", "anchors": ["finmlkit/bar/logic.py:_volume_bar_indexer", "finmlkit/bar/logic.py:_dollar_bar_indexer", "finmlkit/bar/logic.py:_cusum_bar_indexer", "finmlkit/bar/base.py:comp_bar_ohlcv", "finmlkit/bar/base.py:comp_bar_directional_features", "finmlkit/bar/base.py:comp_bar_trade_size_features", "finmlkit/bar/base.py:comp_bar_footprints"]}
{"id": "C162", "title": "Momentum, trend and distance indicators do not depend on units", "statement": "Moving averages are in the unit of their series; rate of change, RSI (both backends), Stochastic %K, ADX, VWAP distance, lagged returns, percent change, burst ratio and z-score are the same numbers in every unit, missing at the same rows, and fail for the same inputs.", "quantifier": "all units, series, windows and options", "why_tests_cant": "Relates two runs for every factor.", "anchors": ["finmlkit/feature/core/ma.py:sma", "finmlkit/feature/core/ma.py:ewma", "finmlkit/feature/core/momentum.py:roc", "finmlkit/feature/core/momentum.py:rsi_wilder", "finmlkit/feature/core/momentum.py:stoch_k", "finmlkit/feature/core/trend.py:adx_core", "finmlkit/feature/core/reversion.py:vwap_distance", "finmlkit/feature/core/utils.py:comp_lagged_returns", "finmlkit/feature/core/utils.py:comp_zscore", "finmlkit/feature/core/utils.py:comp_burst_ratio", "finmlkit/feature/core/utils.py:pct_change", "finmlkit/feature/transforms.py:RSIWilder"]}
{"id": "C163", "title": "Volatility indicators and units", "statement": "True range, ATR, exponentially weighted (with the floor changed along) and realised volatilities are in the unit of their input, the rolling variance in its square; Bollinger %b, Parkinson range, variance ratio and price-volume correlation do not depend on units. The normalised ATR does not either if every bar has high and low with a positive mid price. False without: a bar with a missing high keeps the ATR in price units.", "quantifier": "all units and series with missing values, windows and options", "why_tests_cant": "Relates two runs for every factor; the failure needs a missing high.", "anchors": ["finmlkit/feature/core/volatility.py:true_range", "finmlkit/feature/core/volatility.py:atr", "finmlkit/feature/core/volatility.py:ewms", "finmlkit/feature/core/volatility.py:ewmst_mean0", "finmlkit/feature/core/volatility.py:ewmst", "finmlkit/feature/core/volatility.py:realized_vol", "finmlkit/feature/core/volatility.py:bollinger_percent_b", "finmlkit/feature/core/volatility.py:parkinson_range", "finmlkit/feature/core/volatility.py:rolling_variance_nb", "finmlkit/feature/core/volatility.py:variance_ratio_1_4_core", "finmlkit/feature/core/correlation.py:rolling_price_volume_correlation"]}
{"id": "C164", "title": "Flow indicators and the unit of volume", "statement": "VPIN and flow acceleration do not depend on the unit of the volumes. False: VPIN is missing where the window total is at most 1e-9, and flow acceleration adds 1e-12 to both sums. True for VPIN where both units give a value.", "quantifier": "all units and volume series with missing bars, windows", "why_tests_cant": "Relates two runs for every factor.", "anchors": ["finmlkit/feature/core/volume.py:vpin", "finmlkit/feature/core/volume.py:comp_flow_acceleration"]}
{"id": "C165", "title": "Labels do not depend on the unit of prices", "statement": "Triple barrier labels, touch times, returns and weights of positive prices are the same in every price unit; calls fail for the same inputs.", "quantifier": "all units, price paths, events, targets, barriers and sides; every logarithm whose differences do not depend on the unit", "why_tests_cant": "Relates two runs for every factor.", "anchors": ["finmlkit/label/tbm.py:triple_barrier"]}
{"id": "C166", "title": "Changing units by powers of two is exact in float64", "statement": "With prices and amounts multiplied by powers of two the float64 volume and dollar bars close at the same trades, every OHLCV value (float32 volume included) and moving average is the same number in the new unit, and VWAP distance and z-score are the same numbers. False for other units: ten trades of 0.1 do not reach a threshold of 1 while ten of 1 reach 10.", "quantifier": "all exponents, trades, thresholds, windows (exponent range unbounded)", "why_tests_cant": "Bit-for-bit relation of two runs over all inputs.", "anchors": ["finmlkit/bar/logic.py:_volume_bar_indexer", "finmlkit/bar/logic.py:_dollar_bar_indexer", "finmlkit/bar/base.py:comp_bar_ohlcv", "finmlkit/feature/core/ma.py:sma", "finmlkit/feature/core/ma.py:ewma", "finmlkit/feature/core/reversion.py:vwap_distance", "finmlkit/feature/core/utils.py:comp_zscore"]}
{"id": "C167", "title": "Saving and loading a whole feature kit", "statement": "Loading a saved kit succeeds iff every feature loads and otherwise raises the exception of the first that does not; features keep number, order and names, the retained columns stay, and loading twice is loading once. Without names set by apply the loaded kit is the saved one; with them it builds the very same frame wherever output names determine the computation before and after. Missing dictionary keys count as empty lists. False: the dependency graph is the same (a dependency on a feature named by apply is lost and the computation order changes).", "quantifier": "every kit of features made with operators and methods, every frame and backend", "why_tests_cant": "Quantifies over all expression trees and frames; whether names collide is a property of the whole kit.", "anchors": ["finmlkit/feature/kit.py:FeatureKit.from_dict", "finmlkit/feature/kit.py:FeatureKit.to_config", "finmlkit/feature/kit.py:Feature.from_config"]}
{"id": "C168", "title": "Looking up months of a file, before and after adding bars", "statement": "For a month m of a file the metadata and discontinuities returned are those stored under /meta/m and /integrity/m, with KeyError exactly if there are no trades (or no metadata) and None for no discontinuities; the short key m is never found. Adding bars for any months, in any number and with failures, changes nothing the inspector reports; the reader then lists the old bars and those of the processed month. False: only keys of trades are answered.", "quantifier": "every file, month, list of months and bar builder", "why_tests_cant": "All files and key texts (python string replacement included).", "anchors": ["finmlkit/bar/io.py:H5Inspector.get_metadata", "finmlkit/bar/io.py:H5Inspector.get_integrity_info", "finmlkit/bar/io.py:H5Inspector.list_keys", "finmlkit/bar/io.py:TimeBarReader.list_keys", "finmlkit/bar/io.py:AddTimeBarH5.process_all"]}
{"id": "C169", "title": "What the inspector reports about saved trades", "statement": "After any sequence of saves the three questions (metadata, statistics, discontinuities) are answered for exactly the months listed, each listed once, with equal trade counts; statistics are the number of trades and the attained least and greatest time, price and amount. After overwriting saves of sorted, preprocessed data metadata and statistics agree in the time range and the discontinuities are those of the last save. False after an append: the range in the metadata; and that a month flagged as fine has no discontinuities on file (a clean append keeps the old ones and resets flag and missing percentage).", "quantifier": "every history of saves (overwriting, appending, truncating), every frame", "why_tests_cant": "All histories; the failures need a save in append mode.", "anchors": ["finmlkit/bar/io.py:H5Inspector.get_statistics", "finmlkit/bar/io.py:H5Inspector.get_metadata", "finmlkit/bar/data_model.py:TradesData.save_h5"]}
{"id": "C170", "title": "The clock only names the bars", "statement": "Tick, volume and dollar bars are the same bars under any other time stamps, CUSUM bars under any that keep different times different; every call of every session returns the old answer with the new labels. Time bars likewise when all trades move by a whole number of intervals, in the years 2006 to 2043 without further conditions (the clock is there: multiples of the interval from the one not after the first to the one not before the last trade, both rounded to 256 ns), in other years under the conditions of C01. False: shifts by part of an interval, shifts across 2^53 ns (one bar less) or across roundings, CUSUM bars on a coarser clock.", "quantifier": "all trades, all changes of the clock, builders, sessions and calls", "why_tests_cant": "Relates two runs for every change of the clock; the failures need time stamps near powers of two.", "anchors": ["finmlkit/bar/logic.py:_time_bar_indexer", "finmlkit/bar/logic.py:_cusum_bar_indexer", "finmlkit/bar/logic.py:_tick_bar_indexer", "finmlkit/bar/logic.py:_volume_bar_indexer", "finmlkit/bar/logic.py:_dollar_bar_indexer", "finmlkit/bar/base.py:BarBuilderBase", "finmlkit/bar/kit.py:TimeBarKit"]}
{"id": "C171", "title": "Indicators and labels do not depend on the date", "statement": "Bar rate, durations, time-stamped volatilities, rolling and developing volume profiles are the same after any shift of the clock; daily gap, opening range breakout and time-of-day cues after whole days, all cues after whole weeks; lagged returns and triple barrier labels (float64 time stamps) after shifts by multiples of 512 ns within 2006 to 2043. False: a shift by 35 ns removes a lagged return, one by 20 ns a label, one by an hour the daily gap.", "quantifier": "all shifts, series, windows, events, barriers", "why_tests_cant": "Relates two runs for every shift; rounding of time stamps shows only below a microsecond.", "anchors": ["finmlkit/feature/transforms.py:BarRate", "finmlkit/feature/transforms.py:BarDuration", "finmlkit/feature/core/volatility.py:ewmst", "finmlkit/feature/core/volatility.py:ewmst_mean0", "finmlkit/feature/core/volume.py:volume_profile_rolling", "finmlkit/feature/core/volume.py:volume_profile_developing", "finmlkit/feature/core/volume.py:aggregate_footprint", "finmlkit/feature/transforms.py:DailyGap", "finmlkit/feature/transforms.py:ORBBreak", "finmlkit/feature/core/time.py:time_cues", "finmlkit/feature/core/utils.py:comp_lagged_returns", "finmlkit/label/tbm.py:triple_barrier", "finmlkit/label/kit.py:TBMLabel.compute_labels"]}
{"id": "C172", "title": "Exchanging buyers and sellers exchanges the two columns", "statement": "With every buy made a sell and back, the counts, volumes and dollar volumes of the two sides change places in every bar, spreads stay, extremes of the running balances change place and sign; in footprints volumes and tick counts change places while levels, point of control and concentration stay. False: the imbalance flags and runs are exchanged. They are if the price scale is turned over as well around a point of the tick grid: level l becomes c - l, buy imbalances become sell imbalances, a unique point of control and the longest run turn over. False for a centre half way between ticks (rounding to even), for ties of the point of control and for longest runs of both signs (the lower level decides).", "quantifier": "all trades, bars, ticks, multipliers and centres", "why_tests_cant": "Relates two runs for every input; ties and half ticks decide the failures.", "anchors": ["finmlkit/bar/base.py:comp_bar_directional_features", "finmlkit/bar/base.py:comp_bar_footprints", "finmlkit/bar/base.py:comp_footprint_features"]}
{"id": "C173", "title": "Rises and falls are treated alike", "statement": "For returns of the opposite sign the CUSUM filter and CUSUM bars give the same events if thresholds are known, positive and never less than half of an earlier one (and neighbouring trades have different times); the tick rule gives the opposite sides; VPIN does not depend on which side is called buy; triple barrier labels with the barriers exchanged have the same touches, opposite returns and, unless the return is 0, opposite labels with the same weights; with sides turned over too nothing changes. False: for thresholds that fall further or are unknown, for blocks of equal time stamps (a rise and a fall due together, one is reported first and only its sum restarts), and for returns of 0 (label 1 and weight of the lower barrier both ways).", "quantifier": "all price paths, thresholds, events, barriers, windows; every logarithm", "why_tests_cant": "Relates two runs for every input; simultaneous crossings are rare.", "anchors": ["finmlkit/sampling/filters.py:cusum_filter", "finmlkit/bar/logic.py:_cusum_bar_indexer", "finmlkit/bar/utils.py:comp_trade_side_vector", "finmlkit/feature/core/volume.py:vpin", "finmlkit/label/tbm.py:triple_barrier"]}
{"id": "C174", "title": "A larger parameter means fewer and later reports", "statement": "With a larger threshold the k-th tick, volume or dollar bar does not close earlier and there are not more bars (volumes not negative; dollar bars for any amounts; volume bars also in float64). The same holds for CUSUM events and bars if the smaller thresholds are known, positive and never less than half of an earlier one (and neighbouring trades have different times). Wider barriers, a longer horizon and a later first exit never close a labelled event earlier; the horizon only concerns events that reached it; a larger minimum return only turns labels 1 into 0. A larger volume share gives a larger value area, a larger imbalance multiplier fewer flags, a larger gap limit exactly the larger gaps. False: dollar bars in float64, falling CUSUM thresholds, equal time stamps, closes being a subset.", "quantifier": "all series, pairs of parameters, events, barriers; every logarithm", "why_tests_cant": "Relates two runs for every pair of parameters; the failures need rounding or simultaneous crossings.", "anchors": ["finmlkit/bar/logic.py:_tick_bar_indexer", "finmlkit/bar/logic.py:_volume_bar_indexer", "finmlkit/bar/logic.py:_dollar_bar_indexer", "finmlkit/bar/logic.py:_cusum_bar_indexer", "finmlkit/sampling/filters.py:cusum_filter", "finmlkit/label/tbm.py:triple_barrier", "finmlkit/feature/core/volume.py:comp_poc_hva_lva", "finmlkit/bar/base.py:comp_footprint_features", "finmlkit/bar/io.py:_find_gaps"]}
{"id": "C175", "title": "Time bars built month by month", "statement": "For trades between 2006 and 2043 and an interval that is a multiple of 512 ns (such as the second used for files), if a tick of the clock lies between the last trade of one piece and the first of the next, that first trade is not on a tick, and neither is within 128 ns of the wrong side of one, then the OHLCV bars of all the trades are exactly the bars of the pieces with one bar per interval without trades between them, at the last price of the earlier piece with nothing traded. For any number of pieces that each have bars. False: if a piece starts on a tick its first trade is in no bar; if two pieces share an interval two bars have one label; directional features of the first bar of a piece and tick bars differ.", "quantifier": "all trades, prices, amounts, intervals; any number of pieces", "why_tests_cant": "Relates the run on the joined trades to all runs on the pieces; the clock goes through float64.", "anchors": ["finmlkit/bar/kit.py:TimeBarKit", "finmlkit/bar/io.py:AddTimeBarH5.process_key", "finmlkit/bar/logic.py:_time_bar_indexer", "finmlkit/bar/base.py:build_ohlcv", "finmlkit/bar/base.py:comp_bar_ohlcv"]}
{"id": "C176", "title": "Indicators of prices with a constant added or turned upside down", "statement": "If a constant is added to the prices or they are turned upside down (x becomes d - x, high and low changing places), averages move along; RSI, stochastic %K, ADX, true range, ATR, %b, z-score, rolling variance and the weighted volatilities ignore the constant; upside down RSI and %K are reflected at 50, %b at 1/2, the z-score changes sign and the others stay. Turned on a logarithmic scale (c / x) log returns change sign, Parkinson range and the variance ratio of log returns stay, and the structural break test exchanges its upward and downward statistics and critical values. False: RSI 0 becomes 100 (it becomes a missing value; flat prices stay at 100 with pandas), the stochastic transform of the kit is reflected, ATR in units of the close ignores the level, the time weighted volatility ignores the level when a return is missing, simple returns change sign.", "quantifier": "all series, windows, constants; every square root and every odd logarithm", "why_tests_cant": "Relates two runs for every series and constant.", "anchors": ["finmlkit/feature/core/ma.py:sma", "finmlkit/feature/core/ma.py:ewma", "finmlkit/feature/core/momentum.py:rsi_wilder", "finmlkit/feature/core/momentum.py:stoch_k", "finmlkit/feature/core/trend.py:adx_core", "finmlkit/feature/core/utils.py:comp_zscore", "finmlkit/feature/core/utils.py:comp_lagged_returns", "finmlkit/feature/transforms.py:RSIWilder", "finmlkit/feature/transforms.py:StochK", "finmlkit/feature/core/volatility.py:true_range", "finmlkit/feature/core/volatility.py:atr", "finmlkit/feature/core/volatility.py:ewms", "finmlkit/feature/core/volatility.py:ewmst", "finmlkit/feature/core/volatility.py:ewmst_mean0", "finmlkit/feature/core/volatility.py:realized_vol", "finmlkit/feature/core/volatility.py:bollinger_percent_b", "finmlkit/feature/core/volatility.py:parkinson_range", "finmlkit/feature/core/volatility.py:rolling_variance_nb", "finmlkit/feature/core/volatility.py:variance_ratio_1_4_core", "finmlkit/feature/core/structural_break/cusum.py:cusum_test_developing", "finmlkit/feature/core/structural_break/cusum.py:cusum_test_last", "finmlkit/feature/core/structural_break/cusum.py:cusum_test_rolling"]}
{"id": "C177", "title": "The tick size estimate in float64 is the nearest number to the exact tick", "statement": "If every sampled price is the float64 number nearest to a multiple of 10^-k (k at most 12, multiples up to 2^45) and two of them are fewer than ten such steps apart, comp_price_tick_size in float64 returns the float64 number nearest to the exact greatest common divisor of all differences, for every floor of log10 that errs only within 2^-40 of a power of ten; with that tick the price level of every price on its grid is the exact number of ticks. An empty array raises ValueError, equal prices give 0. False: two different prices give a positive estimate, the estimate belongs to the grid without a close pair, whole prices far apart give a whole tick.", "quantifier": "all price lists, decimals, logarithms", "why_tests_cant": "Rounding to 12 decimals, differences, a logarithm and a division each round; whether the errors cancel depends on every digit.", "anchors": ["finmlkit/bar/utils.py:comp_price_tick_size", "finmlkit/bar/base.py:comp_bar_footprints"]}
{"id": "C178", "title": "A run on the trades so far agrees with a run on all trades", "statement": "For tick, volume, dollar and CUSUM builders (thresholds for the earlier trades kept), the frames of OHLCV, directional features, footprints with a given tick and trade sizes of the trades so far are the beginning of those of all trades; for time bars (2006 to 2043, interval a multiple of 512 ns) all rows of the OHLCV frame but the last, and that too if its interval is over before the next trade. Feature columns that do not look ahead, CUSUM events, and triple barrier outputs of events whose window ends before the next bar keep their values; so does the whole way from trades to labels. False: the last time bar, the directional features of the first time bar (the code reads the last trade of the array as the one before the first), footprints with an inferred tick size, labels of open windows.", "quantifier": "all trades, later trades, thresholds, functions without look-ahead, barriers", "why_tests_cant": "Relates two runs for every later continuation of the data.", "anchors": ["finmlkit/bar/kit.py:TickBarKit", "finmlkit/bar/kit.py:VolumeBarKit", "finmlkit/bar/kit.py:DollarBarKit", "finmlkit/bar/kit.py:CUSUMBarKit", "finmlkit/bar/kit.py:TimeBarKit", "finmlkit/bar/base.py:BarBuilderBase", "finmlkit/bar/base.py:comp_bar_ohlcv", "finmlkit/bar/base.py:comp_bar_directional_features", "finmlkit/bar/base.py:comp_bar_footprints", "finmlkit/sampling/filters.py:cusum_filter", "finmlkit/label/tbm.py:triple_barrier"]}
{"id": "C179", "title": "Which log records are written where", "statement": "Levels come from the environment, else from the .env file (its last entry), else defaults, in any case of letters. From an unconfigured root logger the set-up succeeds exactly if both level names are known and a log file, if named, lies in a directory that exists or can be made. Then each record outside five noisy packages goes to the console exactly if it reaches the console level and to the file exactly if there is one and it reaches the file level, once each; records of the noisy packages must also be warnings. Loggers that have handlers are left alone however often loggers are asked for. False: a failed set-up leaves nothing behind (a file name without directory raises once, later imports succeed without a log file); the level of the file does not matter without a file.", "quantifier": "all environments, .env files, logger names, levels", "why_tests_cant": "Depends on every combination of settings and of package names.", "anchors": ["finmlkit/utils/log.py:setup_logging", "finmlkit/utils/log.py:get_logger"]}
{"id": "C180", "title": "RSI, stochastic %K and ADX in float64", "statement": "In float64 RSI is missing exactly where the exact one is, lies in [0, 100] and differs from the exact value by at most 100 ((1+2^-53)^(18 i + 6) - 1). %K lies between 0 and 100 + 2^-46 and five roundings away from the exact value. ADX lies in [0, 100] (windows up to 2^53 / 100), and if neighbouring highs and neighbouring lows are positive and within a factor of two its error is at most 100 ((1+2^-53)^(30 i + 50) - 1). False: %K is at most 100 (low 1.0, high and close 1.11 give 100.00000000000001); the error bound of ADX without the factor of two (two moves that tie after rounding give 0 where the exact value is 100).", "quantifier": "all series, windows, positions", "why_tests_cant": "Rounding errors of every step on every series; comparisons of rounded differences.", "anchors": ["finmlkit/feature/core/momentum.py:rsi_wilder", "finmlkit/feature/core/momentum.py:stoch_k", "finmlkit/feature/core/trend.py:adx_core"]}
{"id": "C181", "title": "Which events there are, in what order, and in what units weights are given", "statement": "Leaving out events never lowers the uniqueness of another label, and keeps it exactly if none of them overlaps it; concurrency does not rise. Uniqueness, concurrency, attribution, class balance and (without time decay) final weights of reordered events are the reordered ones. Events of one stretch of data after another have the uniqueness and concurrency of both. Final weights do not depend on the scale of uniqueness, attribution or vertical weights, nor on the names of the classes; balancing twice is balancing once if no class has total weight 0. False: order with time decay, attribution when events are left out, balancing twice with an empty class.", "quantifier": "all events, labels, weights, permutations, choices", "why_tests_cant": "Relates two runs for every choice and order of events.", "anchors": ["finmlkit/label/weights.py:average_uniqueness", "finmlkit/label/weights.py:return_attribution", "finmlkit/label/weights.py:class_balance_weights", "finmlkit/label/kit.py:SampleWeights.compute_final_weights"]}
{"id": "C182", "title": "CUSUM events in float64 are those of exact arithmetic away from the threshold", "statement": "Let log returns be off by at most d, and sums of consecutive returns at most B. If at each position no sum of consecutive returns ending there (0 included) is within (B + d (1+u)/u)((1+u)^i - 1), u = 2^-53, of the threshold or its negative, the CUSUM filter in float64 reports the events of exact arithmetic; for CUSUM bars likewise, at positions where the next trade is not at the same time, with the rounding of multiplier times sigma added. False without the distance: events are lost and gained even when every single return is exact.", "quantifier": "all prices, thresholds, logarithms, errors", "why_tests_cant": "Whether one event differs decides all later sums; depends on every price.", "anchors": ["finmlkit/sampling/filters.py:cusum_filter", "finmlkit/bar/logic.py:_cusum_bar_indexer"]}
{"id": "C183", "title": "The triple barrier method in float64", "statement": "In float64 every event whose window is not empty ends at the first record that may close it and whose rounded return reaches a rounded barrier, else at the end of the window; labels follow the returned return and weights lie in [0, 1], for every logarithm. If logarithms are off by at most d, returns in the window are at most R, and none is within e = 2 d (1+u) + u R (u = 2^-53) and the rounding of the barrier of a barrier, the touched record is that of exact arithmetic and the return is off by at most e; the label is the same if the return is further than e from 0 (or the minimum return), and then weights differ by at most (1+rho) D + 3u (rho + D), D = eta + 3u (rho + eta), where barriers are at least R/rho and e/eta wide. False without these distances: the touched record and the label.", "quantifier": "all prices, events, targets, barriers, logarithms, errors", "why_tests_cant": "Depends on rounding at every record of every window.", "anchors": ["finmlkit/label/tbm.py:triple_barrier"]}
{"id": "C184", "title": "Sample weights in float64", "statement": "Whatever the order of additions in np.sum and np.mean: uniqueness of a label over m positions carries m + 2 roundings (relative), stays in (0, 1] and is 1 exactly for labels that overlap no other. Return attribution over m positions is off by at most ((1+u)^(m+1) - 1) times the sum of absolute parts, u = 2^-53; normalised weights total n and are in proportion up to 2n + 2 roundings, and normalising raises exactly if all raw weights are 0. For every float64 last_weight above -1 the newest decay weight is exactly 1 and weights are ordered and in [0, 1]. Class totals after balancing are equal up to 4n + 4 roundings. Final weights have mean 1 and are in proportion up to 8n + 15, classes have equal shares up to 12n + 19. False: an event that a negative last_weight erases exactly gets weight 0 (uniqueness 0.5, 0.5, 1 and last_weight -0.25 give 5.6e-17).", "quantifier": "all events, prices, weights, labels, orders of additions", "why_tests_cant": "Every rounding on every input and every order of additions.", "anchors": ["finmlkit/label/weights.py:average_uniqueness", "finmlkit/label/weights.py:return_attribution", "finmlkit/label/weights.py:time_decay", "finmlkit/label/weights.py:class_balance_weights", "finmlkit/label/kit.py:SampleWeights.compute_final_weights"]}
{"id": "C185", "title": "Volatility estimators in float64", "statement": "In float64 every true range is the number nearest to the exact one. ATR is NaN where the exact one is and carries window + 2 roundings (relative), 3 more per step of the exponential average, 5 more if normalised. Realised variance over m returns carries m + 2, whatever the order of additions. Rolling variance is NaN where the exact one is; its error is at most ((1+u)^(2m+6) - 1) times twice the sum of squares over m - ddof, u = 2^-53. The mean and variance behind Bollinger percent b are off by a bound that grows with all closes so far; for closes on a dyadic grid only the window counts. ewms without missing values is NaN for the first value only; mean square minus squared mean and denominator are off by at most relative errors of the mean square and of the weight. False: a relative error for variances (variance 1 around 1e8 is reported as 3, 2/3 around 1e9 as 0); percent b recovers after an outlier has left the window (one close of 1e9 gives NaN ever after); ewms is NaN exactly with fewer than two values (one value 5 and two NaN, span 28, give 7.448).", "quantifier": "all series, windows, spans, positions, square roots", "why_tests_cant": "Depends on every rounding and on all earlier values of the series.", "anchors": ["finmlkit/feature/core/volatility.py:true_range", "finmlkit/feature/core/volatility.py:atr", "finmlkit/feature/core/volatility.py:realized_vol", "finmlkit/feature/core/volatility.py:bollinger_percent_b", "finmlkit/feature/core/volatility.py:rolling_variance_nb", "finmlkit/feature/core/volatility.py:ewms"]}
{"id": "C186", "title": "Time-decayed volatility and price/volume correlation in float64", "statement": "If exp returns float64 numbers in [0, 1], the two weights of every step of ewmst_mean0 and ewmst add up to 1 exactly in float64; the decay is within one rounding of exp and equal to it from 1/2 on, and its argument carries 3 roundings (2 for steps up to 2^53 ns). ewmst_mean0 is NaN exactly while the weights total 0; its variance is the weighted mean square of the present values up to 6i + 2 relative errors. For ewmst (missing values count as 0) mean square minus squared mean and denominator are off by at most relative errors of the mean square and of the weight. The correlation lies in [-1, 1]; it is NaN exactly if all returns equal their rounded mean or all volumes theirs; covariance and spreads of N observations are off by at most ((1+u)^(3N+9) - 1) times a sum of products of sizes. False: one observation has the floor as its deviation (a single return of 0.001, 49 s after the start, half-life 30 s, gives 0.00124); a flat series has the floor; the correlation is NaN without variation (three returns and three volumes of 0.1 give 1).", "quantifier": "all series, timestamps, half-lives, windows, positions, square roots and exponentials", "why_tests_cant": "Depends on every rounding on every series and time step.", "anchors": ["finmlkit/feature/core/volatility.py:ewmst_mean0", "finmlkit/feature/core/volatility.py:ewmst", "finmlkit/feature/core/correlation.py:rolling_price_volume_correlation"]}
{"id": "C187", "title": "CUSUM test on levels in float64", "statement": "With a square root that is right up to one rounding (the IEEE one is defined and shown to be), at least 3 and at most 2^50 steps and a root mean square step of at least 1e-16, the square of each reported statistic is, up to 2t + 24 roundings, the largest over the start points 1..t-2 of the squared rise (fall) divided by t - n times the sum of squared steps over t - 1, and the reported critical value is that of a start point attaining the largest up to these roundings. The rolling test has the roundings of its window only. A flag implies a start point whose exact squared statistic, enlarged by these roundings, exceeds its squared critical value. A series without a move gives no flag. False: the reported critical value is that of the start point with the largest exact statistic (log prices 0, 0, 0.45876, 1, 2.5).", "quantifier": "all log prices, windows, positions, logarithms, rounded square roots", "why_tests_cant": "Depends on every rounding and every start point of every window.", "anchors": ["finmlkit/feature/core/structural_break/cusum.py:_comp_max_s_nt", "finmlkit/feature/core/structural_break/cusum.py:cusum_test_developing", "finmlkit/feature/core/structural_break/cusum.py:cusum_test_last", "finmlkit/feature/core/structural_break/cusum.py:cusum_test_rolling"]}
{"id": "C188", "title": "Returns, burst ratio, Parkinson range and variance ratio in float64", "statement": "The rounded quotient of two positive float64 prices is above, below or equal to 1 exactly as the prices compare. So simple and log lagged returns have the sign of the exact ones and are NaN where those are; a simple lagged return is off by at most u = 2^-53 times the price ratio if that lies in [1/2, 2]. pct_change carries two relative roundings, roc three, the burst ratio three (with the NaN pattern of exact arithmetic), the Parkinson range two of the squared computed logarithm; it is 0 exactly if high = low. The variance ratio is the ratio of the rolling variances of the computed returns up to three roundings; four-bar returns carry three roundings of the sum of absolute values. False: a relative error for lagged returns (neighbouring prices at 1.5: half as large again); the variance ratio of a steady trend is NaN (seven prices growing by exactly 1 percent, window 3, give 0.25).", "quantifier": "all prices, timestamps, windows, positions, logarithms", "why_tests_cant": "Depends on every rounding on every pair of prices.", "anchors": ["finmlkit/feature/core/utils.py:comp_lagged_returns", "finmlkit/feature/core/utils.py:pct_change", "finmlkit/feature/core/utils.py:comp_burst_ratio", "finmlkit/feature/core/momentum.py:roc", "finmlkit/feature/core/volatility.py:parkinson_range", "finmlkit/feature/core/volatility.py:variance_ratio_1_4_core"]}
{"id": "C189", "title": "Volume profiles in float32 and float64", "statement": "On float32 volumes the POC is the lowest level of largest volume and the value area is the one found by the greedy search with a float64 running volume; its threshold is the requested share up to one float32 rounding per level and two float64 roundings. It covers that share up to rounding, and before its last growth it did not. With lots of 2^g and at most 2^24 lots in total the search is the exact one for the share rounded to float64. Bucket volumes carry one float32 rounding per level, bucket widths and prices none. The share above the POC carries the roundings of both sums. For every bar of the rolling profile, the POC, the coverage and the share of the exact level volumes of the bars in the window hold up to one float32 rounding per bar and level. Rounding to eight decimals leaves float32 volumes of at least 1/4 alone. False: a value area of 100 percent holds all volume (2^24, 1, 1); the share above the POC is at most 1 (1/4, 2^24, 1, 1); the POC has the largest volume (2^24 against 2^24 + 1 + 1 traded in three bars); rounding to eight decimals keeps small volumes.", "quantifier": "all levels, volumes, percentages, bin counts, timestamps, windows, ticks", "why_tests_cant": "Depends on every rounding on every set of volumes.", "anchors": ["finmlkit/feature/core/volume.py:aggregate_footprint", "finmlkit/feature/core/volume.py:bucket_price_levels", "finmlkit/feature/core/volume.py:comp_poc_hva_lva", "finmlkit/feature/core/volume.py:calc_volume_percentage_above_poc", "finmlkit/feature/core/volume.py:volume_profile_rolling", "finmlkit/feature/core/volume.py:trim_trailing_zeros"]}
{"id": "C190", "title": "Footprint features in float32 and float64", "statement": "On float32 level volumes an imbalance flag is set only where the exact comparison holds, and wherever it holds by more than one rounding of the product, or at all if the multiplier has at most 29 bits. The longest run is that of these flags. The centre-of-trades level is the first one with the largest rounded total, and its exact total falls short of no other by more than two float32 roundings. The Gini coefficient is the float64 complement of a sum of squared shares that carries at most 5n + 9 float32 roundings on n levels. The exact skew is always 0; the float skew is at most 9n + 29 float32 unit roundoffs times the highest level number, for any inner product with the usual error bound. False: flags are the exact ones for any float64 multiplier (1 against 3 times the float64 number nearest 1/3); the centre-of-trades level has the largest exact total (2^24 against 2^24 + 1); the Gini coefficient of two traded levels is positive (2^24 and 1); the skew of one level is 0 (level 1000003, volume 17: -1/16).", "quantifier": "all levels, volumes, multipliers, inner products", "why_tests_cant": "Depends on every rounding on every set of level volumes.", "anchors": ["finmlkit/bar/base.py:comp_footprint_features"]}
{"id": "C191", "title": "Trade-size features in float64 and float32", "statement": "The relative mean size of a bar of n trades is the float32 rounding of log1p of a quotient off by at most n + 4 roundings. The 95th percentile (n at most 2^40) interpolates between the two order statistics that the exact position selects, at a weight off by at most 3n roundings, with five more roundings; at a whole position there is no interpolation and three roundings. The block share lies in [0, 1] and carries 3n + 1 roundings before it is stored; blocks are trades above theta * mult and include all that exceed it by more than one rounding. The size Gini is the stored complement of a sum of squared shares off by at most 5n + 3 roundings, 0 for one trade. Rows are NaN for empty bars and theta = 0, share and Gini without volume. False: the 95th percentile of equal sizes is that size (three trades of 2.9 give more); every trade above theta * mult is a block (theta 0.1, multiplier 3); the Gini coefficient of two trades is positive (2^53 and 1).", "quantifier": "all sizes, thetas, bars, multipliers, log1p functions", "why_tests_cant": "Depends on every rounding and every bar length.", "anchors": ["finmlkit/bar/base.py:comp_bar_trade_size_features"]}
{"id": "C192", "title": "Footprints end to end in float32 and float64", "statement": "comp_bar_footprints on the bars of comp_bar_ohlcv always succeeds; elsewhere it raises ZeroDivisionError for a zero tick and nothing but ValueError otherwise. Levels run from the bar's low to its high level, trade counts are exact, volumes are float32 numbers off by at most one cell rounding per trade on the level. An imbalance flag means that the comparison of the volumes actually traded holds up to the cell roundings of both levels, and a comparison that holds by that much and one float64 rounding sets it. The centre-of-trades level traded as much as any other up to two roundings per trade of the bar and two more. The Gini coefficient is the complement of the sum of squared traded shares up to 5n + 9 + 6N cell roundings (n levels, N trades); the skew is at most 9n + 29 float32 unit roundoffs times the high level. With amounts in lots of a power of two and at most 2^24 lots per level, volumes and centre of trades are exact, and so are the flags for multipliers of at most 29 bits. False: whole-number amounts give the exact flags (five sells of 2^24, 1, 1, 1, 1 against buys of 2^24 and 2).", "quantifier": "all trades, bars, tick sizes, multipliers, inner products", "why_tests_cant": "Depends on every rounding over every bar.", "anchors": ["finmlkit/bar/base.py:comp_bar_footprints", "finmlkit/bar/base.py:comp_footprint_features"]}
{"id": "C193", "title": "Powers of two as units cost no rounding", "statement": "With the correctly rounded square root, prices in a unit 2^e and volumes in a unit 2^f (no overflow or underflow) change no bit of the float models beyond the unit: lagged returns, percent changes, burst ratios, rates of change, RSI, Stochastic, ADX, z-scores, Bollinger %B, price-volume correlation, Parkinson range, variance ratio, normalised ATR (positive mid prices) and trade-size features are the same floats; exponentially weighted and realised volatility, true range and ATR are exactly 2^e times, rolling variances 4^e times as large; CUSUM events and bars stay where they are for any exact change of unit; order flow and footprints keep counts, levels, flags and summaries and have volumes times 2^f, dollars times 2^(e+f); the rolling volume profile of non-negative volumes keeps POC, value area and share. The square root, the left-to-right sum and the float32 inner product used are shown to follow powers of two. False for units of ten: a price of 0.15 at tick 0.1 is at level 1, a price of 1.5 at tick 1 at level 2.", "quantifier": "all series, windows, exponents, logarithms, square roots following powers of two", "why_tests_cant": "Depends on every rounding of every function.", "anchors": ["finmlkit/feature/core/utils.py:comp_lagged_returns", "finmlkit/feature/core/utils.py:comp_zscore", "finmlkit/feature/core/momentum.py:rsi_wilder", "finmlkit/feature/core/volatility.py:ewms", "finmlkit/feature/core/volatility.py:realized_vol", "finmlkit/feature/core/volatility.py:atr", "finmlkit/bar/base.py:comp_bar_directional_features", "finmlkit/bar/base.py:comp_bar_trade_size_features", "finmlkit/bar/base.py:comp_bar_footprints", "finmlkit/feature/core/volume.py:volume_profile_rolling"]}
{"id": "C194", "title": "Volatilities and scores up to the final square root in float64", "statement": "With a square root right up to one rounding (the IEEE one is defined and shown to be): the square of a realised volatility is the mean square of the present returns up to one rounding per return and four more, so returns bounded by B have a volatility of at most B up to these; where its floor does not act, the square of ewmst_mean0 at i is the decayed mean square up to 6i + 4 roundings; a z-score over n values has the sign of the distance from the rounded mean, its square is the squared distance over the variance about that mean up to 2n + 16 roundings, and it never exceeds n - ddof by more; the correlation is a number cut to [-1, 1] that has the sign of the computed cross product and whose square is the squared cross product over the product of the computed spreads up to 14 roundings. False: volumes proportional to returns are reported with correlation 1 (two rows: 1 - 2^-52); the sample z-score of the later of two different values is 0.7071 in size (two neighbouring floats: 1).", "quantifier": "all series, windows, positions, decay functions, rounded square roots", "why_tests_cant": "Depends on every rounding of every window.", "anchors": ["finmlkit/feature/core/volatility.py:realized_vol", "finmlkit/feature/core/volatility.py:ewmst_mean0", "finmlkit/feature/core/utils.py:comp_zscore", "finmlkit/feature/core/correlation.py:rolling_price_volume_correlation"]}
{"id": "C195", "title": "Downloads of the import script", "statement": "Every market, symbol and month has its own address and file name. A download ends with the first request that does not raise, True with the whole body, False on 404, raising after three failures; what a broken request wrote stays unless a whole body follows. A month touches its own two files only, with at most nine requests to its own two addresses; a file accepted by the checksum file beside it is not requested. With a server that always answers alike and whose checksum files accept its files and no damaged local file, after a run every month's file is the server's, missing months are missing, nothing else changed, a second run asks only for the missing months, once each, and the h5 file of a first import holds every month that can be read. main imports symbols in turn, in capitals, up to the first failure; an unknown market, unreadable date or reversed range requests nothing and changes no h5 file. False: a wrong checksum file is renewed (a sound file is fetched again in every run and never accepted); a file broken off in an earlier run is fetched again (not without checksum file); a month reported as not found is not imported; other months and symbols are imported when one month cannot be reached.", "quantifier": "every network, whatever answers depend on, every symbol without slash, month range and raw directory", "why_tests_cant": "All sequences of network failures.", "anchors": ["scripts/binance2h5.py:build_urls", "scripts/binance2h5.py:download_file", "scripts/binance2h5.py:orchestrate_symbol", "scripts/binance2h5.py:main"]}
{"id": "C196", "title": "Candle shapes, gaps, bar rates, bi-power variation and bar durations in float64", "statement": "For a bar with open and close between low and high the wick and body ratios are numbers in [0, 1], right up to six roundings, together at most 1 up to six roundings (not 1: refuted); a flat bar has none; the 1e-12 is lost in a range of 2^14 or more, where a bar that is all body has a body of exactly 1, which exact arithmetic never gives; in a range of 1e-12 or less the shares add up to one half at most. The drift of the VWAP and daily gaps carry two roundings, other rows of the gap are as in exact arithmetic. The bar rate carries two roundings for windows of whole seconds and four otherwise, yet 57 bars in an hour are not 57 per hour (refuted). Bi-power variation carries window + 2 roundings in whatever order numpy adds. Durations of sorted time stamps are not negative, keep their order, carry two roundings, are exact for whole seconds up to 146 years and tell any two durations up to 52 days apart (beyond 104 days not: refuted). The mean that pandas' ewm computes for non-negative values is the mean weighted by age up to 9i^2 + 11i roundings at row i, stays between the least and greatest value up to 5i roundings (not exactly: refuted) and keeps a constant series exactly; so do smoothed durations, with two roundings more.", "quantifier": "all bars, time stamps, returns, windows, spans from 2 (hull: 1) up to 2^53, orders of summation", "why_tests_cant": "Depends on every rounding on every series.", "anchors": ["finmlkit/feature/transforms.py:CandleShape._pd", "finmlkit/feature/transforms.py:DailyGap._pd", "finmlkit/feature/transforms.py:BarRate._pd", "finmlkit/feature/transforms.py:BiPowerVariation._pd", "finmlkit/feature/transforms.py:BarDuration._pd", "finmlkit/feature/transforms.py:BarDurationEWMA._pd", "finmlkit/feature/transforms.py:EWMA._pd"]}
{"id": "C197", "title": "Resampled time bars in float32 and float64", "statement": "pandas adds the values of a group with a running compensation. For n values of either sign and p significant bits (n at most 2^(2p-12)) its error is at most 11 * 2^-p + 30 n * 4^-p times the sum of the magnitudes, and none on a grid that fits; a plain float32 sum can lose any number of ones (refuted). Resampled rows are those of exact arithmetic, with the same open, high, low, close and trade count; the volume carries the error of the compensated float32 sum, the VWAP at most 16 * 2^-24 + 40 n * 4^-24, the median size one float32 rounding; a VWAP is missing exactly where it is in exact arithmetic. For a day of seconds that is 12 and 17 float32 roundings. False: resampling in two steps gives the volume of one step.", "quantifier": "all stored bars with non-negative volumes and VWAPs (up to 2^36), all timeframes, all precisions from 10 bits", "why_tests_cant": "Depends on every rounding of every period.", "anchors": ["finmlkit/bar/io.py:TimeBarReader._resample"]}
{"id": "C198", "title": "From trades to resampled time bars", "statement": "The stored bars are the frame of the time bar builder. For sorted trades whose ticks are multiples of the bar interval I covering them (so under the conditions of C01), a timeframe tf that is a multiple of I and non-negative amounts: there is a row for every period from the one of the first label to the one of the last, with or without trades; the row labelled K holds trade count, volume and VWAP of exactly the trades in (K - I, K + tf - I], without those at the first tick. Its open, high, low and close are those of these trades if one of them is in the first bar of the period; otherwise they are those of these trades and the trade before them. All rows together have the trade count and volume of the trades after the first tick. In float32 and float64 (fewer than 2^28 trades, up to 86400 bars in a period) the rows, prices and trade counts are the same, volumes are right up to 14 and VWAPs up to 24 float32 roundings, missing exactly where the volume is zero. False: periods without trades are excluded; the open is the price of the first trade (a row of one trade at 50 opens at 100).", "quantifier": "all sorted trades, bar intervals, timeframes and row orders", "why_tests_cant": "Composition of indexer, bar builder, storage and resampling on all inputs.", "anchors": ["finmlkit/bar/io.py:TimeBarReader._resample", "finmlkit/bar/io.py:AddTimeBarH5.process_key", "finmlkit/bar/base.py:comp_bar_ohlcv", "finmlkit/bar/logic.py:_time_bar_indexer"]}
{"id": "C199", "title": "Stored and resampled time bars do not depend on the units", "statement": "With prices in any other positive unit and volumes in any other positive unit the path from trades to resampled bars gives the same rows in exact arithmetic: the same labels and trade counts, prices and VWAPs in the new price unit, volumes and median sizes in the new volume unit, missing values in the same places, and the same exception if there is one. In float32 and float64 the same holds without any difference for units that are powers of two. The row order inside a period must not depend on the units; sorting by size does not. False: in floats it holds for every unit (volumes 0.1 and 0.6, ten times as large).", "quantifier": "all trades, stored bars, timeframes and units", "why_tests_cant": "All units and all roundings of every period.", "anchors": ["finmlkit/bar/io.py:TimeBarReader._resample", "finmlkit/bar/base.py:comp_bar_ohlcv"]}
{"id": "C200", "title": "Stored and resampled time bars do not depend on the clock", "statement": "Stored bars whose labels are whole periods later give the same resampled rows as much later, in exact arithmetic and in floats. So do trades between 2006 and 2043 from the indexer on, for a timeframe that is a multiple of the bar interval (the interval a multiple of 512 ns), including the exception if there is one. The row order inside a period must not depend on the labels; sorting by size does not. False: a shift by whole bars is enough (the same trades a second later fall into other periods).", "quantifier": "all stored bars, trades, timeframes and shifts by whole periods", "why_tests_cant": "All times, and all rows of every period.", "anchors": ["finmlkit/bar/io.py:TimeBarReader._resample", "finmlkit/bar/logic.py:_time_bar_indexer"]}
{"id": "C201", "title": "A range of resampled bars is the range of the bars, resampled", "statement": "Choosing periods before resampling gives the rows chosen after resampling, in exact arithmetic and in floats, whatever the choice and the order of the bars; bars before and after a period boundary can be resampled separately. Reading a range that starts on a period boundary and ends with a date gives exactly the rows of that range among all rows, for timeframes that divide a day (labels in whole microseconds, metadata that bounds the bars); with a timeframe in days those that start a day before the end date or earlier. Without an end, or with an end one nanosecond before a period boundary, it gives the rows from the start on, or before the boundary, for every timeframe. For timeframes not in days reading consecutive ranges of dates is reading them at once. False: the same for daily rows (the day between is in neither range); no row is labelled before the start of the range, for a start inside a period (and the row is not one of those of the whole file).", "quantifier": "all stored bars, timeframes, ranges and row orders", "why_tests_cant": "All ranges of all files.", "anchors": ["finmlkit/bar/io.py:TimeBarReader.read", "finmlkit/bar/io.py:TimeBarReader._resample"]}
