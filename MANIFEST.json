{
 "claims": [
  {
   "property": "C01",
   "status": "proved",
   "theorems": [
    "C01_new_book_is_stable_sort_prefix",
    "C01_stable_sort_unique",
    "C01_negative_depth_panics"
   ],
   "note": "Spec: stable_asks/stable_bids in Spec/OrderBookSpec.v, shown to determine the sort uniquely. SliceStable is modelled by its actual algorithm (Go/Sort.v, see C76)."
  },
  {
   "property": "C02",
   "status": "proved",
   "theorems": [
    "C02_accum_is_running_total",
    "C02_accum_is_sum_exact",
    "C02_accum_nondecreasing"
   ],
   "note": "float64 running totals, exact sums over R, monotone for non-negative volumes (float64, infinities included)."
  },
  {
   "property": "C03",
   "status": "proved",
   "theorems": [
    "C03_history_keeps_sides_sorted",
    "C03_history_keeps_weak_order"
   ],
   "note": "Histories of any length; strict and weak order."
  },
  {
   "property": "C04",
   "status": "proved",
   "theorems": [
    "C04_unreached_depth_irrelevant",
    "C04_huge_depth",
    "C04_history_respects_depth"
   ],
   "note": "sizes_ok bounds slice lengths and MaxDepth by 2^53. C04_unreached_depth_irrelevant and C04_huge_depth remove the bound on MaxDepth: a book with a larger one (MaxInt64, say) gets the rows of the book with depth 2^53 - 1."
  },
  {
   "property": "C05",
   "status": "proved",
   "theorems": [
    "C05_history_never_crosses",
    "C05_strict_refuted"
   ],
   "note": "Weak non-crossing proved for all histories; the strict version is refuted by C05_strict_refuted."
  },
  {
   "property": "C06",
   "status": "proved",
   "theorems": [
    "C06_ask_level_set",
    "C06_bid_level_set",
    "C06_ask_level_deleted",
    "C06_bid_level_deleted",
    "C06_level_set_unique"
   ],
   "note": "Result side = first MaxDepth rows of the unique strictly sorted list with the level set / deleted."
  },
  {
   "property": "C07",
   "status": "proved",
   "theorems": [
    "C07_bids_after_ask_update",
    "C07_asks_after_bid_update",
    "C07_expected_refuted"
   ],
   "note": "Exact characterisation of surviving rows; the expected statement is refuted."
  },
  {
   "property": "C08",
   "status": "proved",
   "theorems": [
    "C08_zero_update_absent_level",
    "C08_zero_update_keeps_other_side"
   ],
   "note": ""
  },
  {
   "property": "C09",
   "status": "proved",
   "theorems": [
    "C09_unknown_side_rejected",
    "C09_known_side_no_error"
   ],
   "note": ""
  },
  {
   "property": "C10",
   "status": "proved",
   "theorems": [
    "C10_any_depth_never_panics",
    "C10_history_never_panics",
    "C10_negative_depth_panics"
   ],
   "note": "Slice lengths (with the number of updates) are below 2^53, far above what memory can hold; the int -> float64 conversions in the code are exact there. C10_any_depth_never_panics covers every MaxDepth >= 0."
  },
  {
   "property": "C11",
   "status": "proved",
   "theorems": [
    "C11_update_idempotent"
   ],
   "note": ""
  },
  {
   "property": "C12",
   "status": "proved",
   "theorems": [
    "C12_accum_stays_correct_refuted",
    "C12_accum_exact_effect"
   ],
   "note": "Refuted as expected by a user; exact effect proved."
  },
  {
   "property": "C13",
   "status": "proved",
   "theorems": [
    "C13_get_depth",
    "C13_nonpositive_price",
    "C13_empty_side_panics",
    "C13_returns_volume_refuted"
   ],
   "note": "Complete case analysis incl. NaN price; the documented result (a volume) is refuted."
  },
  {
   "property": "C14",
   "status": "proved",
   "theorems": [
    "C14_overlap_detected_exactly",
    "C14_overlap_symmetric",
    "C14_overlap_panics_exactly"
   ],
   "note": ""
  },
  {
   "property": "C15",
   "status": "proved",
   "theorems": [
    "C15_overlap_value_exact",
    "C15_whole_side_refuted",
    "C15_overlap_value_complete",
    "C15_overlap_value_other_way",
    "C15_overlap_float_exact"
   ],
   "note": "Exact-arithmetic reading (the same model text over R) for every pair of sorted books; refutation of the plain formula when a whole side overlaps; float64 proved equal to it on whole numbers (totals up to 2^53)."
  },
  {
   "property": "C16",
   "status": "proved",
   "theorems": [
    "C16_update_agrees",
    "C16_history_agrees",
    "C16_two_books_independent",
    "C16_new_book_agrees",
    "C16_caller_slices_rewritten",
    "C16_caller_slice_refuted",
    "C16_copied_book_refuted",
    "C16_overlapping_sides_refuted"
   ],
   "note": "Backing arrays explicit (Go/Heap.v); spare capacity after a reallocation is an arbitrary function. Books with slices of their own agree step by step with the list model, any interleaving of updates on two separate books is independent, unrelated slices are untouched. Value semantics is refuted for the caller's slices, for copies of a book and for asks/bids cut from one array. NewOrderBook theorems need slices of at most 2^53 rows."
  },
  {
   "property": "C17",
   "status": "proved",
   "theorems": [
    "C17_ask_updates_commute",
    "C17_bid_updates_commute"
   ],
   "note": ""
  },
  {
   "property": "C18",
   "status": "proved",
   "theorems": [
    "C18_insert_delete_ask",
    "C18_insert_delete_bid"
   ],
   "note": ""
  },
  {
   "property": "C19",
   "status": "proved",
   "theorems": [
    "C19_groups_partition_and_summarise"
   ],
   "note": "Any time zone (the zone is a function from instants to offsets), any candles; grouped/summary in Spec/CandleSpec.v."
  },
  {
   "property": "C20",
   "status": "proved",
   "theorems": [
    "C20_groups_start_exactly_at_boundaries",
    "C20_grouping_unique"
   ],
   "note": "near_times: times pairwise closer than 2^53 seconds (the code converts the difference to float64). C20_grouping_unique: the spec fixes the grouping."
  },
  {
   "property": "C21",
   "status": "proved",
   "theorems": [
    "C21_short_inputs",
    "C21_decision_table",
    "C21_table_complete",
    "C21_volume_text_always_parses"
   ],
   "note": "Complete decision table; the first time difference is assumed not to overflow int64."
  },
  {
   "property": "C22",
   "status": "proved",
   "theorems": [
    "C22_native_interval_is_identity"
   ],
   "note": "High and Low within +-1e308 (see C29)."
  },
  {
   "property": "C23",
   "status": "proved",
   "theorems": [
    "C23_resampling_composes",
    "C23_volumes_close",
    "C23_volumes_equal_refuted"
   ],
   "note": "Also covers the case where the first resampling leaves one candle. Volume bound: finite volumes, at most 2^40 candles, magnitudes adding up to at most 2^800."
  },
  {
   "property": "C24",
   "status": "proved",
   "theorems": [
    "C24_regular_series_counts"
   ],
   "note": ""
  },
  {
   "property": "C25",
   "status": "proved",
   "theorems": [
    "C25_first_output_is_first_start",
    "C25_first_time_multiple",
    "C25_multiple_above_hour_refuted",
    "C25_zone_dependence"
   ],
   "note": "Full statement refuted above one hour and for zones that are not whole hours; proved for divisors of 60."
  },
  {
   "property": "C26",
   "status": "proved",
   "theorems": [
    "C26_span_refuted",
    "C26_regular_series_span"
   ],
   "note": "Refuted for series with gaps; proved for regular series."
  },
  {
   "property": "C27",
   "status": "proved",
   "theorems": [
    "C27_volume_conserved_exact",
    "C27_float_volume_close",
    "C27_nonnegative_volume"
   ],
   "note": "Exact arithmetic for totals, float64 for each candle; non-negativity in float64."
  },
  {
   "property": "C28",
   "status": "proved",
   "theorems": [
    "C28_completed_candles_never_change"
   ],
   "note": ""
  },
  {
   "property": "C29",
   "status": "proved",
   "theorems": [
    "C29_high_low_are_extremes",
    "C29_sentinel_refuted"
   ],
   "note": "Proved within +-1e308; sentinel leak refutation outside."
  },
  {
   "property": "C30",
   "status": "proved",
   "theorems": [
    "C30_smallest_gap",
    "C30_short_inputs_meaningless"
   ],
   "note": "Fewer than two candles: amd64 float-to-int conversion."
  },
  {
   "property": "C31",
   "status": "proved",
   "theorems": [
    "C31_round_trip",
    "C31_every_float_round_trips"
   ],
   "note": "Every float64 (NaN as the one NaN of the model); strconv shortest formatting and parsing modelled digit for digit in Go/Text.v."
  },
  {
   "property": "C32",
   "status": "proved",
   "theorems": [
    "C32_wide_times_fail",
    "C32_round_trip_refuted"
   ],
   "note": ""
  },
  {
   "property": "C33",
   "status": "proved",
   "theorems": [
    "C33_prefix_loads_prefix",
    "C33_short_read",
    "C33_last_candle_refuted"
   ],
   "note": "Exact shape of every outcome for every byte prefix; that the last candle is right is refuted (its volume may be read from a cut text)."
  },
  {
   "property": "C34",
   "status": "proved",
   "theorems": [
    "C34_write_failures_never_reported",
    "C34_reported_refuted",
    "C34_create_failure_reported"
   ],
   "note": "Refuted as expected by a user: no write failure is ever reported."
  },
  {
   "property": "C35",
   "status": "proved",
   "theorems": [
    "C35_line_reads",
    "C35_line_rejected",
    "C35_line_crashes",
    "C35_every_file",
    "C35_clean_failure_refuted"
   ],
   "note": "Complete classification of every line and every file; clean failure refuted."
  },
  {
   "property": "C36",
   "status": "proved",
   "theorems": [
    "C36_trade_balances",
    "C36_trade_fields"
   ],
   "note": "Balance in exact arithmetic (the same text of the model read over R); the field-by-field result for float64."
  },
  {
   "property": "C37",
   "status": "proved",
   "theorems": [
    "C37_new_position"
   ],
   "note": "Every field, float64."
  },
  {
   "property": "C38",
   "status": "proved",
   "theorems": [
    "C38_weighted_average",
    "C38_quantity_stays_positive",
    "C38_float_average_between_refuted"
   ],
   "note": "Average in exact arithmetic; positivity at float64; betweenness refuted at float64 (rounding)."
  },
  {
   "property": "C39",
   "status": "proved",
   "theorems": [
    "C39_profit_is_net_cash",
    "C39_open_value"
   ],
   "note": "Exact arithmetic, histories of any length including ignored and rejected trades; long and short."
  },
  {
   "property": "C40",
   "status": "proved",
   "theorems": [
    "C40_overclose_no_effect",
    "C40_overclose_no_effect_exact",
    "C40_error_iff_other_pair",
    "C40_overclose_reported_refuted"
   ],
   "note": "No effect proved (float64 and exact); 'Modify reports it' refuted; Modify errs iff the pairs differ."
  },
  {
   "property": "C41",
   "status": "proved",
   "theorems": [
    "C41_other_pair_refused",
    "C41_any_field_differs"
   ],
   "note": "All six strings."
  },
  {
   "property": "C42",
   "status": "proved",
   "theorems": [
    "C42_closed_is_permanent",
    "C42_closed_is_final_refuted",
    "C42_closed_quantity_refuted"
   ],
   "note": "Permanence proved for every history; finality refuted (profit, close price, close time, trades, quantity, open price)."
  },
  {
   "property": "C43",
   "status": "proved",
   "theorems": [
    "C43_trades_recorded",
    "C43_recorded_unique"
   ],
   "note": "float64; ledger in Spec/EntitySpec.v tracks only the size and determines the recorded trades uniquely."
  },
  {
   "property": "C44",
   "status": "proved",
   "theorems": [
    "C44_open_quantity_positive",
    "C44_infinite_quantity_refuted"
   ],
   "note": "float64, positive finite quantities; refuted for infinite ones."
  },
  {
   "property": "C45",
   "status": "proved",
   "theorems": [
    "C45_zero_at_open_price",
    "C45_long_short_opposite",
    "C45_monotone",
    "C45_exact_value",
    "C45_realised_equals_unrealised"
   ],
   "note": "float64; finiteness of the operands and of the price difference assumed where stated; realised = unrealised is unconditional."
  },
  {
   "property": "C46",
   "status": "proved",
   "theorems": [
    "C46_new_order_request",
    "C46_order_types"
   ],
   "note": "Both directions, float64."
  },
  {
   "property": "C47",
   "status": "proved",
   "theorems": [
    "C47_calculate_fields",
    "C47_exact_identity",
    "C47_finite_refuted",
    "C47_market_only",
    "C47_close_position_refuted"
   ],
   "note": "Decision table for float64; identity in exact arithmetic; finiteness refuted. The model returns a new value, as Go copies *o first: the receiver is not written."
  },
  {
   "property": "C48",
   "status": "proved",
   "theorems": [
    "C48_refuses_completed",
    "C48_float_refuted"
   ],
   "note": "Exact arithmetic; refuted for float64 (underflow)."
  },
  {
   "property": "C49",
   "status": "proved",
   "theorems": [
    "C49_update_same_type",
    "C49_update_other_type",
    "C49_update_nil_panics",
    "C49_is_open"
   ],
   "note": "Dynamic types other than the four record pointers are one constructor (DOther): the code does not distinguish them."
  },
  {
   "property": "C50",
   "status": "proved",
   "theorems": [
    "C50_new_asset",
    "C50_table_constructors",
    "C50_tables_disjoint",
    "C50_tables_functional"
   ],
   "note": "All strings; tables transcribed from the switch statements."
  },
  {
   "property": "C51",
   "status": "proved",
   "theorems": [
    "C51_keys_spell_pairs",
    "C51_every_key_refuted",
    "C51_keys_distinct",
    "C51_base_differs_from_quote",
    "C51_pairs_distinct",
    "C51_wrong_entry"
   ],
   "note": "All 1951 entries, transcribed by script; the one wrong entry identified exactly."
  },
  {
   "property": "C52",
   "status": "proved",
   "theorems": [
    "C52_symbol_injective",
    "C52_empty_separator_refuted",
    "C52_occurring_separator_refuted"
   ],
   "note": "All strings; both hypotheses shown necessary."
  },
  {
   "property": "C53",
   "status": "proved",
   "theorems": [
    "C53_windowed_sums",
    "C53_exact_mean",
    "C53_bad_input",
    "C53_total",
    "C53_float_mean_in_range_refuted"
   ],
   "note": "float64 result for every slice and period; mean and bounds in exact arithmetic; the bounds are refuted for float64 (three closes 0.1)."
  },
  {
   "property": "C54",
   "status": "proved",
   "theorems": [
    "C54_recurrence",
    "C54_length",
    "C54_exact_range",
    "C54_candle_ignored",
    "C54_every_later_candle_counts_refuted",
    "C54_empty_for_exact_window",
    "C54_bad_input"
   ],
   "note": "float64 recurrence; range in exact arithmetic; the expectation that every later candle counts is refuted (index period is ignored for every input)."
  },
  {
   "property": "C55",
   "status": "proved",
   "theorems": [
    "C55_recurrence",
    "C55_exact",
    "C55_no_inner_error",
    "C55_bad_input"
   ],
   "note": "float64 recurrence; exact-arithmetic recurrence and range; the closingSum error never surfaces."
  },
  {
   "property": "C56",
   "status": "proved",
   "theorems": [
    "C56_no_look_ahead"
   ],
   "note": "bit for bit in float64, all three averages, every extension."
  },
  {
   "property": "C57",
   "status": "proved",
   "theorems": [
    "C57_closed_form",
    "C57_exact_range",
    "C57_float_nonnegative"
   ],
   "note": "closed form and range in exact arithmetic; float64 result non-negative and not NaN for finite ranges and 0 <= beta <= 1."
  },
  {
   "property": "C58",
   "status": "proved",
   "theorems": [
    "C58_values_in_range",
    "C58_extremes"
   ],
   "note": "float64/float32; NaN exactly for flat windows when closes are at most 2^1000 and windows at most 2^20 candles, 100 for only rises, 0 for only falls."
  },
  {
   "property": "C59",
   "status": "proved",
   "theorems": [
    "C59_complete",
    "C59_bound_irrelevant",
    "C59_panics_without_spare_capacity",
    "C59_returns_refuted"
   ],
   "note": "Complete classification of every input; the expected 'returns for 1 <= period <= len' is refuted: it panics for every slice without spare capacity."
  },
  {
   "property": "C60",
   "status": "proved",
   "theorems": [
    "C60_earlier_entries",
    "C60_no_look_ahead_refuted"
   ],
   "note": "Refuted: the last value is computed from the first candle behind the end of the slice; all earlier values depend on the visible candles only."
  },
  {
   "property": "C61",
   "status": "proved",
   "theorems": [
    "C61_exactly_the_patterns",
    "C61_reported_iff",
    "C61_two_lower_on_the_right_refuted",
    "C61_nan_refuted"
   ],
   "note": "Exact set of reports for every NaN-free series; the documented two lower candles on the right are refuted, and a NaN candle is reported."
  },
  {
   "property": "C62",
   "status": "proved",
   "theorems": [
    "C62_input_order",
    "C62_sorted_by_time",
    "C62_short_series"
   ],
   "note": "Every series, NaN included; total (no panic)."
  },
  {
   "property": "C63",
   "status": "proved",
   "theorems": [
    "C63_confirmed_never_repaint",
    "C63_no_late_reports",
    "C63_unconfirmed_repaint_refuted"
   ],
   "note": "Confirmed fractals persist under every extension; no late reports; unconfirmed ones can disappear (refutation)."
  },
  {
   "property": "C64",
   "status": "proved",
   "theorems": [
    "C64_create_orders",
    "C64_update_orders",
    "C64_cancel_orders",
    "C64_update_positions",
    "C64_close_positions",
    "C64_annotations",
    "C64_nothing_overwritten",
    "C64_colliding_ids_refuted"
   ],
   "note": "Exact resulting maps for every state, argument list and id stream with fresh ids, for each of the five methods and annotations; nothing overwritten; colliding ids do overwrite (refutation of the unconditional claim)."
  },
  {
   "property": "C65",
   "status": "proved",
   "theorems": [
    "C65_same_instant",
    "C65_unknown_location",
    "C65_nil_candle_panics"
   ],
   "note": "Instants are modelled as Unix seconds plus a zone, so the claim is close to the definition; the time package itself is trusted. Unknown location gives the error, nil candle panics."
  },
  {
   "property": "C66",
   "status": "proved",
   "theorems": [
    "C66_accepts_exactly",
    "C66_rejected",
    "C66_epoch",
    "C66_next_day",
    "C66_order"
   ],
   "note": "Accepted strings are exactly the texts of valid calendar dates (Spec/DateSpec.v); epoch and next-day laws fix the returned instant for every date; textual order = order of instants. The RFC3339 layout parser of package time is modelled (Model/Date.v)."
  },
  {
   "property": "C67",
   "status": "proved",
   "theorems": [
    "C67_position_prints_iff",
    "C67_balance_prints_iff",
    "C67_real_positions_print",
    "C67_zero_position_panics_refuted",
    "C67_nil_asset_panics_refuted",
    "C67_nil_asset_in_snapshot",
    "C67_print_total"
   ],
   "note": "Exact conditions for the two methods that can panic, with refutations of the unconditional claim; positions created by NewPosition print throughout every history. All other String methods are modelled as total functions (nil receivers excluded). fmt itself is modelled for the verbs used; the text of time.Time is an arbitrary parameter."
  },
  {
   "property": "C68",
   "status": "proved",
   "theorems": [
    "C68_separate_positions_independent",
    "C68_full_update_independent",
    "C68_new_position_full",
    "C68_spare_capacity_overwrites",
    "C68_update_refuted"
   ],
   "note": "Trades with explicit backing array. Independence proved when the slices share no memory or have no spare capacity (always so right after NewPosition); with spare capacity it is false in general: theorem C68_spare_capacity_overwrites gives the exact effect and C68_update_refuted a concrete history."
  },
  {
   "property": "C69",
   "status": "proved",
   "theorems": [
    "C69_number_records",
    "C69_close_order",
    "C69_annotation",
    "C69_candle",
    "C69_trade",
    "C69_order_without_pair",
    "C69_order_broken",
    "C69_order_request_broken",
    "C69_position_broken",
    "C69_balance_broken",
    "C69_one_line_refuted"
   ],
   "note": "Exact line counts for every record type under newline-free fields; refutation for orders. Times are assumed to print without newline (explicit hypothesis)."
  },
  {
   "property": "C70",
   "status": "proved",
   "theorems": [
    "C70_book_text_determines_book",
    "C70_print"
   ],
   "note": "Full injectivity of the text over all float64 values, from the exact round trip of %v; Print output given line by line."
  },
  {
   "property": "C71",
   "status": "proved",
   "theorems": [
    "C71_balance_snapshot",
    "C71_ticker",
    "C71_row",
    "C71_close_order",
    "C71_order_request",
    "C71_annotation",
    "C71_candle",
    "C71_trade",
    "C71_order",
    "C71_fractal",
    "C71_position",
    "C71_balance",
    "C71_assets_snapshot",
    "C71_annotations",
    "C71_text_determined",
    "C71_every_value_has_text"
   ],
   "note": "One theorem per String method; decimals stated through an independent reading of digit strings as reals (Spec/PrintSpec.v)."
  },
  {
   "property": "C72",
   "status": "proved",
   "theorems": [
    "C72_every_row_is_last_update_or_initial",
    "C72_book_is_exactly_the_last_updates",
    "C72_inserts_show_the_best_levels",
    "C72_complete_without_room_refuted"
   ],
   "note": "The justified predicate (Spec/HistorySpec.v) reads the history only, not the model. The converse carries the explicit room condition; the unconditional one is refuted."
  },
  {
   "property": "C73",
   "status": "proved",
   "theorems": [
    "C73_only_last_updates_matter",
    "C73_order_of_distinct_updates_is_irrelevant",
    "C73_snapshot_equals_its_updates",
    "C73_same_accumulated_volume_refuted"
   ],
   "note": "Sides apart: no level set on one side reaches a level of the other side; otherwise the result does depend on the order (crossing levels are removed)."
  },
  {
   "property": "C74",
   "status": "proved",
   "theorems": [
    "C74_moving_average_accuracy",
    "C74_exponential_accuracy",
    "C74_smoothed_accuracy",
    "C74_volatility_accuracy",
    "C74_relative_to_result_refuted"
   ],
   "note": "Both sides are the same model text, read over float64 and over R (Go/Num.v); the inputs of the exact run are the exact values of the machine inputs. Rounding errors are proved from the IEEE definition (Go/FloatError.v), not assumed. Evaluation with fused multiply-adds, which Go may use on some architectures: C97."
  },
  {
   "property": "C75",
   "status": "proved",
   "theorems": [
    "C75_accumulated_volume_accuracy",
    "C75_integer_volumes_exact",
    "C75_merged_volume_accuracy",
    "C75_exact_for_all_volumes_refuted"
   ],
   "note": "Sums up to 2^900 and at most 2^40 terms. The exact sums are written in Spec/AccuracySpec.v, independent of the model."
  },
  {
   "property": "C76",
   "status": "proved",
   "theorems": [
    "C76_stays_in_bounds",
    "C76_sorts_stably",
    "C76_unique",
    "C76_any_rows",
    "C76_sorted_despite_nan_refuted"
   ],
   "note": "The model (Go/Sort.v) is the Go library's algorithm (src/sort/zfuncversion.go: insertionSort_func, symMerge_func, rotate_func, stable_func) on lists with explicit indexes; an index out of range is None, and the theorem shows it is never reached. The Go library source is not part of /repo; it is modelled from the published Go source."
  },
  {
   "property": "C77",
   "status": "proved",
   "theorems": [
    "C77_mirror_update",
    "C77_mirror_history",
    "C77_mirror_new",
    "C77_mirror_involutive"
   ],
   "note": "Proved by relational parametricity of the model in the price type (Proofs/Symmetry.v)."
  },
  {
   "property": "C78",
   "status": "proved",
   "theorems": [
    "C78_relabel_update",
    "C78_relabel_history",
    "C78_relabel_new",
    "C78_relabel_depth",
    "C78_exact_history"
   ],
   "note": "Accumulated volumes in NewOrderBook do round; C78_exact_history is therefore about ApplyUpdate, which never adds volumes."
  },
  {
   "property": "C79",
   "status": "proved",
   "theorems": [
    "C79_only_order_matters",
    "C79_upside_down"
   ],
   "note": ""
  },
  {
   "property": "C80",
   "status": "proved",
   "theorems": [
    "C80_window_accuracy",
    "C80_rsi_accuracy",
    "C80_upside_down"
   ],
   "note": "Windows without any move give NaN (C58) and are excluded by the hypothesis `moving`."
  },
  {
   "property": "C81",
   "status": "proved",
   "theorems": [
    "C81_moving_average",
    "C81_exponential",
    "C81_smoothed",
    "C81_volatility",
    "C81_single_step_refuted"
   ],
   "note": "Proved in float64 with no size hypothesis: each operation rounds monotonically and a finite result comes from finite operands. The smoothed average needs the lemma that n*rnd(s/n) - rnd(s/n), rounded, is monotone in the machine number s (Proofs/SmoothedMonotone.v)."
  },
  {
   "property": "C82",
   "status": "proved",
   "theorems": [
    "C82_position",
    "C82_profit",
    "C82_close",
    "C82_fee",
    "C82_request"
   ],
   "note": "Proved in float64. All quantities are positive, so k roundings are a factor in [(1+u)^-k, (1+u)^k]; every addition costs 2k+4 more for the price. Histories with partial reductions: C96."
  },
  {
   "property": "C83",
   "status": "proved",
   "theorems": [
    "C83_asset_survives",
    "C83_pair_survives",
    "C83_candle_survives",
    "C83_row_survives",
    "C83_update_survives",
    "C83_book_survives",
    "C83_ticker_survives",
    "C83_trade_survives",
    "C83_order_survives",
    "C83_position_survives",
    "C83_request_survives",
    "C83_balance_snapshot_survives",
    "C83_balance_survives",
    "C83_assets_snapshot_survives",
    "C83_annotation_survives",
    "C83_create_order_survives",
    "C83_update_order_survives",
    "C83_cancel_order_survives",
    "C83_update_position_survives",
    "C83_close_position_survives",
    "C83_fractal_survives",
    "C83_actions_survive",
    "C83_tick_survives",
    "C83_candle_text",
    "C83_member_names"
   ],
   "note": "Model of encoding/json for the types used (Go/Json.v): escaping, number format (shortest decimal, exponent form), RFC 3339 times, scanner, decoder with case-insensitive member names. One theorem for all types (marshal_unmarshal) by induction over the Go type, instances per struct. Maps of Actions and Tick are lists of entries in key order. The decoder's limit of 10000 nesting levels is part of the model (values of these types never reach it). BSON tags and the texts of errors are not modelled."
  },
  {
   "property": "C84",
   "status": "proved",
   "theorems": [
    "C84_candle_refused",
    "C84_ticker_refused",
    "C84_book_refused",
    "C84_trade_refused",
    "C84_order_refused",
    "C84_position_refused",
    "C84_asset_survives_iff",
    "C84_any_value",
    "C84_injective_refuted"
   ],
   "note": "Proved from the model of encoding/json; the refusal theorem (marshal_none) is by induction over the Go type. Instants earlier than 2^62 seconds before 1970 are excluded (the calendar computation of package time wraps there)."
  },
  {
   "property": "C85",
   "status": "proved",
   "theorems": [
    "C85_order_key",
    "C85_trade_key",
    "C85_position_key",
    "C85_annotation_key",
    "C85_tables_distinct",
    "C85_new_annotation"
   ],
   "note": "Struct instance of one lemma about the first member of a struct's text (Proofs/Stored.v)."
  },
  {
   "property": "C86",
   "status": "proved",
   "theorems": [
    "C86_moved_in_time",
    "C86_moved_by_whole_hours",
    "C86_upside_down",
    "C86_other_unit",
    "C86_moved_by_minutes_refuted"
   ],
   "note": "One lemma for any change of candles that commutes with the four steps of the loop (Proofs/CandleSymmetry.v)."
  },
  {
   "property": "C87",
   "status": "proved",
   "theorems": [
    "C87_batches",
    "C87_batches_within_the_hour",
    "C87_batches_anywhere_refuted"
   ],
   "note": "The state of the loop after the first batch is the state at the start of the second (Proofs/CandleSymmetry.v)."
  },
  {
   "property": "C88",
   "status": "proved",
   "theorems": [
    "C88_appended",
    "C88_saved_again",
    "C88_line_endings",
    "C88_no_collision"
   ],
   "note": "Lines of concatenated texts, the accumulator of the scan loop, injectivity of a printed line (Proofs/FileParts.v)."
  },
  {
   "property": "C89",
   "status": "proved",
   "theorems": [
    "C89_moving_average",
    "C89_exponential",
    "C89_smoothed",
    "C89_volatility",
    "C89_rsi",
    "C89_tenths_refuted",
    "C89_tiny_closes_refuted"
   ],
   "note": "Rounding commutes with 2^k away from the subnormal numbers, and for sums everywhere (Go/FloatScale.v); two runs related value by value (Proofs/Scaling.v)."
  },
  {
   "property": "C90",
   "status": "proved",
   "theorems": [
    "C90_opened",
    "C90_modify",
    "C90_history",
    "C90_unrealized",
    "C90_fee",
    "C90_exact_negation_refuted"
   ],
   "note": "float64 subtraction is antisymmetric up to the sign of zero and multiplication preserves that (Proofs/Mirror.v); induction on the history."
  },
  {
   "property": "C91",
   "status": "proved",
   "theorems": [
    "C91_read",
    "C91_too_large",
    "C91_closest",
    "C91_error",
    "C91_in_range",
    "C91_same_number",
    "C91_order",
    "C91_integer",
    "C91_file",
    "C91_any_length_refuted"
   ],
   "note": "Decimal notation is defined by a grammar with its exact real value (Spec/DecimalSpec.v); the scanner model is proved to extract that value and Flocq's correctly rounded division gives the float (Proofs/Decimal.v). The library's cut-off of exponents at 10000 is part of the model."
  },
  {
   "property": "C92",
   "status": "proved",
   "theorems": [
    "C92_text",
    "C92_layout",
    "C92_read",
    "C92_one_value",
    "C92_member_order",
    "C92_repo_types",
    "C92_calendar",
    "C92_time",
    "C92_complete_refuted",
    "C92_duplicates_refuted"
   ],
   "note": "Grammar and denotation are separate inductive definitions (Spec/JsonReadSpec.v), with days counted by next-day steps and floats by nearest real; the parser and decoder of Go/Json.v are proved to follow them (Proofs/JsonRead.v, JsonGrammar.v, JsonMoment.v, JsonDenote.v). Member names are ASCII; numerals have under 9000 bytes."
  },
  {
   "property": "C93",
   "status": "proved",
   "theorems": [
    "C93_accepts",
    "C93_one_tree",
    "C93_malformed",
    "C93_well_formed",
    "C93_time",
    "C93_strict_time",
    "C93_refused",
    "C93_too_deep",
    "C93_apart"
   ],
   "note": "The parser of Go/Json.v is inverted step by step (Proofs/JsonStrict.v): scanners give back a prefix in the grammar, times the shape of [loose_moment]. Go 1.20 and later refuse the loose time variants too; the refusals proved hold for both. Numerals have under 9000 bytes in the range clause."
  },
  {
   "property": "C94",
   "status": "proved",
   "theorems": [
    "C94_redelivery_is_harmless",
    "C94_old_updates_change_nothing",
    "C94_book_is_exactly_the_last_updates",
    "C94_only_last_updates_matter",
    "C94_without_room_refuted",
    "C94_across_a_crossing_refuted",
    "C94_stale_update_refuted"
   ],
   "note": "Room is stated by two lists of at most MaxDepth prices covering all initial and set levels; sorted sides have no more rows than such a list by counting keys. The run then never truncates and is determined by the last update of each price, which rewinding does not change."
  },
  {
   "property": "C95",
   "status": "proved",
   "theorems": [
    "C95_alone_as_called",
    "C95_locked_runs_are_sequential",
    "C95_locked_runs_end_sequentially",
    "C95_locked_runs_never_stuck",
    "C95_locked_updates_never_panic",
    "C95_own_levels_any_schedule",
    "C95_readers_need_no_lock",
    "C95_unlocked_update_lost_refuted",
    "C95_unlocked_unsorted_refuted",
    "C95_unlocked_price_twice_refuted",
    "C95_unlocked_deleted_level_returns_refuted",
    "C95_unlocked_update_panics_refuted",
    "C95_unlocked_reader_panics_refuted",
    "C95_shared_level_any_schedule_refuted"
   ],
   "note": "Each call is a program of single memory accesses (Model/Concurrent.v); run alone it is proved equal to the heap model of C16 and so to the call. With the lock an invariant over all schedules keeps: the calls returned are sequential, the owner's remaining program run alone from the present memory is what its call does from the book before it. Readers: their programs only contain reads. Memory is sequentially consistent with whole slice headers and rows as units: enough for locked (race-free) programs by the Go memory model, and a subset of the behaviours of racy ones, so the refutations stand."
  },
  {
   "property": "C96",
   "status": "proved",
   "theorems": [
    "C96_open_position",
    "C96_profit",
    "C96_net_cash",
    "C96_whole_quantities",
    "C96_dust_refuted",
    "C96_early_close_refuted"
   ],
   "note": "Which trades are recorded is the independent relation of C43 (recorded); the exact books held, received, gain_at are sums over reals in Spec/LedgerSpec.v. The error bound is carried by an invariant on quantity and on price times quantity (Proofs/Ledger.v), because the relative error of the open price alone is unbounded after cancellation. C82 keeps the sharper relative bounds for histories without partial closes."
  },
  {
   "property": "C97",
   "status": "proved",
   "theorems": [
    "C97_one_rounding",
    "C97_apart",
    "C97_same_endings",
    "C97_exponential_accuracy",
    "C97_smoothed_accuracy",
    "C97_volatility_accuracy",
    "C97_exponential_monotone",
    "C97_smoothed_monotone",
    "C97_volatility_monotone",
    "C97_overlap_exact",
    "C97_fee",
    "C97_position_same",
    "C97_open_position",
    "C97_profit",
    "C97_zero_fee_refuted",
    "C97_same_average_refuted",
    "C97_same_open_price_refuted"
   ],
   "note": "Model/Fused.v repeats the six functions with the fusable expressions replaced by a choice per evaluation (Flocq's Bfma); C97_apart ties them to the originals. Which expressions a compiler may fuse is read off the Go specification: a product that is an operand of + or -, not one that is assigned or converted first."
  },
  {
   "property": "C98",
   "status": "proved",
   "theorems": [
    "C98_overlap_accuracy",
    "C98_fused_accuracy",
    "C98_overlap_value",
    "C98_exact_refuted"
   ],
   "note": "The float64 run is shown to sell some amount x that is within 6n*2^-53*V of the exact amount (or everything there is), and the proceeds are P-Lipschitz in the amount (Proofs/OverlapError.v); so no agreement of branches is needed. C15 keeps exactness for whole numbers."
  },
  {
   "property": "C99",
   "status": "proved",
   "theorems": [
    "C99_exponential_weights",
    "C99_smoothed_weights",
    "C99_weights_sum",
    "C99_superposition",
    "C99_volatility_superposition",
    "C99_exponential_forgets",
    "C99_smoothed_forgets",
    "C99_volatility_forgets",
    "C99_never_further",
    "C99_moving_average_forgets",
    "C99_exponential_forgets_float",
    "C99_smoothed_forgets_float",
    "C99_volatility_forgets_float"
   ],
   "note": "The model over R is shown to be the recurrence x' = k*x + (1-k)*c (Proofs/Forget.v); the float64 form combines the exact one with the error bounds of C74."
  },
  {
   "property": "C100",
   "status": "proved",
   "theorems": [
    "C100_book_run_same",
    "C100_book_always_storable",
    "C100_position_run_same"
   ],
   "note": "Runs with restarts are the inductive relations book_run and position_run of Spec/PersistSpec.v; the proof combines C83, C84 and the fact that ApplyUpdate only copies rows or adds one with AccumVolume 0."
  },
  {
   "property": "C101",
   "status": "proved",
   "theorems": [
    "C101_fresh",
    "C101_read_over",
    "C101_stored_over",
    "C101_without_maps",
    "C101_asset_replaced",
    "C101_pair_replaced",
    "C101_candle_replaced",
    "C101_row_replaced",
    "C101_update_replaced",
    "C101_book_replaced",
    "C101_ticker_replaced",
    "C101_trade_replaced",
    "C101_order_replaced",
    "C101_position_replaced",
    "C101_request_replaced",
    "C101_balance_snapshot_replaced",
    "C101_balance_replaced",
    "C101_assets_snapshot_replaced",
    "C101_annotation_replaced",
    "C101_create_order_replaced",
    "C101_update_order_replaced",
    "C101_cancel_order_replaced",
    "C101_update_position_replaced",
    "C101_close_position_replaced",
    "C101_fractal_replaced",
    "C101_tick_replaced_refuted",
    "C101_left_out_is_zero_refuted",
    "C101_in_parts",
    "C101_map_entry",
    "C101_zero_time"
   ],
   "note": "The meaning over an old value is the relation denotes_over of Spec/IntoSpec.v; the decoder of Go/Json.v is proved to follow it (Proofs/IntoRead.v). Sharing of the overwritten memory is C123; the value model forgets rows beyond the length of a slice that a text has shortened (see C123_left_out_is_zero_refuted). Two _refuted theorems show what does not hold."
  },
  {
   "property": "C102",
   "status": "proved",
   "theorems": [
    "C102_asks_missing_exactly",
    "C102_bids_missing_exactly",
    "C102_asks_complete_up_to",
    "C102_bids_complete_up_to",
    "C102_best_rows",
    "C102_deeper_shows_more",
    "C102_one_row_more_refuted",
    "C102_deeper_when_crossing_refuted"
   ],
   "note": "ask_lost/bid_lost, asks_reach/bids_reach and deletions (Spec/HorizonSpec.v) are stated with the states of the book itself, as a caller can observe them; justified is that of C72. C102_one_row_more_refuted shows the count is sharp, C102_deeper_when_crossing_refuted that the sides must stay apart."
  },
  {
   "property": "C103",
   "status": "proved",
   "theorems": [
    "C103_last_close",
    "C103_first_close",
    "C103_one_close_raised",
    "C103_inner_close_refuted"
   ],
   "note": "raised_at, not_above32 and finite_closes are in Spec/RsiMonotoneSpec.v. The series is the slice with its spare capacity, because the last value reads one candle beyond the slice (C60). C103_last_close and C103_first_close state the same for a single window."
  },
  {
   "property": "C104",
   "status": "proved",
   "theorems": [
    "C104_update",
    "C104_history",
    "C104_get_depth",
    "C104_overlap",
    "C104_new_book",
    "C104_rebuild",
    "C104_rebuild_after_history",
    "C104_rebuild_again"
   ],
   "note": "same_levels, alike and true_totals are in Spec/RebuildSpec.v. C104_update and C104_history have no hypothesis on the books beyond same_levels; C104_rebuild_after_history is the repair after any history. String, Print and the JSON form do show AccumVolume and are not part of the claim."
  },
  {
   "property": "C105",
   "status": "proved",
   "theorems": [
    "C105_answer_is_a_level",
    "C105_levels_are_fixed",
    "C105_idempotent",
    "C105_monotone",
    "C105_toward_the_spread",
    "C105_no_answer_in_the_spread",
    "C105_crossed_refuted"
   ],
   "note": "answered, two_sided and positive_prices are in Spec/LevelSpec.v. The answers are compared as values; idempotence is equality of the floats. C105_idempotent asks for positive prices because GetDepth refuses a price that is not positive, also one it has answered itself."
  },
  {
   "property": "C106",
   "status": "proved",
   "theorems": [
    "C106_moving_average",
    "C106_rsi",
    "C106_fractals",
    "C106_moving_average_batches",
    "C106_rsi_batches",
    "C106_exponential_refuted",
    "C106_smoothed_refuted",
    "C106_volatility_continues"
   ],
   "note": "The complement of C56/C60/C63 (no look-ahead). The RSI theorems carry the spare capacity because RSI reads one candle beyond the slice (C59, C60): the first batch needs the next candle behind its end. C106_fractals needs no hypothesis on the prices. How fast the recursive averages forget is C99."
  },
  {
   "property": "C107",
   "status": "proved",
   "theorems": [
    "C107_closed_form",
    "C107_any_order",
    "C107_increases_in_any_order",
    "C107_increases_first",
    "C107_parts",
    "C107_closing_in_parts",
    "C107_trade_list_unread",
    "C107_trade_list_unread_errors",
    "C107_float_order_refuted"
   ],
   "note": "stays_open, net_quantity, net_value, with_trades, same_but_trades and parts_of are in Spec/TradeOrderSpec.v. Exact arithmetic is the model over R; how far float64 departs from the exact sums is C96. After closing in parts Quantity and OpenPrice are those of the last part, so only Open, Profit and ClosePrice are compared."
  },
  {
   "property": "C108",
   "status": "proved",
   "theorems": [
    "C108_modify_interval",
    "C108_prices_ignore_volumes",
    "C108_min_interval",
    "C108_moving_average",
    "C108_exponential",
    "C108_smoothed",
    "C108_rsi",
    "C108_volatility",
    "C108_fractals",
    "C108_rsi_spare_capacity_refuted"
   ],
   "note": "agree, same_visible, same_slice, high_low and time_high_low are in Spec/FieldsSpec.v; alike (same panic or related results) is in Spec/RebuildSpec.v."
  },
  {
   "property": "C109",
   "status": "proved",
   "theorems": [
    "C109_new_order_book",
    "C109_apply_update",
    "C109_get_depth",
    "C109_calculate_overlap",
    "C109_session",
    "C109_modify_interval",
    "C109_modify_interval_short",
    "C109_load",
    "C109_load_missing",
    "C109_averages_never",
    "C109_rsi",
    "C109_rsi_nil",
    "C109_fractals_never",
    "C109_position_string",
    "C109_balance_string",
    "C109_print_never",
    "C109_update",
    "C109_tick"
   ],
   "note": "panics and listed are in Spec/PanicSpec.v. The functions not listed return plain values in the model: none of their operations can panic (no indexing, slicing, integer division or dereference). Out-of-memory and stack overflow are not modelled."
  },
  {
   "property": "C110",
   "status": "proved",
   "theorems": [
    "C110_not_nil",
    "C110_not_nil_more",
    "C110_nil_book",
    "C110_nil_trade",
    "C110_nil_receiver",
    "C110_nil_actions",
    "C110_nil_tick",
    "C110_save_nil",
    "C110_save",
    "C110_save_keeps_old_refuted"
   ],
   "note": "Model/Pointers.v adds the pointer as an option to the methods of the other model files. The String methods, whose first step reads a field, are not repeated there."
  },
  {
   "property": "C111",
   "status": "proved",
   "theorems": [
    "C111_one_case",
    "C111_idle",
    "C111_grows",
    "C111_shrinks",
    "C111_closes",
    "C111_identity",
    "C111_last_close",
    "C111_open_position",
    "C111_reads"
   ],
   "note": "All fifteen fields in each case, at float64 level."
  },
  {
   "property": "C112",
   "status": "proved",
   "theorems": [
    "C112_v",
    "C112_json",
    "C112_digits",
    "C112_one_decimal",
    "C112_one_text",
    "C112_special"
   ],
   "note": "Texts characterised by an equivalence with a specification on real numbers; the digit search of the model (an accurate digit generator, not Ryu's algorithm) is proved to find the shortest decimal."
  },
  {
   "property": "C113",
   "status": "proved",
   "theorems": [
    "C113_net_over_distance",
    "C113_side_of_fifty",
    "C113_unit_and_zero",
    "C113_backwards",
    "C113_turning_points",
    "C113_joined",
    "C113_rsi"
   ],
   "note": "travelled, net_move, net_index and between are in Spec/RsiShapeSpec.v; rsi_error is that of C80."
  },
  {
   "property": "C114",
   "status": "proved",
   "theorems": [
    "C114_ask",
    "C114_bid",
    "C114_zero",
    "C114_repeated_asks",
    "C114_repeated_bids",
    "C114_asks_beside_nan",
    "C114_bids_beside_nan",
    "C114_uncrossed_refuted",
    "C114_totals"
   ],
   "note": "Uncrossedness after every update for real prices is C05; here the exact effect of the exceptional value. The clause on NaN rows and real updates is for a side below its depth; at full depth the worst rows are cut off as for real rows."
  },
  {
   "property": "C115",
   "status": "proved",
   "theorems": [
    "C115_accepts",
    "C115_value",
    "C115_too_large",
    "C115_decimal",
    "C115_apart",
    "C115_exact",
    "C115_whole",
    "C115_line_reads",
    "C115_line_bad",
    "C115_line_short",
    "C115_file"
   ],
   "note": "The notation is a grammar with exact real values (Spec/NumberSpec.v), independent of the scanner; C35 classifies lines in terms of the library functions, C91 gives values of plain decimals, this property replaces both library functions by their meaning. The bounds on the length are needed because the library stops accumulating exponents at 10000 (see C91_any_length_refuted)."
  },
  {
   "property": "C116",
   "status": "proved",
   "theorems": [
    "C116_only_saved",
    "C116_all_or_nothing",
    "C116_one_torn_write",
    "C116_loss_reported_refuted",
    "C116_short_read",
    "C116_not_opened",
    "C116_other_files"
   ],
   "note": "A write is all bytes or a prefix of them, and the results of Fprintln are dropped as in the code. The proof shows that a number never contains a brace, so a line joined from two always has an unreadable word among its first six (except when the brace is its last byte, the one case of a wrong candle besides the cut at the end of the file of C33)."
  },
  {
   "property": "C117",
   "status": "proved",
   "theorems": [
    "C117_separate",
    "C117_alone",
    "C117_copied",
    "C117_annotations_overwritten",
    "C117_snapshot_refuted"
   ],
   "note": "Maps as references and annotation arrays explicit (Model/ActionsHeap.v). C117_copied describes all five collections for every interleaving; C117_alone shows that one Actions on its own behaves as the plain value of C64."
  },
  {
   "property": "C118",
   "status": "proved",
   "theorems": [
    "C118_agrees",
    "C118_result_is_own",
    "C118_single",
    "C118_result_is_own_refuted"
   ],
   "note": "ModifyInterval modelled a second time over Go/Heap.v (Model/CandleHeap.v) and proved equal in result to the list model of C19-C29."
  },
  {
   "property": "C119",
   "status": "proved",
   "theorems": [
    "C119_best_matching",
    "C119_best_unique",
    "C119_found",
    "C119_value_is_a_deal",
    "C119_within_best",
    "C119_one_bid",
    "C119_is_best_refuted"
   ],
   "note": "Linear-programming style bound: for every price q the gain of any deal is at most what asks below q and bids above q offer relative to q."
  },
  {
   "property": "C120",
   "status": "proved",
   "theorems": [
    "C120_reported_iff",
    "C120_coarse_is_fine",
    "C120_within_interval",
    "C120_extreme",
    "C120_extreme_kept",
    "C120_fine_is_coarse_refuted"
   ],
   "note": "Composes C19 (groups and summaries) with C61 (exact set of reports); equality of prices is ==, so +0 and -0 are one price."
  },
  {
   "property": "C121",
   "status": "proved",
   "theorems": [
    "C121_last_candles",
    "C121_volatility",
    "C121_thinned",
    "C121_rsi"
   ],
   "note": "Composes C19, C81, C108 and C113; thinned is in Spec/ThinSpec.v."
  },
  {
   "property": "C122",
   "status": "proved",
   "theorems": [
    "C122_ids",
    "C122_alone_as_called",
    "C122_alone_as_called_notes",
    "C122_locked",
    "C122_never_stuck",
    "C122_existing",
    "C122_unlocked_keeps_all_refuted",
    "C122_unlocked_invents_nothing",
    "C122_notes_locked",
    "C122_notes_never_stuck",
    "C122_notes_unlocked_refuted"
   ],
   "note": "Map assignments and append are single steps; the Go runtime may stop the program when it notices unlocked map writes, which the model leaves out. The two theorems named refuted show that the statement without a lock is false."
  },
  {
   "property": "C123",
   "status": "proved",
   "theorems": [
    "C123_rows",
    "C123_value",
    "C123_own_memory",
    "C123_no_array",
    "C123_separate",
    "C123_stored",
    "C123_refused",
    "C123_copy_is_snapshot_refuted",
    "C123_error_changes_nothing_refuted",
    "C123_left_out_is_zero_refuted"
   ],
   "note": "Model/BookInto.v models the array, object and literalStore functions of encoding/json with saveError; C123_value ties it to the decoder on values of C101. Nil and empty slices are one."
  },
  {
   "property": "C124",
   "status": "proved",
   "theorems": [
    "C124_alone_as_called",
    "C124_locked",
    "C124_never_stuck",
    "C124_locked_listed",
    "C124_any_schedule_exact",
    "C124_always",
    "C124_unlocked_quantity_refuted",
    "C124_unlocked_listed_refuted",
    "C124_unlocked_average_refuted",
    "C124_unlocked_oversold_refuted"
   ],
   "note": "Model/PositionConcurrent.v on the machine of Model/ActionsConcurrent.v; C124_alone_as_called ties it to Model/PositionHeap.v and Model/Entities.v. Memory is sequentially consistent; a field is read and written as a whole. The error Modify returns is left out (it depends on the pair only)."
  },
  {
   "property": "C125",
   "status": "proved",
   "theorems": [
    "C125_mean",
    "C125_total_decides",
    "C125_flat",
    "C125_flat_ema_refuted",
    "C125_rsi_ratio_decides",
    "C125_rsi_ratio_orders",
    "C125_rsi_unit_and_zero"
   ],
   "note": "Unlike C53_float_mean_in_range_refuted (arbitrary floats) and C80/C113 (error bounds) these are exact statements about float64 on a grid. C125_flat_ema_refuted: a flat series need not have a flat EMA."
  },
  {
   "property": "C126",
   "status": "proved",
   "theorems": [
    "C126_books",
    "C126_tolerance",
    "C126_sold_out",
    "C126_oversold_refuted",
    "C126_profit"
   ],
   "note": "Generalises C96_whole_quantities from whole numbers and open positions to every lot 2^e and every history, including the trades after closing. C126_oversold_refuted: the tolerance of 0.0001 accepts oversold trades when lots are small."
  },
  {
   "property": "C127",
   "status": "proved",
   "theorems": [
    "C127_alone_as_called",
    "C127_locked",
    "C127_locked_answers",
    "C127_never_stuck",
    "C127_only_asking",
    "C127_asking_unnoticed",
    "C127_unlocked_new_price_old_quantity_refuted",
    "C127_unlocked_old_price_new_quantity_refuted",
    "C127_unlocked_answer_refuted"
   ],
   "note": "Extends the machine of C124 by calls that return something. C127_unlocked_*_refuted: the library takes no lock, so a caller who does not take one either gets answers that belong to no position."
  },
  {
   "property": "C128",
   "status": "proved",
   "theorems": [
    "C128_accumulated",
    "C128_history",
    "C128_overlap_exact",
    "C128_overlap_value",
    "C128_decimal_refuted"
   ],
   "note": "Generalises C15_overlap_float_exact and C75_integer_volumes_exact from whole numbers to every binary grid. C128_decimal_refuted: on a decimal grid an overlap of nothing is reported as something."
  },
  {
   "property": "C129",
   "status": "proved",
   "theorems": [
    "C129_group_volumes",
    "C129_conserved",
    "C129_nothing_skipped",
    "C129_two_steps",
    "C129_smaller_lots_refuted"
   ],
   "note": "Sharpens C23_volumes_close, which bounds the difference between the two ways for any volumes; C23_volumes_equal_refuted shows that equality fails in general. C129_smaller_lots_refuted: a volume of 1/64 becomes 0.01562."
  },
  {
   "property": "C130",
   "status": "proved",
   "theorems": [
    "C130_total",
    "C130_quantity",
    "C130_round_trip",
    "C130_decimal_refuted"
   ],
   "note": "Sharpens C82_request (relative error) on a binary grid. C130_decimal_refuted: 0.1 at 0.1 costs a total that buys 0.10000000000000002."
  },
  {
   "property": "C131",
   "status": "proved",
   "theorems": [
    "C131_fee_exact",
    "C131_free_iff",
    "C131_completed_no_fee",
    "C131_by_total_refuted"
   ],
   "note": "Sharpens C82's bound on fees on a binary grid, and joins C36 with C47. C131_by_total_refuted: (1/49)*49 is not 1."
  }
 ]
}