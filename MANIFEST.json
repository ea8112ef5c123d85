{
 "claims": [
  {
   "property": "C01",
   "status": "proved",
   "theorems": [
    "C01_with_field_injective",
    "C01_unrestricted_refuted"
   ],
   "note": ""
  },
  {
   "property": "C02",
   "status": "proved",
   "theorems": [
    "C02_tags_sorted_and_complete",
    "C02_tags_text_unique",
    "C02_series_string_canonical",
    "C02_string_depends_on_associations"
   ],
   "note": ""
  },
  {
   "property": "C03",
   "status": "proved",
   "theorems": [
    "C03_existing_sets_never_change",
    "C03_views_agree",
    "C03_set_tags_last_wins",
    "C03_set_all",
    "C03_set"
   ],
   "note": ""
  },
  {
   "property": "C04",
   "status": "proved",
   "theorems": [
    "C04_same_object",
    "C04_constructor_once",
    "C04_never_rebound",
    "C04_right_kind",
    "C04_panic_iff_other_kind",
    "C04_lookup_terminates"
   ],
   "note": ""
  },
  {
   "property": "C05",
   "status": "proved",
   "theorems": [
    "C05_table_names_distinct",
    "C05_objects_distinct",
    "C05_distinct_refuted"
   ],
   "note": ""
  },
  {
   "property": "C06",
   "status": "proved",
   "theorems": [
    "C06_counter_views",
    "C06_counter_results",
    "C06_counter_sum_since_set",
    "C06_counter_sum_since_reset",
    "C06_counter_stats"
   ],
   "note": ""
  },
  {
   "property": "C07",
   "status": "proved",
   "theorems": [
    "C07_total_is_sum_of_marks",
    "C07_total_after_reset",
    "C07_total_after_set_total",
    "C07_total_every_history",
    "C07_tick_preserves_total",
    "C07_diffmeter_total",
    "C07_set_total_is_total_refuted"
   ],
   "note": ""
  },
  {
   "property": "C08",
   "status": "proved",
   "theorems": [
    "C08_rate_is_window_rate",
    "C08_quiet_meter_keeps_window",
    "C08_diffmeter_rate"
   ],
   "note": ""
  },
  {
   "property": "C09",
   "status": "proved",
   "theorems": [
    "C09_exact_counters",
    "C09_full_average",
    "C09_report"
   ],
   "note": ""
  },
  {
   "property": "C10",
   "status": "proved",
   "theorems": [
    "C10_reservoir_holds_recorded_values"
   ],
   "note": ""
  },
  {
   "property": "C11",
   "status": "proved",
   "theorems": [
    "C11_bounded",
    "C11_extremes",
    "C11_interpolates",
    "C11_monotone",
    "C11_finite_values",
    "C11_integers",
    "C11_integers_monotone",
    "C11_large_values_refuted",
    "C11_fused_position_refuted",
    "C11_max_int_refuted"
   ],
   "note": ""
  },
  {
   "property": "C12",
   "status": "proved",
   "theorems": [
    "C12_reset_is_fresh",
    "C12_query_after_reset_refuted"
   ],
   "note": ""
  },
  {
   "property": "C13",
   "status": "proved",
   "theorems": [
    "C13_insert_never_panics",
    "C13_replacement_rule",
    "C13_replacement_floor",
    "C13_replacement_count_exact"
   ],
   "note": ""
  },
  {
   "property": "C14",
   "status": "proved",
   "theorems": [
    "C14_lcg_permutes",
    "C14_xorshift64_permutes",
    "C14_xorshift128_permutes",
    "C14_xorshift1024_permutes",
    "C14_results_fit",
    "C14_xorshift64_never_zero",
    "C14_xorshift128_never_zero",
    "C14_xorshift1024_never_zero",
    "C14_seed_zero_stuck"
   ],
   "note": ""
  },
  {
   "property": "C15",
   "status": "proved",
   "theorems": [
    "C15_ids_non_negative",
    "C15_ids_at_most_twice",
    "C15_ids_at_least_twice",
    "C15_ids_collision_gap",
    "C15_ids_adjacent_distinct",
    "C15_ids_unique_refuted"
   ],
   "note": ""
  },
  {
   "property": "C16",
   "status": "proved",
   "theorems": [
    "C16_parents_distinct",
    "C16_parents_sound",
    "C16_parents_complete"
   ],
   "note": ""
  },
  {
   "property": "C17",
   "status": "proved",
   "theorems": [
    "C17_finished_once",
    "C17_history_sound",
    "C17_counts",
    "C17_sum",
    "C17_stats"
   ],
   "note": ""
  },
  {
   "property": "C18",
   "status": "proved",
   "theorems": [
    "C18_current",
    "C18_highwater",
    "C18_current_refuted"
   ],
   "note": ""
  },
  {
   "property": "C19",
   "status": "proved",
   "theorems": [
    "C19_bag",
    "C19_children"
   ],
   "note": ""
  },
  {
   "property": "C20",
   "status": "proved",
   "theorems": [
    "C20_roots",
    "C20_all",
    "C20_nothing_retained",
    "C20_all_refuted"
   ],
   "note": ""
  },
  {
   "property": "C21",
   "status": "proved",
   "theorems": [
    "C21_trace_count"
   ],
   "note": ""
  },
  {
   "property": "C22",
   "status": "proved",
   "theorems": [
    "C22_orphaned",
    "C22_orphaned_after_parent",
    "C22_not_orphaned_before_parent"
   ],
   "note": ""
  },
  {
   "property": "C23",
   "status": "proved",
   "theorems": [
    "C23_context",
    "C23_no_growth"
   ],
   "note": ""
  },
  {
   "property": "C24",
   "status": "proved",
   "theorems": [
    "C24_task_child",
    "C24_task_root",
    "C24_reset_trace",
    "C24_remote_trace",
    "C24_context_updated",
    "C24_nil_context",
    "C24_scope_task"
   ],
   "note": ""
  },
  {
   "property": "C25",
   "status": "proved",
   "theorems": [
    "C25_observers"
   ],
   "note": ""
  },
  {
   "property": "C26",
   "status": "proved",
   "theorems": [
    "C26_watchers",
    "C26_current"
   ],
   "note": ""
  },
  {
   "property": "C27",
   "status": "proved",
   "theorems": [
    "C27_attach_once",
    "C27_new_traces",
    "C27_running_traces",
    "C27_cancelled",
    "C27_unregistered"
   ],
   "note": ""
  },
  {
   "property": "C28",
   "status": "proved",
   "theorems": [
    "C28_closed_once",
    "C28_finder_closed_once",
    "C28_spans",
    "C28_spans_nonempty",
    "C28_one_trigger",
    "C28_collected_between"
   ],
   "note": ""
  },
  {
   "property": "C29",
   "status": "proved",
   "theorems": [
    "C29_collected",
    "C29_returned",
    "C29_refuted"
   ],
   "note": ""
  },
  {
   "property": "C30",
   "status": "proved",
   "theorems": [
    "C30_stream",
    "C30_by_key",
    "C30_by_key_refuted",
    "C30_telescope",
    "C30_concurrent"
   ],
   "note": ""
  },
  {
   "property": "C31",
   "status": "proved",
   "theorems": [
    "C31_order",
    "C31_source_order",
    "C31_with",
    "C31_new",
    "C31_unaffected",
    "C31_scopes_shared",
    "C31_scopes_separate"
   ],
   "note": ""
  },
  {
   "property": "C32",
   "status": "proved",
   "theorems": [
    "C32_stats_visits_everything",
    "C32_stats_tagged"
   ],
   "note": ""
  },
  {
   "property": "C33",
   "status": "proved",
   "theorems": [
    "C33_collect_last_value"
   ],
   "note": ""
  },
  {
   "property": "C34",
   "status": "proved",
   "theorems": [
    "C34_report",
    "C34_panics",
    "C34_names",
    "C34_non_struct",
    "C34_struct_val"
   ],
   "note": ""
  },
  {
   "property": "C35",
   "status": "proved",
   "theorems": [
    "C35_reports",
    "C35_at_rest"
   ],
   "note": ""
  },
  {
   "property": "C36",
   "status": "proved",
   "theorems": [
    "C36_once",
    "C36_returns"
   ],
   "note": ""
  },
  {
   "property": "C37",
   "status": "proved",
   "theorems": [
    "C37_precedence",
    "C37_builds",
    "C37_concurrent"
   ],
   "note": ""
  },
  {
   "property": "C38",
   "status": "proved",
   "theorems": [
    "C38_extract",
    "C38_rejects",
    "C38_caller"
   ],
   "note": ""
  },
  {
   "property": "C39",
   "status": "proved",
   "theorems": [
    "C39_path",
    "C39_pathless",
    "C39_refuted"
   ],
   "note": ""
  },
  {
   "property": "C40",
   "status": "proved",
   "theorems": [
    "C40_ids",
    "C40_no_ids",
    "C40_negative",
    "C40_refuted",
    "C40_reuse_refuted"
   ],
   "note": ""
  },
  {
   "property": "C41",
   "status": "proved",
   "theorems": [
    "C41_round_trip",
    "C41_read",
    "C41_allowed",
    "C41_annotations",
    "C41_comma_refuted"
   ],
   "note": ""
  },
  {
   "property": "C42",
   "status": "proved",
   "theorems": [
    "C42_ids",
    "C42_sampled",
    "C42_both_or_neither",
    "C42_malformed",
    "C42_long_ids"
   ],
   "note": ""
  },
  {
   "property": "C43",
   "status": "proved",
   "theorems": [
    "C43_transparent",
    "C43_status",
    "C43_annotated",
    "C43_both_ends",
    "C43_flush_refuted",
    "C43_twice_refuted",
    "C43_informational_refuted",
    "C43_interfaces_refuted"
   ],
   "note": ""
  },
  {
   "property": "C44",
   "status": "proved",
   "theorems": [
    "C44_safe",
    "C44_injective",
    "C44_strings"
   ],
   "note": ""
  },
  {
   "property": "C45",
   "status": "proved",
   "theorems": [
    "C45_complete",
    "C45_marshal",
    "C45_fresh_counter",
    "C45_http_empty"
   ],
   "note": ""
  },
  {
   "property": "C46",
   "status": "proved",
   "theorems": [
    "C46_segments",
    "C46_pages",
    "C46_trace",
    "C46_trace_given",
    "C46_bad_request",
    "C46_not_found",
    "C46_index_refuted"
   ],
   "note": ""
  },
  {
   "property": "C47",
   "status": "proved",
   "theorems": [
    "C47_stopped",
    "C47_one_failure",
    "C47_result",
    "C47_agree",
    "C47_paced",
    "C47_context",
    "C47_cancelled",
    "C47_progress",
    "C47_panics",
    "C47_called_refuted",
    "C47_context_refuted"
   ],
   "note": ""
  },
  {
   "property": "C48",
   "status": "proved",
   "theorems": [
    "C48_total",
    "C48_rows",
    "C48_below",
    "C48_inside",
    "C48_rows_refuted",
    "C48_total_refuted"
   ],
   "note": ""
  },
  {
   "property": "C49",
   "status": "proved",
   "theorems": [
    "C49_bars",
    "C49_order",
    "C49_extent",
    "C49_instant",
    "C49_bars_refuted"
   ],
   "note": ""
  },
  {
   "property": "C50",
   "status": "proved",
   "theorems": [
    "C50_clock_exact",
    "C50_clock_monotone",
    "C50_clock_monotone_refuted"
   ],
   "note": ""
  },
  {
   "property": "C51",
   "status": "proved",
   "theorems": [
    "C51_spin_lock_excludes",
    "C51_spin_lock_available",
    "C51_spin_lock_released"
   ],
   "note": ""
  },
  {
   "property": "C52",
   "status": "proved",
   "theorems": [
    "C52_inserts",
    "C52_once",
    "C52_refuted"
   ],
   "note": ""
  },
  {
   "property": "C53",
   "status": "proved",
   "theorems": [
    "C53_func_task",
    "C53_scope_task",
    "C53_scope_task_refuted"
   ],
   "note": ""
  },
  {
   "property": "C54",
   "status": "proved",
   "theorems": [
    "C54_annotations",
    "C54_stable",
    "C54_maps"
   ],
   "note": ""
  },
  {
   "property": "C55",
   "status": "proved",
   "theorems": [
    "C55_observe_panic",
    "C55_observe_return",
    "C55_panic_nil_refuted",
    "C55_task"
   ],
   "note": ""
  },
  {
   "property": "C56",
   "status": "proved",
   "theorems": [
    "C56_gauge_latest",
    "C56_gauge_reported",
    "C56_gauge_over_source_panics"
   ],
   "note": ""
  },
  {
   "property": "C57",
   "status": "proved",
   "theorems": [
    "C57_func_name_and_tags",
    "C57_func_families",
    "C57_reserved_tags_refuted"
   ],
   "note": ""
  },
  {
   "property": "C58",
   "status": "proved",
   "theorems": [
    "C58_funcs_exact"
   ],
   "note": ""
  },
  {
   "property": "C59",
   "status": "proved",
   "theorems": [
    "C59_linearizable"
   ],
   "note": ""
  },
  {
   "property": "C60",
   "status": "proved",
   "theorems": [
    "C60_get"
   ],
   "note": ""
  },
  {
   "property": "C61",
   "status": "proved",
   "theorems": [
    "C61_propagated",
    "C61_journey",
    "C61_unsampled",
    "C61_orphan",
    "C61_parent_refuted"
   ],
   "note": ""
  },
  {
   "property": "C62",
   "status": "proved",
   "theorems": [
    "C62_stats_text",
    "C62_spans_text",
    "C62_spans_dot",
    "C62_funcs_dot",
    "C62_funcs_text",
    "C62_buffered",
    "C62_funcs_text_refuted"
   ],
   "note": ""
  },
  {
   "property": "C63",
   "status": "proved",
   "theorems": [
    "C63_buffered",
    "C63_refuted"
   ],
   "note": ""
  },
  {
   "property": "C64",
   "status": "proved",
   "theorems": [
    "C64_reported",
    "C64_unreadable",
    "C64_name_refuted"
   ],
   "note": ""
  },
  {
   "property": "C65",
   "status": "proved",
   "theorems": [
    "C65_scope",
    "C65_env_refuted",
    "C65_attached"
   ],
   "note": ""
  },
  {
   "property": "C66",
   "status": "proved",
   "theorems": [
    "C66_process",
    "C66_descriptors"
   ],
   "note": ""
  },
  {
   "property": "C67",
   "status": "proved",
   "theorems": [
    "C67_scopes",
    "C67_stats",
    "C67_funcs"
   ],
   "note": ""
  },
  {
   "property": "C68",
   "status": "proved",
   "theorems": [
    "C68_state_period",
    "C68_stream_period",
    "C68_every_state",
    "C68_every_result",
    "C68_seeded"
   ],
   "note": ""
  },
  {
   "property": "C69",
   "status": "proved",
   "theorems": [
    "C69_jump_commutes",
    "C69_jump_stream",
    "C69_jump_distance_refuted",
    "C69_period_refuted"
   ],
   "note": ""
  },
  {
   "property": "C70",
   "status": "proved",
   "theorems": [
    "C70_result",
    "C70_error",
    "C70_cancel",
    "C70_no_more"
   ],
   "note": ""
  },
  {
   "property": "C71",
   "status": "proved",
   "theorems": [
    "C71_why",
    "C71_returns",
    "C71_nil",
    "C71_no_more"
   ],
   "note": ""
  },
  {
   "property": "C72",
   "status": "proved",
   "theorems": [
    "C72_result",
    "C72_panic"
   ],
   "note": ""
  },
  {
   "property": "C73",
   "status": "proved",
   "theorems": [
    "C73_order",
    "C73_left_to_right",
    "C73_order_refuted",
    "C73_document",
    "C73_exact",
    "C73_numbers",
    "C73_total"
   ],
   "note": ""
  },
  {
   "property": "C74",
   "status": "proved",
   "theorems": [
    "C74_tooltip",
    "C74_tooltip_refuted"
   ],
   "note": ""
  },
  {
   "property": "C75",
   "status": "proved",
   "theorems": [
    "C75_colours",
    "C75_last",
    "C75_unwrap_refuted"
   ],
   "note": ""
  },
  {
   "property": "C76",
   "status": "proved",
   "theorems": [
    "C76_bars",
    "C76_lines"
   ],
   "note": ""
  },
  {
   "property": "C77",
   "status": "proved",
   "theorems": [
    "C77_exclusive",
    "C77_after",
    "C77_output",
    "C77_complete",
    "C77_spans",
    "C77_error",
    "C77_no_context_error",
    "C77_ping_error",
    "C77_gives_up",
    "C77_svg_late",
    "C77_svg_refuted"
   ],
   "note": ""
  },
  {
   "property": "C78",
   "status": "proved",
   "theorems": [
    "C78_quote",
    "C78_quote_ends",
    "C78_each",
    "C78_read",
    "C78_injective",
    "C78_line",
    "C78_types_refuted",
    "C78_line_refuted"
   ],
   "note": ""
  },
  {
   "property": "C79",
   "status": "proved",
   "theorems": [
    "C79_value",
    "C79_string",
    "C79_inline",
    "C79_order",
    "C79_refused",
    "C79_list",
    "C79_query",
    "C79_truncated",
    "C79_marshal_error",
    "C79_invalid_refuted"
   ],
   "note": ""
  },
  {
   "property": "C80",
   "status": "proved",
   "theorems": [
    "C80_spans",
    "C80_finished",
    "C80_funcs",
    "C80_stats",
    "C80_args",
    "C80_err_refuted",
    "C80_quantiles_refuted"
   ],
   "note": ""
  },
  {
   "property": "C81",
   "status": "proved",
   "theorems": [
    "C81_spans",
    "C81_closed",
    "C81_funcs",
    "C81_failed"
   ],
   "note": ""
  },
  {
   "property": "C82",
   "status": "proved",
   "theorems": [
    "C82_read",
    "C82_trees",
    "C82_refuted"
   ],
   "note": ""
  },
  {
   "property": "C83",
   "status": "proved",
   "theorems": [
    "C83_read",
    "C83_no_error",
    "C83_refuted"
   ],
   "note": ""
  },
  {
   "property": "C84",
   "status": "proved",
   "theorems": [
    "C84_uniform",
    "C84_chance",
    "C84_decay",
    "C84_newer",
    "C84_bias",
    "C84_values",
    "C84_small_window_refuted"
   ],
   "note": ""
  },
  {
   "property": "C85",
   "status": "proved",
   "theorems": [
    "C85_stats",
    "C85_same",
    "C85_whole",
    "C85_ordered",
    "C85_value_refuted",
    "C85_line_refuted"
   ],
   "note": ""
  },
  {
   "property": "C86",
   "status": "proved",
   "theorems": [
    "C86_exact",
    "C86_shortest",
    "C86_stats",
    "C86_infinite"
   ],
   "note": ""
  },
  {
   "property": "C87",
   "status": "proved",
   "theorems": [
    "C87_one_goroutine",
    "C87_pass",
    "C87_apart",
    "C87_goes_on",
    "C87_history",
    "C87_recent_marks",
    "C87_longer_refuted"
   ],
   "note": ""
  },
  {
   "property": "C88",
   "status": "proved",
   "theorems": [
    "C88_float_nan",
    "C88_int_reservoir",
    "C88_int_few",
    "C88_float_reservoir",
    "C88_float_sum",
    "C88_float_counters",
    "C88_empty",
    "C88_between_refuted",
    "C88_large_refuted",
    "C88_max_int_refuted",
    "C88_nan_refuted",
    "C88_exact_sum_refuted"
   ],
   "note": ""
  },
  {
   "property": "C89",
   "status": "proved",
   "theorems": [
    "C89_refines",
    "C89_excludes",
    "C89_completes",
    "C89_funcs",
    "C89_observers",
    "C89_collectors",
    "C89_safe_parents",
    "C89_safe_observers",
    "C89_safe_collector"
   ],
   "note": ""
  },
  {
   "property": "C90",
   "status": "proved",
   "theorems": [
    "C90_race_free",
    "C90_reads",
    "C90_checked",
    "C90_collect_refuted",
    "C90_runtime_refuted",
    "C90_task_func_refuted"
   ],
   "note": ""
  },
  {
   "property": "C91",
   "status": "proved",
   "theorems": [
    "C91_no_deadlock",
    "C91_somebody_goes_on",
    "C91_released",
    "C91_callbacks",
    "C91_checked",
    "C91_handler_refuted",
    "C91_panic_refuted"
   ],
   "note": ""
  },
  {
   "property": "C92",
   "status": "proved",
   "theorems": [
    "C92_integers",
    "C92_integers_refuted",
    "C92_seconds",
    "C92_seconds_back",
    "C92_seconds_back_refuted",
    "C92_rate",
    "C92_rate_ordered",
    "C92_meter",
    "C92_difference",
    "C92_difference_exact",
    "C92_diffmeter"
   ],
   "note": ""
  },
  {
   "property": "C93",
   "status": "proved",
   "theorems": [
    "C93_number",
    "C93_integer",
    "C93_duration",
    "C93_lines",
    "C93_function",
    "C93_counter",
    "C93_meter",
    "C93_rate_refuted"
   ],
   "note": ""
  },
  {
   "property": "C94",
   "status": "proved",
   "theorems": [
    "C94_call",
    "C94_running",
    "C94_nested",
    "C94_order",
    "C94_windows",
    "C94_windows_timer_refuted",
    "C94_time_of_day_refuted"
   ],
   "note": ""
  },
  {
   "property": "C95",
   "status": "proved",
   "theorems": [
    "C95_register",
    "C95_register_refuted",
    "C95_notify",
    "C95_cancel",
    "C95_cancel_waits",
    "C95_enter"
   ],
   "note": ""
  },
  {
   "property": "C96",
   "status": "proved",
   "theorems": [
    "C96_text",
    "C96_dot",
    "C96_json",
    "C96_http",
    "C96_refuted"
   ],
   "note": ""
  },
  {
   "property": "C97",
   "status": "proved",
   "theorems": [
    "C97_text",
    "C97_dot",
    "C97_json",
    "C97_http",
    "C97_moment_refuted"
   ],
   "note": ""
  },
  {
   "property": "C98",
   "status": "proved",
   "theorems": [
    "C98_pages",
    "C98_pages_json",
    "C98_refines",
    "C98_current",
    "C98_ended",
    "C98_parents",
    "C98_highwater",
    "C98_moment_refuted",
    "C98_finished",
    "C98_settles"
   ],
   "note": ""
  },
  {
   "property": "C99",
   "status": "proved",
   "theorems": [
    "C99_rusage",
    "C99_runtime"
   ],
   "note": ""
  }
 ]
}