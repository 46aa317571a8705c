{
 "claims": [
  {
   "property": "C01",
   "status": "proved",
   "theorems": [
    "C01_normalised"
   ],
   "note": ""
  },
  {
   "property": "C02",
   "status": "proved",
   "theorems": [
    "C02_dispatch"
   ],
   "note": ""
  },
  {
   "property": "C03",
   "status": "proved",
   "theorems": [
    "C03_malformed"
   ],
   "note": ""
  },
  {
   "property": "C04",
   "status": "proved",
   "theorems": [
    "C04_raises",
    "C04_bad_line_only_logged_refuted"
   ],
   "note": "Exact characterisation of when processing raises; the intended guarantee that bad lines are only logged is refuted."
  },
  {
   "property": "C05",
   "status": "proved",
   "theorems": [
    "C05_counter_sum",
    "C05_counter_fold"
   ],
   "note": ""
  },
  {
   "property": "C06",
   "status": "proved",
   "theorems": [
    "C06_timers_recorded"
   ],
   "note": ""
  },
  {
   "property": "C07",
   "status": "proved",
   "theorems": [
    "C07_isolation"
   ],
   "note": "All plugin types count as one type; that they do interfere is C84."
  },
  {
   "property": "C08",
   "status": "proved",
   "theorems": [
    "C08_order_independent"
   ],
   "note": "For every arithmetic whose addition is commutative and associative (instance: exact rationals with infinities and NaN)."
  },
  {
   "property": "C09",
   "status": "proved",
   "theorems": [
    "C09_receive_counts"
   ],
   "note": ""
  },
  {
   "property": "C10",
   "status": "proved",
   "theorems": [
    "C10_counters_flushed",
    "C10_flush_completes"
   ],
   "note": ""
  },
  {
   "property": "C11",
   "status": "proved",
   "theorems": [
    "C11_short_interval"
   ],
   "note": ""
  },
  {
   "property": "C12",
   "status": "proved",
   "theorems": [
    "C12_conservation"
   ],
   "note": ""
  },
  {
   "property": "C13",
   "status": "proved",
   "theorems": [
    "C13_new_counter_aborts",
    "C13_calm_flush_never_raises"
   ],
   "note": ""
  },
  {
   "property": "C14",
   "status": "proved",
   "theorems": [
    "C14_timers_flushed"
   ],
   "note": ""
  },
  {
   "property": "C15",
   "status": "proved",
   "theorems": [
    "C15_ordered",
    "C15_ordered_in_doubles_refuted"
   ],
   "note": ""
  },
  {
   "property": "C16",
   "status": "proved",
   "theorems": [
    "C16_percentile_total",
    "C16_low_percentile_raises"
   ],
   "note": ""
  },
  {
   "property": "C17",
   "status": "proved",
   "theorems": [
    "C17_gauges_resent"
   ],
   "note": ""
  },
  {
   "property": "C18",
   "status": "proved",
   "theorems": [
    "C18_meter_history",
    "C18_exact_reports_never_raise",
    "C18_meters_conserve"
   ],
   "note": ""
  },
  {
   "property": "C19",
   "status": "proved",
   "theorems": [
    "C19_rate_nonneg",
    "C19_rate_nonneg_in_service_refuted"
   ],
   "note": ""
  },
  {
   "property": "C20",
   "status": "proved",
   "theorems": [
    "C20_summary"
   ],
   "note": ""
  },
  {
   "property": "C21",
   "status": "proved",
   "theorems": [
    "C21_receive_statistics_restart",
    "C21_every_message_reported_refuted"
   ],
   "note": ""
  },
  {
   "property": "C22",
   "status": "proved",
   "theorems": [
    "C22_metric_names"
   ],
   "note": ""
  },
  {
   "property": "C23",
   "status": "proved",
   "theorems": [
    "C23_emitted_names"
   ],
   "note": ""
  },
  {
   "property": "C24",
   "status": "proved",
   "theorems": [
    "C24_series_of_one_kind",
    "C24_series_of_different_kinds",
    "C24_all_series_differ_refuted"
   ],
   "note": ""
  },
  {
   "property": "C25",
   "status": "proved",
   "theorems": [
    "C25_last_value",
    "C25_truncation",
    "C25_truncation_unique"
   ],
   "note": ""
  },
  {
   "property": "C26",
   "status": "proved",
   "theorems": [
    "C26_only_counters",
    "C26_raises_iff"
   ],
   "note": ""
  },
  {
   "property": "C27",
   "status": "proved",
   "theorems": [
    "C27_last_value"
   ],
   "note": ""
  },
  {
   "property": "C28",
   "status": "proved",
   "theorems": [
    "C28_timers",
    "C28_new_timers"
   ],
   "note": ""
  },
  {
   "property": "C29",
   "status": "proved",
   "theorems": [
    "C29_names",
    "C29_internal_prefix"
   ],
   "note": ""
  },
  {
   "property": "C30",
   "status": "proved",
   "theorems": [
    "C30_transparent",
    "C30_log"
   ],
   "note": ""
  },
  {
   "property": "C31",
   "status": "proved",
   "theorems": [
    "C31_dump_mode_transparent",
    "C31_dump_mode_compliant_refuted",
    "C31_second_service_refuted"
   ],
   "note": "With statsd-compliance off dump mode is transparent; with it on, names and counter values change; a second dump-mode service in one process fails with AssertionError."
  },
  {
   "property": "C32",
   "status": "proved",
   "theorems": [
    "C32_routes",
    "C32_no_route",
    "C32_ill_formed",
    "C32_deterministic",
    "C32_links_kept"
   ],
   "note": "For every regular expression engine (python's re is a parameter with its interface only)."
  },
  {
   "property": "C33",
   "status": "proved",
   "theorems": [
    "C33_transparent",
    "C33_transparent_configurable",
    "C33_same_data"
   ],
   "note": ""
  },
  {
   "property": "C34",
   "status": "proved",
   "theorems": [
    "C34_dropped"
   ],
   "note": ""
  },
  {
   "property": "C35",
   "status": "proved",
   "theorems": [
    "C35_conditions",
    "C35_total"
   ],
   "note": ""
  },
  {
   "property": "C36",
   "status": "proved",
   "theorems": [
    "C36_glob",
    "C36_no_bracket_is_proper",
    "C36_literal"
   ],
   "note": ""
  },
  {
   "property": "C37",
   "status": "proved",
   "theorems": [
    "C37_accepted",
    "C37_rules"
   ],
   "note": ""
  },
  {
   "property": "C38",
   "status": "proved",
   "theorems": [
    "C38_fields_kept",
    "C38_type_restored",
    "C38_set_type_lost_refuted"
   ],
   "note": "The set type is lost through a redirect: proved in general and by a concrete instance."
  },
  {
   "property": "C39",
   "status": "proved",
   "theorems": [
    "C39_redirect",
    "C39_no_service"
   ],
   "note": ""
  },
  {
   "property": "C40",
   "status": "proved",
   "theorems": [
    "C40_frame",
    "C40_received",
    "C40_router_texts"
   ],
   "note": ""
  },
  {
   "property": "C41",
   "status": "proved",
   "theorems": [
    "C41_paused_for_ever",
    "C41_pause",
    "C41_flows_after_resume_refuted",
    "C41_reconnect"
   ],
   "note": ""
  },
  {
   "property": "C42",
   "status": "proved",
   "theorems": [
    "C42_exact_iff",
    "C42_fields",
    "C42_injection_refuted"
   ],
   "note": "Exact condition, and a concrete injection."
  },
  {
   "property": "C43",
   "status": "proved",
   "theorems": [
    "C43_fifo",
    "C43_each_event",
    "C43_order",
    "C43_turns",
    "C43_callback_writes_refuted"
   ],
   "note": ""
  },
  {
   "property": "C44",
   "status": "proved",
   "theorems": [
    "C44_addressed",
    "C44_nothing_before"
   ],
   "note": ""
  },
  {
   "property": "C45",
   "status": "proved",
   "theorems": [
    "C45_bounded",
    "C45_earliest"
   ],
   "note": ""
  },
  {
   "property": "C46",
   "status": "proved",
   "theorems": [
    "C46_callbacks",
    "C46_each_once"
   ],
   "note": ""
  },
  {
   "property": "C47",
   "status": "proved",
   "theorems": [
    "C47_notifications",
    "C47_literal_twice"
   ],
   "note": ""
  },
  {
   "property": "C48",
   "status": "proved",
   "theorems": [
    "C48_no_duplicates",
    "C48_only_written",
    "C48_ready_writes",
    "C48_stranded_refuted",
    "C48_lost_refuted",
    "C48_next_connection"
   ],
   "note": ""
  },
  {
   "property": "C49",
   "status": "proved",
   "theorems": [
    "C49_ring_complete",
    "C49_constructor",
    "C49_failed_add"
   ],
   "note": ""
  },
  {
   "property": "C50",
   "status": "proved",
   "theorems": [
    "C50_clockwise_successor",
    "C50_history_free"
   ],
   "note": ""
  },
  {
   "property": "C51",
   "status": "proved",
   "theorems": [
    "C51_adding",
    "C51_removing"
   ],
   "note": ""
  },
  {
   "property": "C52",
   "status": "proved",
   "theorems": [
    "C52_preference",
    "C52_consequences",
    "C52_empty",
    "C52_all_nodes_refuted"
   ],
   "note": ""
  },
  {
   "property": "C53",
   "status": "proved",
   "theorems": [
    "C53_one_backend",
    "C53_init",
    "C53_stable",
    "C53_unnamed",
    "C53_connect"
   ],
   "note": ""
  },
  {
   "property": "C54",
   "status": "proved",
   "theorems": [
    "C54_moving_average",
    "C54_between_the_interval_rates",
    "C54_updates_add_up"
   ],
   "note": ""
  },
  {
   "property": "C55",
   "status": "proved",
   "theorems": [
    "C55_reservoir"
   ],
   "note": ""
  },
  {
   "property": "C56",
   "status": "proved",
   "theorems": [
    "C56_decaying_reservoir",
    "C56_random_zero"
   ],
   "note": ""
  },
  {
   "property": "C57",
   "status": "proved",
   "theorems": [
    "C57_variance",
    "C57_timers_never_hit_the_sentinel",
    "C57_negative_values_refuted"
   ],
   "note": ""
  },
  {
   "property": "C58",
   "status": "proved",
   "theorems": [
    "C58_extrema"
   ],
   "note": ""
  },
  {
   "property": "C59",
   "status": "proved",
   "theorems": [
    "C59_percentiles",
    "C59_bounded_and_monotone"
   ],
   "note": ""
  },
  {
   "property": "C60",
   "status": "proved",
   "theorems": [
    "C60_histogram"
   ],
   "note": ""
  },
  {
   "property": "C61",
   "status": "proved",
   "theorems": [
    "C61_report_always_fails",
    "C61_report_is_a_type_error"
   ],
   "note": ""
  },
  {
   "property": "C62",
   "status": "proved",
   "theorems": [
    "C62_zeros",
    "C62_hash_32_bits",
    "C62_one_bucket_per_hash",
    "C62_reachable_are_well_formed"
   ],
   "note": ""
  },
  {
   "property": "C63",
   "status": "proved",
   "theorems": [
    "C63_only_the_set_matters",
    "C63_more_items_more_estimate",
    "C63_doubles",
    "C63_windows_nest",
    "C63_windows_nest_early_refuted"
   ],
   "note": ""
  },
  {
   "property": "C64",
   "status": "proved",
   "theorems": [
    "C64_empty_window_is_one",
    "C64_at_least_one"
   ],
   "note": ""
  },
  {
   "property": "C65",
   "status": "proved",
   "theorems": [
    "C65_rejected"
   ],
   "note": ""
  },
  {
   "property": "C66",
   "status": "proved",
   "theorems": [
    "C66_sli_history",
    "C66_samples",
    "C66_rejected_samples_leave_no_trace",
    "C66_counts_bounded",
    "C66_conditions"
   ],
   "note": ""
  },
  {
   "property": "C67",
   "status": "proved",
   "theorems": [
    "C67_accepted_texts",
    "C67_configured_metric",
    "C67_last_rule_wins",
    "C67_bad_line",
    "C67_only_conditions_refuted"
   ],
   "note": ""
  },
  {
   "property": "C68",
   "status": "proved",
   "theorems": [
    "C68_integers",
    "C68_text",
    "C68_decimal",
    "C68_exact",
    "C68_sampled",
    "C68_other_kinds"
   ],
   "note": ""
  },
  {
   "property": "C69",
   "status": "proved",
   "theorems": [
    "C69_qualified",
    "C69_messages"
   ],
   "note": ""
  },
  {
   "property": "C70",
   "status": "proved",
   "theorems": [
    "C70_effect",
    "C70_first_rate",
    "C70_one_binding",
    "C70_raises",
    "C70_increment_never_refused"
   ],
   "note": ""
  },
  {
   "property": "C71",
   "status": "proved",
   "theorems": [
    "C71_total",
    "C71_total_decrement",
    "C71_any_value"
   ],
   "note": ""
  },
  {
   "property": "C72",
   "status": "proved",
   "theorems": [
    "C72_sampling",
    "C72_draws",
    "C72_values",
    "C72_strings",
    "C72_texts"
   ],
   "note": ""
  },
  {
   "property": "C73",
   "status": "proved",
   "theorems": [
    "C73_served"
   ],
   "note": ""
  },
  {
   "property": "C74",
   "status": "proved",
   "theorems": [
    "C74_accepted",
    "C74_value",
    "C74_plugin_sections",
    "C74_short_option_wins_refuted"
   ],
   "note": "getopt and ConfigParser are represented by their results (the list of option/value pairs, the list of sections); usage errors, defaults, coercion and precedence are the code's."
  },
  {
   "property": "C75",
   "status": "proved",
   "theorems": [
    "C75_position_by_position",
    "C75_all_connected_refuted"
   ],
   "note": ""
  },
  {
   "property": "C76",
   "status": "proved",
   "theorems": [
    "C76_reported_and_reset"
   ],
   "note": ""
  },
  {
   "property": "C77",
   "status": "proved",
   "theorems": [
    "C77_undisturbed",
    "C77_any_schedule",
    "C77_refusal_loses_the_rest_refuted"
   ],
   "note": ""
  },
  {
   "property": "C78",
   "status": "proved",
   "theorems": [
    "C78_error_iff",
    "C78_overrun_noticed_refuted"
   ],
   "note": "Sums are exact (rationals with infinities), rounding of floats is not modelled here."
  },
  {
   "property": "C79",
   "status": "proved",
   "theorems": [
    "C79_every_call",
    "C79_telescope",
    "C79_telescope_exact",
    "C79_float_refuted"
   ],
   "note": ""
  },
  {
   "property": "C80",
   "status": "proved",
   "theorems": [
    "C80_dead"
   ],
   "note": ""
  },
  {
   "property": "C81",
   "status": "proved",
   "theorems": [
    "C81_meminfo",
    "C81_meminfo_raises",
    "C81_loadavg",
    "C81_loadavg_raises",
    "C81_netdev",
    "C81_blank_refuted"
   ],
   "note": ""
  },
  {
   "property": "C82",
   "status": "proved",
   "theorems": [
    "C82_effects",
    "C82_every_history",
    "C82_bare_failure_refuted",
    "C82_wrong_state"
   ],
   "note": ""
  },
  {
   "property": "C83",
   "status": "proved",
   "theorems": [
    "C83_never_fails",
    "C83_not_newer",
    "C83_numbered",
    "C83_one_report",
    "C83_no_other_report",
    "C83_delays"
   ],
   "note": ""
  },
  {
   "property": "C84",
   "status": "proved",
   "theorems": [
    "C84_plugin_first_use",
    "C84_types_do_not_interfere_refuted"
   ],
   "note": ""
  },
  {
   "property": "C85",
   "status": "proved",
   "theorems": [
    "C85_raises",
    "C85_otherwise"
   ],
   "note": ""
  },
  {
   "property": "C86",
   "status": "proved",
   "theorems": [
    "C86_uniform",
    "C86_outcomes",
    "C86_outcomes_once"
   ],
   "note": ""
  },
  {
   "property": "C87",
   "status": "proved",
   "theorems": [
    "C87_one_line_per_connection"
   ],
   "note": "Conditional on the behaviour of Twisted's LineReceiver and reactor, which are not in the repository; the model takes it as a boolean parameter and the theorem is about the value true."
  },
  {
   "property": "C88",
   "status": "proved",
   "theorems": [
    "C88_batch_rejected",
    "C88_type_field"
   ],
   "note": ""
  },
  {
   "property": "C89",
   "status": "proved",
   "theorems": [
    "C89_counts",
    "C89_only"
   ],
   "note": ""
  },
  {
   "property": "C90",
   "status": "proved",
   "theorems": [
    "C90_percpu",
    "C90_one",
    "C90_distinct"
   ],
   "note": ""
  },
  {
   "property": "C91",
   "status": "proved",
   "theorems": [
    "C91_delay_too_short_refuted"
   ],
   "note": ""
  },
  {
   "property": "C92",
   "status": "proved",
   "theorems": [
    "C92_stop_is_final"
   ],
   "note": ""
  },
  {
   "property": "C93",
   "status": "proved",
   "theorems": [
    "C93_history",
    "C93_one_socket",
    "C93_mute",
    "C93_unresolved",
    "C93_name",
    "C93_no_name"
   ],
   "note": ""
  },
  {
   "property": "C94",
   "status": "proved",
   "theorems": [
    "C94_page_exists",
    "C94_final_part",
    "C94_since_flush",
    "C94_flat_fails_refuted",
    "C94_compliant_none_refuted"
   ],
   "note": "Exact rationals for the contents; that the page can always be shown is refuted (equal durations), as is that timers of the compliant processor have pages."
  },
  {
   "property": "C95",
   "status": "proved",
   "theorems": [
    "C95_conservation",
    "C95_all_sent",
    "C95_routed",
    "C95_replies",
    "C95_names"
   ],
   "note": ""
  },
  {
   "property": "C96",
   "status": "proved",
   "theorems": [
    "C96_redirects",
    "C96_not_before",
    "C96_ready",
    "C96_once",
    "C96_told"
   ],
   "note": ""
  },
  {
   "property": "C97",
   "status": "proved",
   "theorems": [
    "C97_long_line",
    "C97_newlines_only"
   ],
   "note": ""
  },
  {
   "property": "C98",
   "status": "proved",
   "theorems": [
    "C98_written",
    "C98_report",
    "C98_all_written",
    "C98_resent",
    "C98_grows",
    "C98_latest",
    "C98_listing"
   ],
   "note": ""
  },
  {
   "property": "C99",
   "status": "proved",
   "theorems": [
    "C99_refines",
    "C99_counters",
    "C99_gauges",
    "C99_bad_counter",
    "C99_names"
   ],
   "note": ""
  },
  {
   "property": "C100",
   "status": "proved",
   "theorems": [
    "C100_outcome",
    "C100_described",
    "C100_starts",
    "C100_short_interval",
    "C100_conservation",
    "C100_routed",
    "C100_configurable_names",
    "C100_configurable_values",
    "C100_dump_mode",
    "C100_dump_compliant",
    "C100_dump_refuted"
   ],
   "note": ""
  },
  {
   "property": "C101",
   "status": "proved",
   "theorems": [
    "C101_blocks",
    "C101_worth",
    "C101_whole_line",
    "C101_counter",
    "C101_conservation",
    "C101_daemon",
    "C101_service",
    "C101_bound_refuted"
   ],
   "note": ""
  },
  {
   "property": "C102",
   "status": "proved",
   "theorems": [
    "C102_memory_cpu",
    "C102_memory_cpu_raises",
    "C102_cpu_times",
    "C102_cpu_dead",
    "C102_io",
    "C102_io_absent",
    "C102_shared",
    "C102_shared_refuted",
    "C102_new_device",
    "C102_file",
    "C102_unreadable",
    "C102_sizes"
   ],
   "note": ""
  },
  {
   "property": "C103",
   "status": "proved",
   "theorems": [
    "C103_conservation",
    "C103_one_daemon",
    "C103_unmentioned",
    "C103_unmentioned_daemon",
    "C103_split_refuted",
    "C103_grown_refuted"
   ],
   "note": ""
  },
  {
   "property": "C104",
   "status": "proved",
   "theorems": [
    "C104_accepted",
    "C104_rules_given",
    "C104_rules_add_up",
    "C104_service",
    "C104_daemon",
    "C104_own_rules_only_refuted",
    "C104_own_series_refuted"
   ],
   "note": "For the statsd-compliant processor. Rules that install something other than a condition (C67_only_conditions_refuted) are excluded by hypothesis. Sums count the whole numbers sent under the name."
  },
  {
   "property": "C105",
   "status": "proved",
   "theorems": [
    "C105_conservation",
    "C105_hands",
    "C105_worth",
    "C105_names",
    "C105_names_refuted"
   ],
   "note": "For the statsd-compliant processor; the daemon's statistics lines are among the events (own). Metrics of plugin types may raise, so what is handed after one is not determined. C105_names_refuted: a rewrite can introduce unsafe characters."
  },
  {
   "property": "C106",
   "status": "proved",
   "theorems": [
    "C106_one_at_a_time",
    "C106_on_the_grid",
    "C106_apart",
    "C106_rate",
    "C106_next",
    "C106_stopped",
    "C106_reported",
    "C106_at_once",
    "C106_restart_refuted"
   ],
   "note": "Times are integers in any unit. LoopingCall is twisted's, modelled from its source. C106_restart_refuted: start while a function of a stopped task is at work."
  },
  {
   "property": "C107",
   "status": "proved",
   "theorems": [
    "C107_one_meaning",
    "C107_text",
    "C107_listing",
    "C107_listing_any",
    "C107_listing_refuted",
    "C107_status",
    "C107_timer",
    "C107_infinite_refuted"
   ],
   "note": "repr of a finite number is any text that is a JSON number. C107_infinite_refuted, C107_listing_refuted: pages that are no JSON, or fail."
  },
  {
   "property": "C108",
   "status": "proved",
   "theorems": [
    "C108_read",
    "C108_one",
    "C108_headless",
    "C108_stray",
    "C108_names",
    "C108_written",
    "C108_value_kept_refuted",
    "C108_rem_refuted"
   ],
   "note": "RawConfigParser of python 2.7's standard library, modelled from its source (Ini.v). C108_value_kept_refuted: a value is cut at a semicolon after a space. C108_rem_refuted: 'rem = 5' is a comment."
  },
  {
   "property": "C109",
   "status": "proved",
   "theorems": [
    "C109_words",
    "C109_one",
    "C109_options",
    "C109_value",
    "C109_bad_file",
    "C109_exits",
    "C109_abbreviation_refuted"
   ],
   "note": "getopt and twisted's usage.Options modelled from their sources (Ini.v). The values themselves are C74. C109_abbreviation_refuted: --conf is refused although it begins only one name, because twisted lists the option twice."
  },
  {
   "property": "C110",
   "status": "proved",
   "theorems": [
    "C110_line",
    "C110_written",
    "C110_udp",
    "C110_udp_up",
    "C110_tcp",
    "C110_tier",
    "C110_copy",
    "C110_tcp_tier",
    "C110_tcp_copy",
    "C110_streams"
   ],
   "note": "The two-tier equations are for exact arithmetic and a second daemon without rules. Over UDP the network does any split into received, lost and copies; over TCP each connection delivers some beginning of what it carried, in any chunks, and texts with CRLF are excluded (C42 shows why)."
  },
  {
   "property": "C111",
   "status": "proved",
   "theorems": [
    "C111_service",
    "C111_outcome",
    "C111_routed",
    "C111_names"
   ],
   "note": ""
  },
  {
   "property": "C112",
   "status": "proved",
   "theorems": [
    "C112_batches",
    "C112_counts",
    "C112_any",
    "C112_daemon",
    "C112_routed",
    "C112_service",
    "C112_percentile_refuted"
   ],
   "note": "C112_batches, C112_counts, C112_daemon, C112_routed and C112_service are for exact arithmetic and durations other than NaN (doubles are C113); C112_daemon for rules that match none of the lines, C112_routed for rules whose results can be written as lines. C112_any is for every arithmetic. C112_percentile_refuted: with percentile 25 two durations can be lost."
  },
  {
   "property": "C113",
   "status": "proved",
   "theorems": [
    "C113_statistics",
    "C113_set_aside",
    "C113_half_refuted",
    "C113_batches",
    "C113_nothing_lost",
    "C113_service"
   ],
   "note": "The mean of a single duration is that duration, as in the code; the mean of several is the rounded quotient of the rounded sum (C15_ordered_in_doubles_refuted shows it can exceed the largest). C113_half_refuted: percentile 30, 45 durations."
  },
  {
   "property": "C114",
   "status": "proved",
   "theorems": [
    "C114_client",
    "C114_conservation",
    "C114_counters",
    "C114_delivered",
    "C114_timings"
   ],
   "note": "Applications use Metrics over TwistedStatsDClient; a connect callback that writes or raises is excluded (C43-C45 treat it). The integer theorems are for Metrics, unsampled, under names without ':' or leading whitespace. Copies are any lines: extra."
  },
  {
   "property": "C115",
   "status": "proved",
   "theorems": [
    "C115_rounds",
    "C115_count",
    "C115_any",
    "C115_daemon",
    "C115_service",
    "C115_clash_refuted"
   ],
   "note": "The closed forms (C115_rounds, C115_count, C115_daemon, C115_service) are for exact arithmetic; C115_any, for every arithmetic, gives the history of marks and reports. C115_daemon is for rules whose results can be written as lines, C115_service for a service without rules. A flush that is abandoned keeps the rest of the report it has begun: this is part of what flushes hold. C115_clash_refuted: a counter named meter.q.count sends its rate under the name of the count of the meter q."
  },
  {
   "property": "C116",
   "status": "proved",
   "theorems": [
    "C116_sent",
    "C116_gauge",
    "C116_daemon",
    "C116_routed",
    "C116_service"
   ],
   "note": "For every arithmetic. The values of counters, timers and meters are C12, C112 and C115. C116_daemon is for rules that match none of the lines, C116_routed for rules whose results can be written as lines, C116_service for a service without rules. A name can have two sources (C116_case: a counter gauge.g.value and a gauge g), so C116_gauge excludes that counter."
  },
  {
   "property": "C117",
   "status": "proved",
   "theorems": [
    "C117_story",
    "C117_count",
    "C117_grows",
    "C117_daemon",
    "C117_service",
    "C117_first_type_refuted"
   ],
   "note": "For every arithmetic; C117_grows for any in which <= is transitive (exact numbers, doubles) and a clock that does not go back. Needs the distinct plugin to be loaded and no line of type sli with the metric's name: the first type a name is used with decides (C117_first_type_refuted)."
  },
  {
   "property": "C118",
   "status": "proved",
   "theorems": [
    "C118_completed",
    "C118_none_left_out",
    "C118_timers",
    "C118_gauge_breaks_refuted",
    "C118_ends",
    "C118_calm_completes"
   ],
   "note": "For every arithmetic; needs a flush interval of at least a second (C11). C118_timers: with exact numbers, none of them NaN, what is sent for a timer are the order statistics of C14. The receive part of the summary is left open (overlapping flushes clear it). C118_ends holds for every unending schedule that resumes the flush again and again; C118_calm_completes is for exact numbers, a finite clock and percentiles 26 to 100."
  },
  {
   "property": "C119",
   "status": "proved",
   "theorems": [
    "C119_completed",
    "C119_none_left_out",
    "C119_refused_refuted",
    "C119_ends"
   ],
   "note": "For every arithmetic, every rule set whose results can be written as lines (the hypothesis on delivers, as in C105), intervals of at least a second. C119_none_left_out: lines no rule matches. C119_refused_refuted: with a refused datapoint the flush ends early. C119_ends holds for any processor and any flush of it."
  }
 ]
}