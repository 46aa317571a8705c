# What Print Assumptions lists for each theorem

Generated by tools/assumptions.py from the compiled files. All axioms below are declared by Coq's standard
library (Reals, Classical_Prop, FunctionalExtensionality, ssr); none is declared in this development.

## Closed under the global context (399 theorems)

C01_normalised, C02_dispatch, C03_malformed, C04_bad_line_only_logged_refuted, C04_raises, C05_counter_fold, C05_counter_sum, C06_timers_recorded, C07_isolation, C08_order_independent, C09_receive_counts, C100_configurable_names, C100_configurable_values, C100_conservation, C100_described, C100_dump_compliant, C100_dump_mode, C100_dump_refuted, C100_outcome, C100_routed, C100_short_interval, C100_starts, C101_blocks, C101_bound_refuted, C101_conservation, C101_counter, C101_daemon, C101_service, C101_whole_line, C101_worth, C102_cpu_dead, C102_cpu_times, C102_file, C102_io, C102_io_absent, C102_memory_cpu, C102_memory_cpu_raises, C102_new_device, C102_shared, C102_shared_refuted, C102_sizes, C102_unreadable, C103_conservation, C103_grown_refuted, C103_one_daemon, C103_split_refuted, C103_unmentioned, C103_unmentioned_daemon, C104_accepted, C104_daemon, C104_own_rules_only_refuted, C104_own_series_refuted, C104_rules_add_up, C104_rules_given, C104_service, C105_conservation, C105_hands, C105_names, C105_names_refuted, C105_worth, C106_apart, C106_at_once, C106_next, C106_on_the_grid, C106_one_at_a_time, C106_rate, C106_reported, C106_restart_refuted, C106_stopped, C107_infinite_refuted, C107_listing, C107_listing_any, C107_listing_refuted, C107_one_meaning, C107_status, C107_text, C107_timer, C108_headless, C108_names, C108_one, C108_read, C108_rem_refuted, C108_stray, C108_value_kept_refuted, C108_written, C109_abbreviation_refuted, C109_bad_file, C109_exits, C109_one, C109_options, C109_value, C109_words, C10_counters_flushed, C10_flush_completes, C110_copy, C110_line, C110_streams, C110_tcp, C110_tcp_copy, C110_tcp_tier, C110_tier, C110_udp, C110_udp_up, C110_written, C111_names, C111_outcome, C111_routed, C111_service, C112_any, C112_batches, C112_counts, C112_daemon, C112_percentile_refuted, C112_routed, C112_service, C113_batches, C113_half_refuted, C113_nothing_lost, C113_service, C113_set_aside, C113_statistics, C114_client, C114_conservation, C114_counters, C114_delivered, C114_timings, C115_any, C115_clash_refuted, C115_count, C115_daemon, C115_rounds, C115_service, C116_daemon, C116_gauge, C116_routed, C116_sent, C116_service, C117_count, C117_daemon, C117_first_type_refuted, C117_grows, C117_service, C117_story, C118_calm_completes, C118_completed, C118_ends, C118_gauge_breaks_refuted, C118_none_left_out, C118_timers, C119_completed, C119_ends, C119_none_left_out, C119_refused_refuted, C11_short_interval, C12_conservation, C13_calm_flush_never_raises, C13_new_counter_aborts, C14_timers_flushed, C15_ordered, C15_ordered_in_doubles_refuted, C16_low_percentile_raises, C16_percentile_total, C17_gauges_resent, C18_exact_reports_never_raise, C18_meter_history, C18_meters_conserve, C19_rate_nonneg, C19_rate_nonneg_in_service_refuted, C20_summary, C21_every_message_reported_refuted, C21_receive_statistics_restart, C22_metric_names, C23_emitted_names, C24_all_series_differ_refuted, C24_series_of_different_kinds, C24_series_of_one_kind, C25_last_value, C25_truncation, C25_truncation_unique, C26_only_counters, C26_raises_iff, C27_last_value, C28_new_timers, C28_timers, C29_internal_prefix, C29_names, C30_log, C30_transparent, C31_dump_mode_compliant_refuted, C31_dump_mode_transparent, C31_second_service_refuted, C32_deterministic, C32_ill_formed, C32_links_kept, C32_no_route, C32_routes, C33_same_data, C33_transparent, C33_transparent_configurable, C34_dropped, C35_conditions, C35_total, C36_glob, C36_literal, C36_no_bracket_is_proper, C37_accepted, C37_rules, C38_fields_kept, C38_set_type_lost_refuted, C38_type_restored, C39_no_service, C39_redirect, C40_frame, C40_received, C40_router_texts, C41_flows_after_resume_refuted, C41_pause, C41_paused_for_ever, C41_reconnect, C42_exact_iff, C42_fields, C42_injection_refuted, C43_callback_writes_refuted, C43_each_event, C43_fifo, C43_order, C43_turns, C44_addressed, C44_nothing_before, C45_bounded, C45_earliest, C46_callbacks, C46_each_once, C47_literal_twice, C47_notifications, C48_lost_refuted, C48_next_connection, C48_no_duplicates, C48_only_written, C48_ready_writes, C48_stranded_refuted, C49_constructor, C49_failed_add, C49_ring_complete, C50_clockwise_successor, C50_history_free, C51_adding, C51_removing, C52_all_nodes_refuted, C52_consequences, C52_empty, C52_preference, C53_connect, C53_init, C53_one_backend, C53_stable, C53_unnamed, C54_between_the_interval_rates, C54_moving_average, C54_updates_add_up, C55_reservoir, C57_negative_values_refuted, C57_timers_never_hit_the_sentinel, C57_variance, C58_extrema, C59_bounded_and_monotone, C59_percentiles, C60_histogram, C61_report_always_fails, C61_report_is_a_type_error, C62_hash_32_bits, C62_one_bucket_per_hash, C62_reachable_are_well_formed, C62_zeros, C63_doubles, C63_more_items_more_estimate, C63_only_the_set_matters, C63_windows_nest, C63_windows_nest_early_refuted, C64_at_least_one, C64_empty_window_is_one, C65_rejected, C66_conditions, C66_counts_bounded, C66_rejected_samples_leave_no_trace, C66_samples, C66_sli_history, C67_accepted_texts, C67_bad_line, C67_configured_metric, C67_last_rule_wins, C67_only_conditions_refuted, C68_decimal, C68_exact, C68_integers, C68_other_kinds, C68_sampled, C68_text, C69_messages, C69_qualified, C70_effect, C70_first_rate, C70_increment_never_refused, C70_one_binding, C70_raises, C71_any_value, C71_total, C71_total_decrement, C72_draws, C72_sampling, C72_strings, C72_texts, C72_values, C73_served, C74_accepted, C74_plugin_sections, C74_short_option_wins_refuted, C74_value, C75_all_connected_refuted, C75_position_by_position, C76_reported_and_reset, C77_any_schedule, C77_refusal_loses_the_rest_refuted, C77_undisturbed, C78_error_iff, C78_overrun_noticed_refuted, C79_every_call, C79_float_refuted, C79_telescope, C79_telescope_exact, C80_dead, C81_blank_refuted, C81_loadavg, C81_loadavg_raises, C81_meminfo, C81_meminfo_raises, C81_netdev, C82_bare_failure_refuted, C82_effects, C82_every_history, C82_wrong_state, C83_delays, C83_never_fails, C83_no_other_report, C83_not_newer, C83_numbered, C83_one_report, C84_plugin_first_use, C84_types_do_not_interfere_refuted, C85_otherwise, C85_raises, C86_outcomes, C86_outcomes_once, C86_uniform, C87_one_line_per_connection, C88_batch_rejected, C88_type_field, C89_counts, C89_only, C90_distinct, C90_one, C90_percpu, C91_delay_too_short_refuted, C92_stop_is_final, C93_history, C93_mute, C93_name, C93_no_name, C93_one_socket, C93_unresolved, C94_compliant_none_refuted, C94_final_part, C94_flat_fails_refuted, C94_page_exists, C94_since_flush, C95_all_sent, C95_conservation, C95_names, C95_replies, C95_routed, C96_not_before, C96_once, C96_ready, C96_redirects, C96_told, C97_long_line, C97_newlines_only, C98_all_written, C98_grows, C98_latest, C98_listing, C98_report, C98_resent, C98_written, C99_bad_counter, C99_counters, C99_gauges, C99_names, C99_refines.

## 3 axioms (2 theorems)

Axioms: `ClassicalDedekindReals.sig_forall_dec`, `ClassicalDedekindReals.sig_not_dec`, `FunctionalExtensionality.functional_extensionality_dep`.

C56_decaying_reservoir, C56_random_zero.
