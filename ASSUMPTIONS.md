# Print Assumptions of every claimed theorem

Written by tools/assumptions.py.

| property | theorem | assumptions |
|---|---|---|
| C01 | P_Labels.C01_label_injective_refuted | Closed under the global context |
| C01 | P_Labels.C01_label_collision_exactly | Closed under the global context |
| C01 | P_Labels.C01_label_injective_partial | Closed under the global context |
| C01 | P_Labels.C01_valueless_labels_injective | Closed under the global context |
| C02 | P_Labels.C02_signal_and_prefix_recoverable | Closed under the global context |
| C03 | P_Translate.C03_keyspaces_disjoint | Closed under the global context |
| C03 | P_Translate.C03_keyspaces_disjoint_production | Closed under the global context |
| C04 | P_Labels.C04_sample_keys_unique | Closed under the global context |
| C04 | P_Labels.C04_sample_prefix_exact | Closed under the global context |
| C05 | P_Sequence.C05_sample_ids_strictly_increasing | Closed under the global context |
| C05 | P_Sequence.C05_sample_ids_unique | Closed under the global context |
| C06 | P_Translate.C06_column_ids_stable_and_distinct | Closed under the global context |
| C07 | P_Translate.C07_ids_translate_back | Closed under the global context |
| C07 | P_Translate.C07_reverse_lookup_exact | Closed under the global context |
| C07 | P_Translate.C07_many_ids_translate_back | Closed under the global context |
| C07 | P_Translate.C07_unknown_id_is_an_error | Closed under the global context |
| C08 | P_Translate.C08_find_agrees_with_translate | Closed under the global context |
| C08 | P_Translate.C08_find_has_no_effect | Closed under the global context |
| C09 | P_Translate.C09_production_ids_repeat | Closed under the global context |
| C09 | P_Translate.C09_production_ids_distinct_refuted | Closed under the global context |
| C10 | P_Translate.C10_cache_transparent_partial | Closed under the global context |
| C10 | P_Translate.C10_cache_transparent_refuted | Closed under the global context |
| C11 | P_Time.C11_dates_are_gregorian | Closed under the global context |
| C11 | P_Time.C11_views_identify_calendar_units | Closed under the global context |
| C12 | P_Time.C12_four_nested_views | Closed under the global context |
| C12 | P_Time.C12_no_overlap_between_units | Closed under the global context |
| C13 | P_Time.C13_granularity | Closed under the global context |
| C13 | P_Time.C13_search_granularity | Closed under the global context |
| C14 | P_Time.C14_explicit_range_as_given | Closed under the global context |
| C14 | P_Time.C14_default_window | Closed under the global context |
| C15 | P_Time.C15_search_terminates | Closed under the global context |
| C15 | P_Time.C15_hour_windows_exact | Closed under the global context |
| C15 | P_Time.C15_day_windows_exact | Closed under the global context |
| C15 | P_Time.C15_month_windows_exact | Closed under the global context |
| C15 | P_Time.C15_year_windows_exact | Closed under the global context |
| C15 | P_Time.C15_search_sound | Closed under the global context |
| C15 | P_Time.C15_covers_window_partial | Closed under the global context |
| C15 | P_Time.C15_search_incomplete_refuted | Closed under the global context |
| C15 | P_Time.C15_default_window_misses_new_hour_refuted | Closed under the global context |
| C16 | P_Time.C16_position_roundtrip | Closed under the global context |
| C16 | P_Time.C16_position_injective_in_shard | Closed under the global context |
| C16 | P_Time.C16_positions_wrap | Closed under the global context |
| C17 | P_Transform.C17_time_span_exact | Closed under the global context |
| C17 | P_Transform.C17_time_span_order_independent | Closed under the global context |
| C18 | P_Transform.C18_zero_timestamps_refuted | Closed under the global context |
| C18 | P_Transform.C18_zero_timestamps_exact | Closed under the global context |
| C18 | P_Transform.C18_zero_timestamps_partial | Closed under the global context |
| C19 | P_Transform.C19_documented_labels_indexed | Closed under the global context |
| C19 | P_Transform.C19_each_label_has_its_column | Closed under the global context |
| C19 | P_Transform.C19_documented_labels_indexed_kv | Closed under the global context |
| C20 | P_Transform.C20_marker_exact | Closed under the global context |
| C20 | P_Transform.C20_every_sample_marked_refuted | Closed under the global context |
| C20 | P_Transform.C20_every_sample_marked_partial | Closed under the global context |
| C21 | P_Transform.C21_independent_of_history | Closed under the global context |
| C22 | P_Batch.C22_batch_exact | Closed under the global context |
| C22 | P_Batch.C22_batch_bit_iff_recorded | Closed under the global context |
| C23 | P_Shards.C23_single_shard_lookup_exact | Closed under the global context |
| C24 | P_Shards.C24_lookup_exact | Closed under the global context |
| C24 | P_Shards.C24_lookup_across_shards_partial | Closed under the global context |
| C24 | P_Shards.C24_lookup_complete | Closed under the global context |
| C24 | P_Shards.C24_lookup_across_shards_refuted | Closed under the global context |
| C25 | P_Shards.C25_lookup_order_irrelevant | Closed under the global context |
| C26 | P_Shards.C26_lookup_after_restart_is_empty_refuted | Closed under the global context |
| C26 | P_Shards.C26_lookup_after_reopening_partial | Closed under the global context |
| C27 | P_Shards.C27_update_all_or_nothing | Closed under the global context |
| C27 | P_Shards.C27_update_arbitrary_callback | Closed under the global context |
| C28 | P_Shards.C28_row_exact | Closed under the global context |
| C28 | P_Store.C28_labels_exact | Closed under the global context |
| C28 | P_Store.C28_labels_read_back_partial | Closed under the global context |
| C28 | P_Store.C28_labels_after_restart_refuted | Closed under the global context |
| C29 | P_Dataframe.C29_row_numbers_exact | Closed under the global context |
| C29 | P_Dataframe.C29_row_number_is_id_refuted | Closed under the global context |
| C29 | P_Dataframe.C29_row_number_is_id_partial | Closed under the global context |
| C30 | P_Dataframe.C30_anchored_views_aligned | Closed under the global context |
| C31 | P_Dataframe.C31_membership_exact | Closed under the global context |
| C31 | P_Dataframe.C31_membership_disjoint | Closed under the global context |
| C32 | P_Dataframe.C32_reading_stays_in_signal | Closed under the global context |
| C32 | P_Dataframe.C32_read_errors | Closed under the global context |
| C33 | P_Dataframe.C33_interrupted_flush | Closed under the global context |
| C34 | P_Store.C34_filters_are_a_conjunction | Closed under the global context |
| C34 | P_Store.C34_failures | Closed under the global context |
| C34 | P_Store.C34_unknown_label_matches_nothing | Closed under the global context |
| C35 | P_Store.C35_rows_are_stored_samples_partial | Closed under the global context |
| C35 | P_Store.C35_scan_sound_partial | Closed under the global context |
| C35 | P_Store.C35_scan_sound_refuted | Closed under the global context |
| C35 | P_Store.C35_two_shards_refuted | Closed under the global context |
| C36 | P_Store.C36_scan_complete_partial | Closed under the global context |
| C36 | P_Store.C36_scan_range_complete_partial | Closed under the global context |
| C36 | P_Store.C36_scan_after_restart_is_empty_refuted | Closed under the global context |
| C36 | P_Store.C36_unfiltered_scan_misses_refuted | Closed under the global context |
| C37 | P_Store.C37_instant_scan_partial | Closed under the global context |
| C37 | P_Instant.C37_instant_answer_partial | Closed under the global context |
| C37 | P_Instant.C37_newest_refuted | Closed under the global context |
| C37 | P_Instant.C37_late_sample_hides_refuted | Closed under the global context |
| C38 | P_Store.C38_limit_and_reverse_ignored_refuted | Closed under the global context |
| C39 | P_Store.C39_index_errors_reported_partial | Closed under the global context |
| C39 | P_Store.C39_frame_errors_swallowed_refuted | Closed under the global context |
| C40 | P_Store.C40_no_match_is_empty_container_partial | Closed under the global context |
| C40 | P_Store.C40_nothing_saved_matches_partial | Closed under the global context |
| C40 | P_Store.C40_no_match_may_be_nil_refuted | Closed under the global context |
| C41 | P_Store.C41_index_never_ahead_of_data | Closed under the global context |
| C42 | P_Store.C42_saving_only_adds | Closed under the global context |
| C43 | P_Service.C43_handed_over_exactly_once | Closed under the global context |
| C43 | P_Service.C43_nothing_else_is_handed_over | Closed under the global context |
| C43 | P_Service.C43_next_flush_hands_over | Closed under the global context |
| C44 | P_Service.C44_survives_shutdown_refuted | Closed under the global context |
| C44 | P_Service.C44_buffer_is_lost_at_shutdown | Closed under the global context |
| C44 | P_Service.C44_failed_save_is_not_repeated | Closed under the global context |
| C44 | P_Service.C44_flushing_until_interrupted | Closed under the global context |
| C44 | P_Service.C44_survives_if_flushed_partial | Closed under the global context |
| C45 | P_Service.C45_own_signal | Closed under the global context |
| C46 | P_Visit.C46_what_remains | Closed under the global context |
| C46 | P_Visit.C46_matching_records_remain_partial | Closed under the global context |
| C47 | P_Visit.C47_tested_on_the_scope | Closed under the global context |
| C47 | P_Visit.C47_attribute_conditions_refuted | Closed under the global context |
| C48 | P_Visit.C48_parent_condition_refuted | Closed under the global context |
| C48 | P_Visit.C48_span_condition_refuted | Closed under the global context |
| C48 | P_Visit.C48_span_condition_is_ignored | Closed under the global context |
| C48 | P_Visit.C48_what_is_tested | Closed under the global context |
| C49 | P_Visit.C49_descriptive_fields_refuted | Closed under the global context |
| C49 | P_Visit.C49_other_fields_survive_partial | Closed under the global context |
| C50 | P_Visit.C50_no_condition_no_change | Closed under the global context |
| C50 | P_Visit.C50_half_open_partial | Closed under the global context |
| C50 | P_Visit.C50_range_before_1970_refuted | Closed under the global context |
| C51 | P_Visit.C51_subset_matching_partial | Closed under the global context |
| C51 | P_Visit.C51_long_attribute_refuted | Closed under the global context |
| C51 | P_Visit.C51_equals_sign_refuted | Closed under the global context |
| C52 | P_Collapse.C52_merge_loses_nothing | Closed under the global context |
| C52 | P_Collapse.C52_metrics_merge_keeps_points | Closed under the global context |
| C52 | P_Collapse.C52_metrics_keep_every_point | Closed under the global context |
| C52 | P_Collapse.C52_logs_keep_every_record | Closed under the global context |
| C52 | P_Collapse.C52_traces_keep_every_span | Closed under the global context |
| C52 | P_Collapse.C52_blank_rows_refuted | Closed under the global context |
| C53 | P_Collapse.C53_result_order | Closed under the global context |
| C53 | P_Collapse.C53_merge_deterministic | Closed under the global context |
| C54 | P_Collapse.C54_scopes_merged_refuted | Closed under the global context |
| C54 | P_Collapse.C54_scopes_kept_apart_partial | Closed under the global context |
| C54 | P_Collapse.C54_span_scopes_kept_apart_partial | Closed under the global context |
| C54 | P_Collapse.C54_metric_scopes_kept_apart_partial | Closed under the global context |
| C55 | P_Collapse.C55_kind_conflict_panics_refuted | Closed under the global context |
| C55 | P_Collapse.C55_dataless_metric_panics_refuted | Closed under the global context |
| C55 | P_Collapse.C55_logs_and_traces_always_merge | Closed under the global context |
| C55 | P_Collapse.C55_consistent_metrics_merge_partial | Closed under the global context |
| C56 | P_Rows.C56_row_intersect_is_set_intersection | Closed under the global context |
| C56 | P_Rows.C56_row_union_is_set_union | Closed under the global context |
| C56 | P_Rows.C56_row_difference_is_set_difference | Closed under the global context |
| C56 | P_Rows.C56_row_xor_is_symmetric_difference | Closed under the global context |
| C56 | P_Rows.C56_row_merge_is_set_union | Closed under the global context |
| C56 | P_Rows.C56_row_count_is_cardinality | Closed under the global context |
| C57 | P_Rows.C57_row_from_columns | Closed under the global context |
| C57 | P_Rows.C57_row_from_bitmap | Closed under the global context |
| C57 | P_Rows.C57_row_set_adds_one_column | Closed under the global context |
| C57 | P_Rows.C57_set_tells_whether_the_column_was_new | Closed under the global context |
| C57 | P_Rows.C57_row_observations_agree | Closed under the global context |
| C57 | P_Rows.C57_row_from_bitmap_last_shard_refuted | Closed under the global context |
| C58 | P_Bsi.C58_pivot_descending | Closed under the global context |
| C58 | P_Bsi.C58_65_slices_refuted | Closed under the global context |
| C59 | P_Bsi.C59_row_builder | Closed under the global context |
| C59 | P_Bsi.C59_row_builder_sequential | Closed under the global context |
| C59 | P_Bsi.C59_bsi_builder | Closed under the global context |
| C59 | P_Bsi.C59_duplicates_refuted | Closed under the global context |
| C60 | P_Arena.C60_slice_exact | Closed under the global context |
| C60 | P_Arena.C60_slice_stable | Closed under the global context |
| C60 | P_Arena.C60_release_forgets | Closed under the global context |
| C60 | P_Arena.C60_dataframe_use | Closed under the global context |
| C60 | P_Arena.C60_two_writers_refuted | Closed under the global context |
| C60 | P_Arena.C60_after_release_refuted | Closed under the global context |
| C61 | P_Arrow.C61_round_trip | Closed under the global context |
| C61 | P_Arrow.C61_nothing_lost | Closed under the global context |
| C61 | P_Arrow.C61_refused_when_too_deep | Closed under the global context |
| C61 | P_Arrow.C61_marshal_failure_refuted | Closed under the global context |
| C61 | P_Arrow.C61_list_failure_refuted | Closed under the global context |
| C62 | P_SelfMetrics.C62_converted_or_reported | Closed under the global context |
| C62 | P_SelfMetrics.C62_nothing_lost | Closed under the global context |
| C62 | P_SelfMetrics.C62_nothing_added | Closed under the global context |
| C62 | P_SelfMetrics.C62_points_same | Closed under the global context |
| C62 | P_SelfMetrics.C62_sums_nearest | Closed under the global context |
| C62 | P_SelfMetrics.C62_small_sums_exact | Closed under the global context |
| C62 | P_SelfMetrics.C62_export_complete_partial | Closed under the global context |
| C62 | P_SelfMetrics.C62_large_sums_refuted | Closed under the global context |
| C62 | P_SelfMetrics.C62_export_drops_all_refuted | Closed under the global context |
| C62 | P_SelfMetrics.C62_zero_threshold_refuted | Closed under the global context |
| C63 | P_Self.C63_every_span_once | Closed under the global context |
| C63 | P_Self.C63_grouping | Closed under the global context |
| C63 | P_Self.C63_fields_kept | Closed under the global context |
| C63 | P_Self.C63_fields_same | Closed under the global context |
| C63 | P_Self.C63_nothing_added | Closed under the global context |
| C63 | P_Self.C63_schema_url_lost_refuted | Closed under the global context |
| C63 | P_Self.C63_link_state_lost_refuted | Closed under the global context |
| C64 | P_Script.C64_conditions_in_call_order | Closed under the global context |
| C64 | P_Script.C64_fails_only_on_bad_duration | Closed under the global context |
| C64 | P_Script.C64_last_setting_wins | Closed under the global context |
| C64 | P_Script.C64_times_well_formed | Closed under the global context |
| C64 | P_Script.C64_default_window | Closed under the global context |
| C64 | P_Script.C71_window_of_last_call | Closed under the global context |
| C64 | P_Script.C64_now_is_ignored_refuted | Closed under the global context |
| C65 | P_Cache.C65_memory_cache_partial | Closed under the global context |
| C65 | P_Cache.C65_disk_cache_partial | Closed under the global context |
| C65 | P_Cache.C65_failed_bundle_not_cached | Closed under the global context |
| C65 | P_Cache.C65_memory_collision_refuted | Closed under the global context |
| C65 | P_Cache.C65_disk_collision_refuted | Closed under the global context |
| C65 | P_Hash.XXH64_published_vectors | Closed under the global context |
| C66 | P_Collapse.C66_metadata_kept_partial | Closed under the global context |
| C66 | P_Collapse.C66_metadata_of_later_rows_lost_refuted | Closed under the global context |
| C67 | P_EndToEnd.C67_scan_delivers_partial | Closed under the global context |
| C68 | P_Visit.C68_trimming_does_not_crash_partial | Closed under the global context |
| C68 | P_Visit.C68_crashes_exactly | Closed under the global context |
| C68 | P_Visit.C68_attribute_without_value_refuted | Closed under the global context |
| C68 | P_Visit.C68_nothing_found_refuted | Closed under the global context |
| C69 | P_Service.C69_clients_are_served_while_saving | Closed under the global context |
| C69 | P_Service.C69_clients_are_served_unless_ids_fail | Closed under the global context |
| C69 | P_Service.C69_save_runs_without_the_mutex | Closed under the global context |
| C69 | P_Service.C69_failed_id_ends_the_process | Closed under the global context |
| C70 | P_Bsi.C70_sum | Closed under the global context |
| C70 | P_Bsi.C70_sums_come_back | Closed under the global context |
| C71 | P_Script.C71_window_of_last_call | Closed under the global context |
| C72 | P_Cache.C72_other_sources_unharmed_partial | Closed under the global context |
| C72 | P_Cache.C72_truncated_program_runs_refuted | Closed under the global context |
| C72 | P_Cache.C72_stale_bundle_refuted | Closed under the global context |
| C72 | P_Cache.C65_disk_cache_partial | Closed under the global context |
| C73 | P_Concurrent.C73_scan_is_atomic_partial | Closed under the global context |
| C73 | P_Concurrent.C73_scan_across_shards_partial | Closed under the global context |
| C73 | P_Concurrent.C73_client_sees_one_instant_partial | Closed under the global context |
| C73 | P_Concurrent.C73_quiet_scan | Closed under the global context |
| C73 | P_Concurrent.C73_save_passes_instants | Closed under the global context |
| C73 | P_Concurrent.C73_two_shards_refuted | Closed under the global context |
| C74 | P_Codec.C74_codec_is_private | Closed under the global context |
| C74 | P_Codec.C74_pool_is_clean | Closed under the global context |
| C74 | P_Codec.C74_crash_only_after_the_end | Closed under the global context |
| C74 | P_Codec.C74_reading_on_crashes_refuted | Closed under the global context |
| C75 | P_Find.C75_production_lookups_do_not_interfere | Closed under the global context |
| C75 | P_Find.C75_lookups_do_not_interfere_partial | Closed under the global context |
| C75 | P_Find.C75_spare_capacity_refuted | Closed under the global context |
| C76 | P_OpenShards.C76_opened_once_partial | Closed under the global context |
| C76 | P_OpenShards.C76_two_callers_refuted | Closed under the global context |
| C77 | P_Render.C77_text_follows_the_notation | Closed under the global context |
| C77 | P_Render.C77_strings_are_quoted | Closed under the global context |
| C77 | P_Render.C77_quoted_function | Closed under the global context |
| C77 | P_Render.C77_printed_iff_complete | Closed under the global context |
| C77 | P_Render.C77_plain_attributes_told_apart | Closed under the global context |
| C77 | P_Render.C77_all_told_apart_refuted | Closed under the global context |
| C78 | P_Render.C78_exact_text | Closed under the global context |
| C78 | P_Render.C78_every_number_point_is_shown | Closed under the global context |
| C78 | P_Render.C78_texts_exist | Closed under the global context |
| C78 | P_Render.C78_time_of_a_point | Closed under the global context |
| C78 | P_Render.C78_same_time_iff_same_second | Closed under the global context |
| C78 | P_Render.C78_all_points_shown_refuted | Closed under the global context |
| C78 | P_Render.C78_integers_exact_refuted | Closed under the global context |
| C78 | P_Render.C78_always_printed_refuted | Closed under the global context |
| C79 | P_Flatten.C79_one_row_per_point | Closed under the global context |
| C79 | P_Flatten.C79_own_number | Closed under the global context |
| C79 | P_Flatten.C79_ids | Closed under the global context |
| C79 | P_Flatten.C79_missing_number_refuted | Closed under the global context |
| C79 | P_Flatten.C79_integers_exact_refuted | Closed under the global context |
| C80 | P_Flatten.C80_index_exact | Closed under the global context |
| C80 | P_Flatten.C80_lookup | Closed under the global context |
| C80 | P_Flatten.C80_resource_labels_refuted | Closed under the global context |
| C80 | P_Flatten.C80_columns_alias_refuted | Closed under the global context |
| C81 | P_Flatten.C81_same_series_same_hash | Closed under the global context |
| C81 | P_Flatten.C81_different_series_refuted | Closed under the global context |
| C82 | P_Once.C82_exact_answer_partial | Closed under the global context |
| C82 | P_Query.C82_matching_records_returned_partial | Closed under the global context |
| C82 | P_Query.C82_matching_records_in_window_partial | Closed under the global context |
| C82 | P_Query.C82_only_matching_records_partial | Closed under the global context |
| C82 | P_Query.C82_later_record_refuted | Closed under the global context |
| C82 | P_Query.C82_upper_case_id_refuted | Closed under the global context |
| C82 | P_Query.C82_two_names_refuted | Closed under the global context |
| C83 | P_Once.C83_no_sample_twice | Closed under the global context |
| C84 | P_Serving.C84_answered_then_found_partial | Closed under the global context |
| C84 | P_Serving.C84_found_then_answered_partial | Closed under the global context |
| C84 | P_Serving.C84_exact_answer_partial | Closed under the global context |
| C85 | P_Home.C85_where_files_are | Closed under the global context |
| C85 | P_Home.C85_nothing_inside_another | Closed under the global context |
| C85 | P_Home.C85_homes_apart | Closed under the global context |
| C85 | P_Home.C85_programs_apart | Closed under the global context |
| C85 | P_Home.C85_absolute_is_stable | Closed under the global context |
| C86 | P_Duration.C86_means_the_sum | Closed under the global context |
| C86 | P_Duration.C86_whole_numbers | Closed under the global context |
| C86 | P_Duration.C86_fractions | Closed under the global context |
| C86 | P_Duration.C86_only_durations | Closed under the global context |
| C86 | P_Duration.C86_printed_is_read_back | Closed under the global context |
| C86 | P_Duration.C86_ago_asks_for_that_long | Closed under the global context |
| C86 | P_Duration.C86_latest_is_fifteen_minutes | Closed under the global context |
| C86 | P_Duration.C86_overflow_accepted_refuted | Closed under the global context |
| C87 | P_Duration.C87_integers_shown_exactly | Closed under the global context |
| C87 | P_Duration.C87_shown_value_means_the_value | Closed under the global context |
| C87 | P_Duration.C87_shown_values_differ | Closed under the global context |
| C87 | P_Duration.C87_any_double_shown_closely | Closed under the global context |
| C88 | P_Pool.C88_visitors | Closed under the global context |
| C88 | P_Pool.C88_scan_answer | Closed under the global context |
| C88 | P_Pool.C88_labels | Closed under the global context |
| C88 | P_Pool.C88_keys | Closed under the global context |
| C88 | P_Pool.C88_bitmaps | Closed under the global context |
| C88 | P_Pool.C88_times | Closed under the global context |
| C88 | P_Pool.C88_merges | Closed under the global context |
| C88 | P_Pool.C88_buffers | Closed under the global context |
| C88 | P_Pool.C88_buffer_text | Closed under the global context |
| C88 | P_Pool.C88_columns_partial | Closed under the global context |
| C88 | P_Pool.C88_engines_partial | Closed under the global context |
| C88 | P_Pool.C88_engines_refuted | Closed under the global context |
| C88 | P_Pool.C88_columns_refuted | Closed under the global context |
| C88 | P_Pool.C88_label_text | Closed under the global context |
| C88 | P_Pool.C88_key_text | Closed under the global context |
| C88 | P_Pool.C88_bitmap_says | Closed under the global context |
| C88 | P_Pool.C88_engine_has_what_was_set | Closed under the global context |
| C89 | P_RowHeap.C89_rows_are_values_partial | Closed under the global context |
| C89 | P_RowHeap.C89_clones_are_independent | Closed under the global context |
| C89 | P_RowHeap.C89_server_rows_are_careful | Closed under the global context |
| C89 | P_RowHeap.C89_union_shares_refuted | Closed under the global context |
| C89 | P_RowHeap.C89_xor_shares_refuted | Closed under the global context |
| C89 | P_RowHeap.C89_difference_shares_refuted | Closed under the global context |
| C89 | P_RowHeap.C89_merge_shares_refuted | Closed under the global context |
| C89 | P_RowHeap.C89_freeze_does_not_protect_refuted | Closed under the global context |
| C90 | P_RowTable.C90_shift_moves_every_column | Closed under the global context |
| C90 | P_RowTable.C90_shift_by_nothing | Closed under the global context |
| C90 | P_RowTable.C90_shifts_add | Closed under the global context |
| C90 | P_RowTable.C90_shift_within_shards_partial | Closed under the global context |
| C90 | P_RowTable.C90_shift_over_the_edge_refuted | Closed under the global context |
| C91 | P_RowTable.C91_table_shows_the_row | Closed under the global context |
| C91 | P_RowTable.C91_columns_table | Closed under the global context |
| C91 | P_RowTable.C91_results_show_the_row | Closed under the global context |
| C91 | P_RowTable.C91_delivery | Closed under the global context |
| C91 | P_RowTable.C91_clone_partial | Closed under the global context |
| C91 | P_RowTable.C91_clone_refuted | Closed under the global context |
| C91 | P_RowTable.C91_float_cells_refuted | Closed under the global context |
| C91 | P_RowTable.C91_cell_readers | Closed under the global context |
| C92 | P_Errors.C92_is_finds_exactly_what_is_inside | Closed under the global context |
| C92 | P_Errors.C92_collecting_keeps_everything | Closed under the global context |
| C92 | P_Errors.C92_error_iff_culprit | Closed under the global context |
| C92 | P_Errors.C92_error_names_every_culprit | Closed under the global context |
| C92 | P_Errors.C92_reasons_found | Closed under the global context |
| C92 | P_Errors.C92_shutdown_stops_everything | Closed under the global context |
| C93 | P_Table.C93_rows_read_back | Closed under the global context |
| C93 | P_Table.C93_views_are_their_rows | Closed under the global context |
| C93 | P_Table.C93_columns_of_a_signal | Closed under the global context |
| C94 | P_Server.C94_start_and_stop | Closed under the global context |
| C94 | P_Server.C94_open_parts_have_what_they_need | Closed under the global context |
| C94 | P_Server.C94_closed_at_exit_refuted | Closed under the global context |
| C94 | P_Server.C94_numbers_skipped | Closed under the global context |
| C94 | P_Server.C94_no_closed_part_is_used_partial | Closed under the global context |
| C94 | P_Server.C94_closed_part_used_refuted | Closed under the global context |
| C94 | P_Server.C94_stop_reports_success_refuted | Closed under the global context |
| C94 | P_Server.C94_orderly_stop_possible | Closed under the global context |
| C94 | P_Server.C94_requests_finished_partial | Closed under the global context |
| C94 | P_Server.C94_request_in_flight_refuted | Closed under the global context |
| C94 | P_Server.C94_numbers_after_stop | Closed under the global context |
| C94 | P_Server.C94_query_in_flight_refuted | Closed under the global context |
| C95 | P_Own.C95_own_spans_found_partial | Closed under the global context |
| C95 | P_Own.C95_own_points_found_partial | Closed under the global context |
| C96 | P_Asked.C96_gets_what_it_says_partial | Closed under the global context |
| C96 | P_Asked.C96_today_partial | Closed under the global context |
| C96 | P_Asked.C96_this_week_partial | Closed under the global context |
| C96 | P_Asked.C96_latest_partial | Closed under the global context |
| C96 | P_Asked.C96_throws_only_on_bad_duration | Closed under the global context |
| C96 | P_Asked.C96_throws_exactly | Closed under the global context |
| C96 | P_Asked.C96_latest_refuted | Closed under the global context |
| C96 | P_Asked.C96_this_week_refuted | Closed under the global context |
| C96 | P_Asked.C96_attr_refuted | Closed under the global context |
| C97 | P_Compile.C97_own_program_partial | Closed under the global context |
| C97 | P_Compile.C97_never_another_script | Closed under the global context |
| C97 | P_Compile.C97_others_untouched | Closed under the global context |
| C97 | P_Compile.C97_nothing_left_partial | Closed under the global context |
| C97 | P_Compile.C97_directory_left_refuted | Closed under the global context |
| C97 | P_Compile.C97_same_script_refuted | Closed under the global context |
| C98 | P_Restart.C98_every_history_partial | Closed under the global context |
| C98 | P_Restart.C98_found_again_partial | Closed under the global context |
| C98 | P_Restart.C98_exact_answer_partial | Closed under the global context |
| C98 | P_Restart.C98_across_processes_partial | Closed under the global context |
| C98 | P_Restart.C98_nothing_until_a_save_refuted | Closed under the global context |
| C98 | P_Restart.C98_one_save_not_enough_refuted | Closed under the global context |
| C99 | P_Wiring.C99_no_difference_partial | Closed under the global context |
| C99 | P_Wiring.C99_exact_answer_partial | Closed under the global context |
| C99 | P_Wiring.C99_equal_hashes_refuted | Closed under the global context |
| C100 | P_Displaced.C100_only_what_was_sent_partial | Closed under the global context |
| C100 | P_Displaced.C100_exact_answer_partial | Closed under the global context |
| C100 | P_Displaced.C100_found_again_partial | Closed under the global context |
| C100 | P_Displaced.C100_as_wired_partial | Closed under the global context |
| C100 | P_Displaced.C100_answers_nothing_refuted | Closed under the global context |
| C100 | P_Displaced.C100_fails_after_first_flush_refuted | Closed under the global context |
| C101 | P_Many.C101_labels_keep_their_columns | Closed under the global context |
| C101 | P_Many.C101_exact_answer_partial | Closed under the global context |
| C101 | P_Many.C101_only_what_was_sent_partial | Closed under the global context |
| C101 | P_Many.C101_columns_are_shared | Closed under the global context |
| C102 | P_AsBuilt.C102_gets_where_it_looks_partial | Closed under the global context |
| C102 | P_AsBuilt.C102_end_of_month_refuted | Closed under the global context |
| C102 | P_AsBuilt.C102_end_of_year_refuted | Closed under the global context |
| C102 | P_Minutes.C102_current_hour | Closed under the global context |
| C102 | P_Minutes.C102_current_hour_refuted | Closed under the global context |
| C102 | P_Minutes.C102_latest_blind_quarter | Closed under the global context |
| C102 | P_Minutes.C102_half_hour_zones | Closed under the global context |
| C103 | P_RowJson.C103_json_says_the_row_partial | Closed under the global context |
| C103 | P_RowJson.C103_json_determines_the_row | Closed under the global context |
| C103 | P_RowJson.C103_json_of_the_set | Closed under the global context |
| C103 | P_RowJson.C103_other_keys_refuted | Closed under the global context |
| C104 | P_Zone.C104_window_of_last_call_partial | Closed under the global context |
| C104 | P_Zone.C104_one_offset | Closed under the global context |
| C104 | P_Zone.C104_skipped_midnight_refuted | Closed under the global context |
| C104 | P_Zone.C104_week_refuted | Closed under the global context |
| C105 | P_ZonedScript.C105_gets_where_it_looks_partial | Closed under the global context |
| C105 | P_Minutes.C105_current_hour_refuted | Closed under the global context |
| C106 | P_Retry.C106_returns | Closed under the global context |
| C106 | P_Retry.C106_last_attempt | Closed under the global context |
| C106 | P_Retry.C106_patience | Closed under the global context |
| C106 | P_Retry.C106_no_memory | Closed under the global context |
| C107 | P_WindowsHome.C107_windows_home | Closed under the global context |
| C107 | P_WindowsHome.C107_one_answer | Closed under the global context |
| C108 | P_LogLevel.C108_prints_what_was_asked_partial | Closed under the global context |
| C108 | P_LogLevel.C108_one_level | Closed under the global context |
| C108 | P_LogLevel.C108_otherwise_info | Closed under the global context |
| C108 | P_LogLevel.C108_database_messages | Closed under the global context |
| C108 | P_LogLevel.C108_database_log | Closed under the global context |
| C108 | P_LogLevel.C108_overflow_refuted | Closed under the global context |
| C108 | P_LogLevel.C108_warning_is_info | Closed under the global context |
| C109 | P_Retention.C109_answered_at_any_age_partial | Closed under the global context |
| C109 | P_Retention.C109_age_does_not_matter | Closed under the global context |
| C109 | P_Retention.C109_retention_refuted | Closed under the global context |
| C110 | P_MessageSize.C110_whole_or_error | Closed under the global context |
| C110 | P_MessageSize.C110_answered_partial | Closed under the global context |
| C110 | P_MessageSize.C110_too_large | Closed under the global context |
| C110 | P_MessageSize.C110_large_answers_refuted | Closed under the global context |
