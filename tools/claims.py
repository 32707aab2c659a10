# id -> (status, [theorems], note)
CLAIMS = {
"C01": ("partial", ["C01_label_injective_refuted", "C01_label_collision_exactly", "C01_label_injective_partial", "C01_valueless_labels_injective"],
  "False of the code when attribute keys contain '=' (refuted with a witness); exact collision condition and injectivity without '=' proved."),
"C02": ("proved", ["C02_signal_and_prefix_recoverable"], ""),
"C03": ("proved", ["C03_keyspaces_disjoint", "C03_keyspaces_disjoint_production"], "For ids below 2^64 (intended layout) and below 2^56 (layout of the running server)."),
"C04": ("proved", ["C04_sample_keys_unique", "C04_sample_prefix_exact"], ""),
"C05": ("proved", ["C05_sample_ids_strictly_increasing", "C05_sample_ids_unique"], "Histories of fewer than 2^44 operations (where the 64 bit counter could wrap)."),
"C06": ("proved", ["C06_column_ids_stable_and_distinct"], "Prefix slice without spare capacity; see C09 for the server's wiring."),
"C07": ("proved", ["C07_ids_translate_back", "C07_reverse_lookup_exact", "C07_many_ids_translate_back", "C07_unknown_id_is_an_error"], ""),
"C08": ("proved", ["C08_find_agrees_with_translate", "C08_find_has_no_effect"], ""),
"C09": ("partial", ["C09_production_ids_repeat", "C09_production_ids_distinct_refuted"], "False of the code: the 4097th new label of a process receives id 0 again, for any labels."),
"C10": ("partial", ["C10_cache_transparent_partial", "C10_cache_transparent_refuted"], "Holds when the hash separates the labels used; false for every 64 bit hash otherwise."),
"C11": ("proved", ["C11_dates_are_gregorian", "C11_views_identify_calendar_units"], ""),
"C12": ("proved", ["C12_four_nested_views", "C12_no_overlap_between_units"], ""),
"C13": ("proved", ["C13_granularity", "C13_search_granularity"], ""),
"C14": ("proved", ["C14_explicit_range_as_given", "C14_default_window"], "The position of the default window is stated for offsets whose negation fits an int64; its length for all."),
"C15": ("partial", ["C15_search_terminates", "C15_hour_windows_exact", "C15_day_windows_exact", "C15_month_windows_exact", "C15_year_windows_exact", "C15_search_sound", "C15_covers_window_partial", "C15_search_incomplete_refuted", "C15_default_window_misses_new_hour_refuted"],
  "False of the code: windows that cross an hour, and the last unit of every window of a day or more, are missed. The consulted views are characterised exactly for every window (a window of 30 days or more that starts on a day the next month lacks and ends in that month consults nothing at all), no view outside the window is consulted. quantum.ViewsByTimeRange is external and modelled from its published algorithm."),
"C16": ("proved", ["C16_position_roundtrip", "C16_position_injective_in_shard", "C16_positions_wrap"], ""),
"C17": ("proved", ["C17_time_span_exact", "C17_time_span_order_independent"], ""),
"C18": ("partial", ["C18_zero_timestamps_refuted", "C18_zero_timestamps_exact", "C18_zero_timestamps_partial"], "False of the code: a zero time stamp makes the minimum forget everything before it. Exact behaviour proved; the property holds when zero time stamps come first."),
"C19": ("proved", ["C19_documented_labels_indexed", "C19_each_label_has_its_column", "C19_documented_labels_indexed_kv"], "For every translator obeying the laws, and for the persistent translator (prefix slice without spare capacity)."),
"C20": ("partial", ["C20_marker_exact", "C20_every_sample_marked_refuted", "C20_every_sample_marked_partial"], "False of the code: a sample carries the marker of the signal of the sample processed before it; the first sample of a process carries 0:0:."),
"C21": ("proved", ["C21_independent_of_history"], ""),
"C22": ("proved", ["C22_batch_exact","C22_batch_bit_iff_recorded"], "Bit-level form for ids below 2^44."),
"C56": ("proved", ["C56_row_intersect_is_set_intersection","C56_row_union_is_set_union","C56_row_difference_is_set_difference","C56_row_xor_is_symmetric_difference","C56_row_merge_is_set_union","C56_row_count_is_cardinality"], "For every row produced by any combination of the package's operations."),
"C57": ("partial", ["C57_row_from_columns","C57_row_from_bitmap","C57_row_set_adds_one_column","C57_set_tells_whether_the_column_was_new", "C57_row_observations_agree","C57_row_from_bitmap_last_shard_refuted"], "Building a row from a bitmap with a column in the last shard (>= 2^64-2^20) never terminates: refuted there, proved below."),
"C23": ("proved", ["C23_single_shard_lookup_exact"], ""),
"C24": ("partial", ["C24_lookup_exact","C24_lookup_across_shards_partial","C24_lookup_complete","C24_lookup_across_shards_refuted"], "False for the code: a shard that matches nothing is skipped instead of emptying the result (refuted by a concrete index). Proved: the exact set returned for every index, completeness, and exactness when every visited shard matches something."),
"C25": ("proved", ["C25_lookup_order_irrelevant"], ""),
"C26": ("partial", ["C26_lookup_after_restart_is_empty_refuted","C26_lookup_after_reopening_partial"], "False for the code: after a restart no shard is open until something is written to it. Proved: once every shard is reopened look-ups agree with those before."),
"C27": ("proved", ["C27_update_all_or_nothing","C27_update_arbitrary_callback"], ""),
"C29": ("partial", ["C29_row_numbers_exact","C29_row_number_is_id_refuted","C29_row_number_is_id_partial"], "False for the code: in a view whose first sample has an id above 0 the first flush is stored one row low. Proved: the exact row of every sample in every history, and the exact condition under which it equals the id."),
"C30": ("proved", ["C30_anchored_views_aligned"], ""),
"C31": ("proved", ["C31_membership_exact","C31_membership_disjoint"], ""),
"C32": ("proved", ["C32_reading_stays_in_signal","C32_read_errors"], ""),
"C33": ("proved", ["C33_interrupted_flush"], ""),
"C28": ("partial", ["C28_row_exact", "C28_labels_exact", "C28_labels_read_back_partial", "C28_labels_after_restart_refuted"], "Exact for every history; holds for samples saved since the last restart, and for older ones once a save has opened their shards again (C98). Fails right after a restart: nothing reopens the shard databases for reading, so no labels are found."),
"C34": ("proved", ["C34_filters_are_a_conjunction", "C34_failures", "C34_unknown_label_matches_nothing"], "For every translation state and scan; a scan whose filters are all valueless asks nothing and matches nothing."),
"C35": ("partial", ["C35_rows_are_stored_samples_partial", "C35_scan_sound_partial", "C35_scan_sound_refuted", "C35_two_shards_refuted"], "Proved for every history, interruption and restart: every row is that of a stored sample of the signal, filed in a consulted view; it has all asked labels when the labels' columns are in one shard or some saved sample has them all in a consulted view (then no shard is passed over); the row is the sample's own data when the view is aligned (C29). Refuted outside: a misaligned view really returns another sample's data, and when no consulted sample has all labels and they are in several shards a sample with only some of them is returned."),
"C36": ("partial", ["C36_scan_complete_partial", "C36_scan_range_complete_partial", "C36_scan_after_restart_is_empty_refuted", "C36_unfiltered_scan_misses_refuted"], "Proved for samples saved since the last restart, filtered scans with a time range covered by the search (C15), aligned views. Refuted: after a restart nothing is found; unfiltered scans miss samples (C20); uncovered windows (C15)."),
"C37": ("partial", ["C37_instant_scan_partial", "C37_instant_answer_partial", "C37_newest_refuted", "C37_late_sample_hides_refuted"], "proved: a query without a time range consults one hour view and, if a saved sample there matches, answers exactly the matching records of one stored sample, that of the largest id among the matching ones filed in that hour. Refuted as stated: at 01:05 the answer is the sample of 00:55 though one of 01:03 was saved later, and a late sample of 00:10 hides a matching one of 00:50. Assumed: aligned rows (C29) and hash fairness (C46)."),
"C38": ("partial", ["C38_limit_and_reverse_ignored_refuted"], "The property is false: limit and reverse never change the answer."),
"C39": ("partial", ["C39_index_errors_reported_partial", "C39_frame_errors_swallowed_refuted"], "Translation and index errors are reported; errors reading the stored frames are answered with a nil result and no error."),
"C40": ("partial", ["C40_no_match_is_empty_container_partial", "C40_nothing_saved_matches_partial", "C40_no_match_may_be_nil_refuted"], "Holds whenever the index has no match; refuted when the index matches a sample of another signal (marker of the previous sample)."),
"C41": ("proved", ["C41_index_never_ahead_of_data"], "For every history with saves cut at any transaction boundary, failed commits and restarts."),
"C42": ("proved", ["C42_saving_only_adds"], "For every history and every continuation."),
"C52": ("proved", ["C52_merge_loses_nothing", "C52_metrics_merge_keeps_points", "C52_metrics_keep_every_point", "C52_logs_keep_every_record", "C52_traces_keep_every_span", "C52_blank_rows_refuted"], "For every hash that separates the identities occurring in the input (parameter). Blank rows, which stem from the row misalignment of C29, are outside the property and shown to discard or crash the merge."),
"C53": ("proved", ["C53_result_order", "C53_merge_deterministic"], "For every map iteration order and every permutation sort.Sort may arrive at; no assumption on the hash."),
"C54": ("partial", ["C54_scopes_merged_refuted", "C54_scopes_kept_apart_partial", "C54_span_scopes_kept_apart_partial", "C54_metric_scopes_kept_apart_partial"], "Refuted for every hash function: name and version are hashed without a separator. Holds where the hash separates the scopes of the input."),
"C55": ("partial", ["C55_kind_conflict_panics_refuted", "C55_dataless_metric_panics_refuted", "C55_logs_and_traces_always_merge", "C55_consistent_metrics_merge_partial"], "Refuted for metrics: two kinds of data under one name panic, for every hash. Logs and traces always merge."),
"C66": ("partial", ["C66_metadata_kept_partial", "C66_metadata_of_later_rows_lost_refuted"], "Holds if all occurrences of a metric agree on its metadata; otherwise the first one wins."),
"C67": ("partial", ["C67_scan_delivers_partial"], "Both directions, end to end over all histories; for labels in any number of shards; assumes aligned rows (C29), a separating hash and consistent metric kinds."),
"C46": ("partial", ["C46_what_remains", "C46_matching_records_remain_partial"], "Exact account of what remains for every list of conditions, and agreement with the English meaning for conditions on resource/scope schema, name, version and attributes, record name, severity, trace id and time. Missing: conditions on record attributes, span id, parent span id, and trace id of logs, which the code tests wrongly (C47, C48). Assumes: the hash separates asked from tested texts, asked attributes shorter than 32 bytes with no equals sign in keys, window within 1970-2262."),
"C47": ("partial", ["C47_tested_on_the_scope", "C47_attribute_conditions_refuted"], "Refuted: a record attribute condition is tested on the attributes of the scope (visit.go:118 calls SetScopeAttr). The first theorem says exactly what happens instead."),
"C48": ("partial", ["C48_parent_condition_refuted", "C48_span_condition_refuted", "C48_span_condition_is_ignored", "C48_what_is_tested"], "Refuted: parent span id conditions select by the span's own id, span id conditions are ignored."),
"C49": ("partial", ["C49_descriptive_fields_refuted", "C49_other_fields_survive_partial"], "Refuted: scope schema, metric description and unit are dropped. Proved: everything else survives."),
"C50": ("partial", ["C50_no_condition_no_change", "C50_half_open_partial", "C50_range_before_1970_refuted"], "Proved for windows within 1970-2262; refuted for a range that starts before 1970 (unsigned conversion), which loses every record."),
"C51": ("partial", ["C51_subset_matching_partial", "C51_long_attribute_refuted", "C51_equals_sign_refuted"], "Proved for conditions shorter than 32 bytes and keys without an equals sign; refuted (with the real XXH64) otherwise: conditions are hashed by a digest that was never reset, so conditions of 32 bytes or more never match."),
"C68": ("partial", ["C68_trimming_does_not_crash_partial", "C68_crashes_exactly", "C68_attribute_without_value_refuted", "C68_nothing_found_refuted"], "Refuted: nil attribute value, nil answer of the store (only in-process: over gRPC a nil answer arrives as an empty message, see C82). Holds otherwise (existence of the result); C68_crashes_exactly says exactly which answers crash it."),
    "C43": ("proved", ["C43_handed_over_exactly_once", "C43_nothing_else_is_handed_over", "C43_next_flush_hands_over"], "Every interleaving of clients, flush loop, cancellation and other writers, at the granularity of single buffer accesses; ids come from the model of the leased sequence. Bound: fewer than 2^44 moves, so that ids do not wrap."),
    "C44": ("partial", ["C44_survives_shutdown_refuted", "C44_buffer_is_lost_at_shutdown", "C44_failed_save_is_not_repeated", "C44_flushing_until_interrupted", "C44_survives_if_flushed_partial"], "False of the code: on cancellation the flush loop returns without a last flush and nothing else hands the buffer over; a failed save is dropped, never repeated. Proved: what was answered before a flush that still completes is handed over."),
    "C45": ("proved", ["C45_own_signal"], "Both directions: everything handed to the store is some answered request's resources under its endpoint's signal, and every answered request is stored or on its way that way."),
    "C69": ("proved", ["C69_clients_are_served_while_saving", "C69_clients_are_served_unless_ids_fail", "C69_save_runs_without_the_mutex", "C69_failed_id_ends_the_process"], "From every reachable state a waiting client can be answered by moves of other clients and the flush loop that complete no save; a save in progress holds no mutex."),
    "C58": ("proved", ["C58_pivot_descending", "C58_65_slices_refuted"], "Exact result with filter, offset and limit, one non-empty call per value, final limit and offset. The bound of 64 slices is shown to be needed."),
    "C59": ("proved", ["C59_row_builder", "C59_row_builder_sequential", "C59_bsi_builder", "C59_duplicates_refuted"], "For sequential input (weak form: neighbours in the same 2^16 block increase); bitmask and array containers, cached counts, reuse after Build. Columns below 2^64-2^20 because NewRowFromBitmap loops on the last shard (C57). Input with duplicates, excluded by the documentation, is miscounted."),
    "C70": ("proved", ["C70_sum", "C70_sums_come_back"], "roaring.Add is external and modelled by its contract (ripple-carry sum of the planes). Storage sharing between operands and result is not represented."),
    "C64": ("partial", ["C64_conditions_in_call_order", "C64_fails_only_on_bad_duration", "C64_last_setting_wins", "C64_times_well_formed", "C64_default_window", "C71_window_of_last_call", "C64_now_is_ignored_refuted"], "Conditions, signal, limit, direction and window of every script are the ones its calls describe. Refuted part: the documented meaning of now() and offset() once a window call is made (they are ignored). time.ParseDuration is a parameter; the one duration whose negation overflows is excluded."),
    "C65": ("partial", ["C65_memory_cache_partial", "C65_disk_cache_partial", "C65_failed_bundle_not_cached", "C65_memory_collision_refuted", "C65_disk_collision_refuted", "XXH64_published_vectors"], "Transparent whenever no two submitted sources share an XXH64 (and, on disk, no interrupted write and no new version). Refuted in full: two explicit 64 byte scripts with the same XXH64 run as one another. XXH64_published_vectors ties the model of the hash to published values (a test, not a proof)."),
    "C71": ("proved", ["C71_window_of_last_call"], "For every script, clock, instant and any function that is the Gregorian calendar. Zone with one offset (zones that change their offset: C104); jinzhu/now recalled; ago of exactly -2^63 ns excluded."),
    "C72": ("partial", ["C72_other_sources_unharmed_partial", "C72_truncated_program_runs_refuted", "C72_stale_bundle_refuted", "C65_disk_cache_partial"], "The claim is false of the code: a truncated bundle is run by every later query with that source, and bundles survive new versions. Proved: other sources are unharmed."),
    "C61": ("partial", ["C61_round_trip", "C61_nothing_lost", "C61_refused_when_too_deep", "C61_marshal_failure_refuted", "C61_list_failure_refuted"], "Round trip for every accepted message type (any depth) and every list of messages whose attribute values can be marshalled. Refuted: an attribute value that cannot be marshalled (a string that is not UTF-8) makes the columns misalign and NewRecord panics, losing the batch. The parquet file itself is not modelled."),
    "C63": ("partial", ["C63_every_span_once", "C63_grouping", "C63_fields_kept", "C63_fields_same", "C63_nothing_added", "C63_schema_url_lost_refuted", "C63_link_state_lost_refuted"], "Every span once under its own resource attributes and scope, one group each, in order, for every map iteration order; conversion lossless but for link trace states. Refuted parts: resource schema URL of spans with equal attributes, link trace state. Resources with NaN attributes not modelled."),
    "C62": ("partial", ["C62_converted_or_reported", "C62_nothing_lost", "C62_nothing_added", "C62_points_same", "C62_sums_nearest", "C62_small_sums_exact", "C62_export_complete_partial", "C62_large_sums_refuted", "C62_export_drops_all_refuted", "C62_zero_threshold_refuted"], "Every metric is either converted in place, losing nothing but float64 rounding of histogram sums and the zero threshold, or reported. Refuted for the exporter: it drops the whole collection when any metric is reported; integer histogram sums beyond 2^53 are rounded."),
    "C60": ("proved", ["C60_slice_exact", "C60_slice_stable", "C60_release_forgets", "C60_dataframe_use", "C60_two_writers_refuted", "C60_after_release_refuted"], "Heap of backing arrays shared through slices, any number of arenas, any interleaving of whole calls. The two refutations show the limits: two writers of one arena share one offset, and slices do not survive the release."),
    "C73": ("partial", ["C73_scan_is_atomic_partial", "C73_scan_across_shards_partial", "C73_client_sees_one_instant_partial", "C73_quiet_scan", "C73_save_passes_instants", "C73_two_shards_refuted"], "For every history, every schedule of label look-ups, index read and record reads, each possibly inside a save (between label translations, views, shard commits): the rows are those of one instant, except that a row that was beyond the end of its record may have been filled since; what the client receives is then exactly the answer at that instant. For labels in several shards, each read at an instant of its own, the same holds if a sample with all the labels had been saved before the first read (the save under way then is answered wholly or not at all). Refuted without that (C73_two_shards_refuted). All instants are of one process: a restart ends its scans."),
    "C74": ("partial", ["C74_codec_is_private", "C74_pool_is_clean", "C74_crash_only_after_the_end", "C74_reading_on_crashes_refuted"], "For every interleaving of the steps of any number of uses, a pool that hands out or drops codecs at its pleasure, and streams misused after their end. Refuted part: a stream used after its end (Read after the end, second Close) meets a nil codec and crashes, exactly then; it never harms another stream."),
    "C75": ("proved", ["C75_production_lookups_do_not_interfere", "C75_lookups_do_not_interfere_partial", "C75_spare_capacity_refuted"], "Proved for the translator as the server builds it (three spare bytes, every encoded label has at least four). The refutation shows that it depends on that: with a five byte prefix two concurrent look-ups answer each other's label."),
    "C76": ("partial", ["C76_opened_once_partial", "C76_two_callers_refuted"], "Proved for calls made one at a time, which is how the server makes them (only the flush loop calls Update; nothing calls View). Refuted for two concurrent callers of a shard that is not open yet."),
    "C77": ("partial", ["C77_text_follows_the_notation", "C77_strings_are_quoted", "C77_quoted_function", "C77_printed_iff_complete", "C77_plain_attributes_told_apart", "C77_all_told_apart_refuted"], "Proved: the text is exactly the prescribed notation (quoting and UTF-8 specified independently in Spec/Quoting.v), it is printed iff no key lacks its value, and attributes of strings (arbitrary bytes, strconv.Quote modelled in full with IsPrint as a parameter), booleans, integers, arrays and nested lists under keys without blanks are determined by their text. Refuted for the rest: int 1 and double 1, int 12 and byte 0x12, a key containing ' = 1, b', and a key without value panics."),
    "C78": ("partial", ["C78_exact_text", "C78_every_number_point_is_shown", "C78_texts_exist", "C78_time_of_a_point", "C78_same_time_iff_same_second", "C78_all_points_shown_refuted", "C78_integers_exact_refuted", "C78_always_printed_refuted"], "Proved for all documents with complete attributes: the exact text, letter by letter; for gauges and sums order, one line per point, column layout (tabwriter modelled for these tables), Gregorian time to the second. Refuted: histograms, exponential histograms and summaries print no point; integers above 2^53 are rounded; one attribute without value makes the whole print panic. The texts of units and floats are parameters."),
    "C79": ("partial", ["C79_one_row_per_point", "C79_own_number", "C79_ids", "C79_missing_number_refuted", "C79_integers_exact_refuted"], "Proved for every document whose attributes all have values: one row per point in order with exact contents, ids consecutive, the number the point's own if every number point has one. Refuted otherwise: a point without a number shows the number of the point before it; integers above 2^53 are rounded. The package is built and tested but not wired into the server."),
    "C80": ("partial", ["C80_index_exact", "C80_lookup", "C80_resource_labels_refuted", "C80_columns_alias_refuted"], "Proved: the index holds exactly the metric name and the point's own string attributes of every row. Refuted for the labels of resources and scopes: Attr.do clears the bitmap it was to extend, so they are never indexed; and refuted beyond 2^20 columns: f2.pos keeps only the column modulo 2^20, so a row is found by every label whose column is a multiple of 2^20 away from that of one of its own."),
    "C81": ("partial", ["C81_same_series_same_hash", "C81_different_series_refuted"], "Proved: same series, same hash. Refuted: series of two hosts (resource attributes) share their hash whatever the digest, by the same defect as C80."),
    "C82": ("partial", ["C82_exact_answer_partial", "C82_matching_records_returned_partial", "C82_matching_records_in_window_partial", "C82_only_matching_records_partial", "C82_later_record_refuted", "C82_upper_case_id_refuted", "C82_two_names_refuted"], "Proved: the answer is a permutation of all matching saved records (each as often as given), for one non-empty value per property (answerable), labels in any number of shards, aligned views, no digest collision. Refuted outside: a record later than the hour of its sample's first record, trace ids in upper case, two values of one property. Rows need only be in place for the samples that are looked up (C100), and labels need only keep their columns, not have distinct ones (C101)."),
    "C83": ("proved", ["C83_no_sample_twice"], "For every history, fault and scan: each row is blank or the data of a stored sample of the signal, no sample occurs twice. Needs no alignment and no assumption on shards."),
    "C84": ("partial", ["C84_answered_then_found_partial", "C84_found_then_answered_partial", "C84_exact_answer_partial"], "Proved for every interleaving of clients and flush loop and every earlier history, joining the service model with the store and query models: increasing ids and successful saves are consequences of the service, not assumptions. Remaining hypotheses are those of C82: one value per property, aligned views, no digest collision, the sample's first record in a consulted view."),
    "C85": ("proved", ["C85_where_files_are", "C85_nothing_inside_another", "C85_homes_apart", "C85_programs_apart", "C85_absolute_is_stable"], "filepath.Clean and Join modelled in full for Unix; places are walked along the parts of the path (no symbolic links). Windows branch of home.Dir not modelled. With HOME unset and no argument everything lives in .rq of the working directory."),
    "C86": ("partial", ["C86_means_the_sum", "C86_whole_numbers", "C86_fractions", "C86_only_durations", "C86_printed_is_read_back", "C86_ago_asks_for_that_long", "C86_latest_is_fifteen_minutes", "C86_overflow_accepted_refuted"], "time.ParseDuration and Duration.String (Go 1.22) modelled statement by statement over IEEE binary64 (Coq.Floats.SpecFloat); fractions of any length (the digits that are not read, and powers of ten up to infinity, included). Refuted: an overflow of exactly 2^64 ns is read as 0."),
    "C87": ("proved", ["C87_integers_shown_exactly", "C87_shown_value_means_the_value", "C87_shown_values_differ", "C87_any_double_shown_closely"], "unit.go over IEEE binary64; fmt.Sprint, humanize.IBytes and out of range conversions are arbitrary parameters. The unit m is read as minutes (UCUM: metres); us and min are not converted."),
    "C88": ("partial", ["C88_visitors", "C88_scan_answer", "C88_labels", "C88_keys", "C88_bitmaps", "C88_times", "C88_merges", "C88_buffers", "C88_buffer_text", "C88_columns_partial", "C88_engines_partial", "C88_engines_refuted", "C88_columns_refuted", "C88_label_text", "C88_key_text", "C88_bitmap_says", "C88_engine_has_what_was_set"], "Requests are orderly by hypothesis (get, use, give back once), which is how the code uses New and a deferred Release; memory behind the length of a slice is not observable in the model. Refuted for script engines: Release keeps the runtime and with it the global variables (the query command never releases its engine), and for column schemas after a panic between appending and building (put does not clean)."),
    "C89": ("partial", ["C89_rows_are_values_partial", "C89_clones_are_independent", "C89_server_rows_are_careful", "C89_union_shares_refuted", "C89_xor_shares_refuted", "C89_difference_shares_refuted", "C89_merge_shares_refuted", "C89_freeze_does_not_protect_refuted"], "Proved for programs that change a row in place only while no other row in use may share storage with it (the sharing rules are in Spec/RowPrograms.v); the server's own use is of that kind and clones always are. Refuted without that discipline: a result of Union, Xor, Difference or Merge changed in place changes its operand, and Freeze does not prevent it."),
    "C90": ("partial", ["C90_shift_moves_every_column", "C90_shift_by_nothing", "C90_shifts_add", "C90_shift_within_shards_partial", "C90_shift_over_the_edge_refuted"], "The listed columns and the count are right for every row and distance. Membership and combining with other rows are right as long as no column leaves its shard, and refuted otherwise."),
    "C91": ("partial", ["C91_table_shows_the_row", "C91_columns_table", "C91_results_show_the_row", "C91_delivery", "C91_clone_partial", "C91_clone_refuted", "C91_float_cells_refuted", "C91_cell_readers"], "Refuted parts: Clone forgets NoSplit; Value.Float64 reads a float cell as zero and panics on an integer cell.."),
    "C92": ("proved", ["C92_is_finds_exactly_what_is_inside", "C92_collecting_keeps_everything", "C92_error_iff_culprit", "C92_error_names_every_culprit", "C92_reasons_found", "C92_shutdown_stops_everything"], "errors.Is and errors.Join are modelled as documented; the name of a type (%T) is a parameter."),
    "C93": ("proved", ["C93_rows_read_back", "C93_views_are_their_rows", "C93_columns_of_a_signal"], "Refines the row view of Dataframe.v (used by all store theorems) by Arrow columns. internal/dataframe imports the published github.com/gernest/arrow3 v0.0.3; internal/arrow3, its copy in the repository, is what is modelled. Trusted: a parquet file gives back the columns written to it."),
    "C94": ("partial", ["C94_start_and_stop", "C94_open_parts_have_what_they_need", "C94_closed_at_exit_refuted", "C94_numbers_skipped", "C94_no_closed_part_is_used_partial", "C94_closed_part_used_refuted", "C94_stop_reports_success_refuted", "C94_orderly_stop_possible", "C94_requests_finished_partial", "C94_request_in_flight_refuted", "C94_numbers_after_stop", "C94_query_in_flight_refuted"], "The exact events of every run, and that open parts have what they need, are proved. False of the code: when the address cannot be listened on the process ends without closing anything, and every such attempt skips 2^20 sample numbers (exact count proved); the flush loop is not waited for, so a save may meet a closed index or database, and then an orderly stop exits with 1. Requests still being handled are modelled (grpc Stop does not wait for them): parts are used while open only, closed in order, and the process reports success, if the save under way and the requests are finished when the service has been closed; nothing waits for that, and a request handled after the database is closed makes an orderly stop exit with 1 (refuted). C94_numbers_after_stop: exactly which sample numbers a stop costs - 2^20 for every 2^20 numbers, begun, that requests take after the sequence is released."),
    "C95": ("partial", ["C95_own_spans_found_partial", "C95_own_points_found_partial"], "Every span and every data point of an exported collection is in the answer of every query true of it. Partial as C84: the request's data must be filed in a consulted view (refuted otherwise in C82), rows aligned, hashes without collisions; span attribute conditions are excluded (C47 refutes them)."),
    "C96": ("partial", ["C96_gets_what_it_says_partial", "C96_today_partial", "C96_this_week_partial", "C96_latest_partial", "C96_throws_only_on_bad_duration", "C96_throws_exactly", "C96_latest_refuted", "C96_this_week_refuted", "C96_attr_refuted"], "proved exactly (as a permutation of the records sent) for scripts with at least one reliable condition, against a server at rest, if every payload with a matching record is filed in a view that is consulted; that hypothesis is discharged for today() in zones of whole hours, for thisWeek() of payloads filed before today, and for latest() when the clock is a quarter past the hour or later. Refuted as stated: latest() at 01:05 loses a record of 01:03, thisWeek() on a Monday loses that Monday, attr() on a record's attribute loses every record. Payloads are filed under their earliest record only; hash collisions and merges are assumed away as in C82."),
    "C97": ("partial", ["C97_own_program_partial", "C97_never_another_script", "C97_others_untouched", "C97_nothing_left_partial", "C97_directory_left_refuted", "C97_same_script_refuted"], "proved for all interleavings and failures: each command's program is its own (no two scripts with one hash, C65) if its bundle was cached before or no other command runs the same script now, and is at worst a beginning of its own bundle; files that were there are never touched; nothing is left if every call works. Refuted as stated: the same script twice at the same time can run the empty program in one of them without an error, and a failing write leaves the command's directory behind. esbuild and goja are external functions."),
    "C98": ("partial", ["C98_every_history_partial", "C98_found_again_partial", "C98_exact_answer_partial", "C98_across_processes_partial", "C98_nothing_until_a_save_refuted", "C98_one_save_not_enough_refuted"], "Proved over all histories, whatever saves failed and wherever the process stopped: the answer is the matching records of some samples given to the store, each once, containing all that were saved and whose shards are open. With fewer than 2^20 labels and one successful save since the last start, that is everything ever saved, also joined with the server process (requests answered by this and earlier processes). Missing because the code refutes it: right after a start nothing is answered until a save opens the shards again, and beyond 2^20 labels one save is not enough. The conditions of C82 (filing hour, hash collisions, conditions the index and the trimming both read) remain."),
    "C99": ("partial", ["C99_no_difference_partial", "C99_exact_answer_partial", "C99_equal_hashes_refuted"], "Proved for the production wiring (prefix slice with spare capacity, XXH64 cache, look-ups by scans in between, restarts with or without Close): while each process meets at most 4092 labels not seen before and no two of its labels have equal hashes, every observable of the store is that of the plain translator, and the exact answer of C98 holds for it. Missing because the code refutes it: two labels with one hash make a saved sample unfindable (a concrete XXH64 collision), and beyond 4096 new labels in a process the id counter and the id table share keys (C09); answers stay exact even then (C101)."),
    "C100": ("partial", ["C100_only_what_was_sent_partial", "C100_exact_answer_partial", "C100_found_again_partial", "C100_as_wired_partial", "C100_answers_nothing_refuted", "C100_fails_after_first_flush_refuted"], "Proved in every view of every history, with nothing assumed about row numbers: the query fails, or answers exactly the matching records of some of the samples sent, none twice, and never those of the sample a view other than the first begins with. The exact answer, also after restarts and with the translator as wired, whenever no sample with an asked label is in the first flush of a view that does not begin with sample 0 (for hours with several flushes: everything saved after the first). False of the code, for every such history: rows of that first flush are one too low, so the view's first sample is never answered from it, a query matching a first-flush sample whose next number is elsewhere fails or answers nothing at all, and after the first flush of an hour every query matching its newest sample fails (reading a row beyond the record is modelled as the panic it is)."),
    "C101": ("partial", ["C101_labels_keep_their_columns", "C101_exact_answer_partial", "C101_only_what_was_sent_partial", "C101_columns_are_shared"], "About the server as it is wired, without the limit of C99 on the number of labels: beyond 4096 new labels in a process columns are shared (C101_columns_are_shared, C09), and still no label loses its column and every answer is exact, because records of the wrong label are trimmed. Missing: labels of one process with equal hashes (refuted: C99_equal_hashes_refuted); columns from 2^20 on; and the conditions of C98 and C100 (one save since the start, rows in place for the samples that share an asked column)."),
    "C102": ("partial", ["C102_gets_where_it_looks_partial", "C102_end_of_month_refuted", "C102_end_of_year_refuted", "C102_current_hour", "C102_current_hour_refuted", "C102_latest_blind_quarter", "C102_half_hour_zones"], "False as stated, and exactly so: C102_gets_where_it_looks_partial says for every window and clock which of the asked records come back: those of payloads filed (by their earliest time, C34) in the hours, days, months or years that the window consults, each as often as sent. Nothing at all comes back from thisMonth() from the 31st on and from thisYear() from day 361 on (the two refuted theorems, any server, any history; C102_lost_on_the_31st is a concrete run). Missing: the hypotheses that displaced views are aligned (finding F2, C100), that no two labels or groups have equal hashes (C99, C20), that trimming is fair (C36), and for what earlier processes saved: fewer than 2^20 labels and one successful save since the restart (C98). For windows of less than a day, what was sent in the current hour is answered exactly if the clock has passed the minute of the hour the window began at: latest() misses it in the first quarter of every hour, today() until half past in half-hour zones."),
    "C103": ("partial", ["C103_json_says_the_row_partial", "C103_json_determines_the_row", "C103_json_of_the_set", "C103_other_keys_refuted"], "Proved against a grammar of JSON texts (Spec/Json.v, written down from RFC 8259) that is shown to be unambiguous: the text says the columns and the keys and nothing else; encoding/json's string escaping is modelled in full. Refuted for keys that are not UTF-8: each stray byte becomes U+FFFD, so different keys look the same. MarshalJSON of a nil row crashes (row.go:564), although Columns tolerates one."),
    "C104": ("partial", ["C104_window_of_last_call_partial", "C104_one_offset", "C104_skipped_midnight_refuted", "C104_week_refuted"], "Proved for every zone whose changes lie two days apart and do not repeat a midnight, nor skip one but by jumping from it at or east of Greenwich (Amman, Beirut, Cairo); thisWeek() on days whose midnight exists. Refuted for a zone west of Greenwich that skips a midnight (Sao Paulo 2018): today() contains the last hour of yesterday; and for thisWeek() on a weekday whose midnight is skipped (Amman 2022): the first hour of the week is missing. time.Date and jinzhu/now are recalled, not in /repo."),
    "C105": ("partial", ["C105_gets_where_it_looks_partial", "C105_current_hour_refuted"], "Same conditions as C102_gets_where_it_looks_partial (payloads in no failed save, earlier processes' samples kept, keys aligned, no hash collisions), for every zone that is orderly as in C104 and a script that runs between 1970 and 2262. Exact relative to where the search looks, which is C102's defect."),
    "C106": ("proved", ["C106_returns", "C106_last_attempt", "C106_patience", "C106_no_memory"], "At most 3601 attempts. cenkalti/backoff v4 is recalled, not in /repo; its random interval is computed exactly instead of in float64. No other package of the repository imports internal/retry."),
    "C107": ("proved", ["C107_windows_home", "C107_one_answer"], "The file system's answers are assumed not to change during the call; writeable means what the code tests: a directory with the owner's write bit."),
    "C108": ("partial", ["C108_prints_what_was_asked_partial", "C108_one_level", "C108_otherwise_info", "C108_database_messages", "C108_database_log", "C108_overflow_refuted", "C108_warning_is_info"], "Proved for every text whose level fits the machine's integers and every text that names none (mistyped levels, the word warning among them, silently mean info: setup.go:10 drops the error). Refuted beyond: an offset that overflows wraps around and prints everything. The database's messages obey the same rule, but WithLoggingLevel replaces the server's JSON logger by badger's own at the four named levels, so only at other levels do they reach the server's log (C108_database_log). log/slog and badger's options are recalled, not in /repo."),
    "C109": ("partial", ["C109_answered_at_any_age_partial", "C109_age_does_not_matter", "C109_retention_refuted"], "False of the code: NewService (service.go:50) never looks at its parameter retention and nothing else in the repository expires data. Refuted for every period. The second half is proved: what was saved is answered (conditions as C98_exact_answer_partial), by every later clock and whatever the period; an answer about a given range does not depend on the clocks at all."),
    "C110": ("partial", ["C110_whole_or_error", "C110_answered_partial", "C110_too_large", "C110_large_answers_refuted"], "Proved: an answer is whole or an error, and whole if what the store found takes at most 4 MiB. Refuted beyond: neither main.go:125 nor home.go:58 sets a message size, so gRPC's 4 MiB holds for answers while requests of up to 4 MiB each are accepted; two saved requests can no longer be queried, whatever the limit of the query (C38). The theorems about answers of other claims (C82, C84, C95-C102, C105) are about query, without this limit; by C110_answered_partial they hold of query_sized while answers are small. gRPC's defaults and the bounds on encoded sizes (hypothesis [sizes], shown to be satisfiable) are recalled, not in /repo."),
}
