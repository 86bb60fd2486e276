{
 "claims": [
  {
   "property": "C01",
   "status": "proved",
   "theorems": [
    "C01_served_action_was_declared"
   ],
   "note": "for all programs, methods, paths"
  },
  {
   "property": "C02",
   "status": "proved",
   "theorems": [
    "C02_static_routes_always_served"
   ],
   "note": "latest declaration of the pattern and method is served"
  },
  {
   "property": "C03",
   "status": "proved",
   "theorems": [
    "C03_not_found_exact",
    "C03_found_exact",
    "C03_not_found_complete_refuted",
    "C03_not_found_complete_partial"
   ],
   "note": "both directions for every program; the refuted theorem shows that conforming patterns can be missed (the hidden ones)"
  },
  {
   "property": "C04",
   "status": "proved",
   "theorems": [
    "C04_selection_exact",
    "C04_selection_unique",
    "C04_priority_unique",
    "C04_priority_refuted",
    "C04_route_priority_partial"
   ],
   "note": "iff for every program; priority over hidden patterns is refuted"
  },
  {
   "property": "C05",
   "status": "proved",
   "theorems": [
    "C05_segments_clean",
    "C05_normalisation"
   ],
   "note": "trimming is Go's TrimSpace incl. the Unicode spaces"
  },
  {
   "property": "C06",
   "status": "proved",
   "theorems": [
    "C06_params_are_the_matched_segments"
   ],
   "note": "names, values, reconstruction of the path and Values map"
  },
  {
   "property": "C07",
   "status": "proved",
   "theorems": [
    "C07_request_exact",
    "C07_answers_exist",
    "C07_method_dispatch",
    "C07_dispatch_total"
   ],
   "note": "all cases, HEAD defaults and replaced wildcards included"
  },
  {
   "property": "C08",
   "status": "proved",
   "theorems": [
    "C08_head_exact",
    "C08_head_is_get_refuted",
    "C08_head_is_get_partial"
   ],
   "note": "exact; the refuted theorem is the double GET declaration"
  },
  {
   "property": "C09",
   "status": "proved",
   "theorems": [
    "C09_filters_in_force",
    "C09_outer_before_inner"
   ],
   "note": "set, order and uniqueness of the filters of every served action"
  },
  {
   "property": "C11",
   "status": "proved",
   "theorems": [
    "C11_param_names_agree",
    "C11_wildcard_names_agree",
    "C11_wildcard_is_last"
   ],
   "note": "stated as facts of every accepted program"
  },
  {
   "property": "C12",
   "status": "proved",
   "theorems": [
    "C12_registration_exact",
    "C12_table_exact",
    "C12_registration_monotone_refuted",
    "C12_registration_monotone_partial"
   ],
   "note": "exact; the refuted theorem is the replaced wildcard"
  },
  {
   "property": "C14",
   "status": "proved",
   "theorems": [
    "C14_route_info_path"
   ],
   "note": ""
  },
  {
   "property": "C10",
   "status": "proved",
   "theorems": [
    "C10_sibling_filters_do_not_interfere"
   ],
   "note": "slice heap with aliasing; every append/remove modelled on shared arrays"
  },
  {
   "property": "C13",
   "status": "proved",
   "theorems": [
    "C13_one_call",
    "C13_used_twice",
    "C13_builders_independent_partial",
    "C13_builders_independent_refuted"
   ],
   "note": "that builders are independent is refuted"
  },
  {
   "property": "C15",
   "status": "proved",
   "theorems": [
    "C15_call_exact",
    "C15_recorded_types",
    "C15_arguments_partial",
    "C15_arguments_refuted",
    "C15_zero_values"
   ],
   "note": "exact for all types; floats by an arbitrary parser"
  },
  {
   "property": "C76",
   "status": "proved",
   "theorems": [
    "C76_integer_round_trip"
   ],
   "note": ""
  },
  {
   "property": "C77",
   "status": "proved",
   "theorems": [
    "C77_strip_exact_or_error",
    "C77_utils_int_exact",
    "C77_utils_uint_exact",
    "C77_utils_exact_or_error_partial",
    "C77_utils_zero_on_error_refuted"
   ],
   "note": "exact for both packages and every string"
  },
  {
   "property": "C78",
   "status": "proved",
   "theorems": [
    "C78_exact",
    "C78_strip_exact",
    "C78_tostr_prints_partial",
    "C78_tostr_prints_refuted"
   ],
   "note": "exact"
  },
  {
   "property": "C79",
   "status": "proved",
   "theorems": [
    "C79_exact",
    "C79_utils_uint_total",
    "C79_uint_32_bits_partial",
    "C79_strip_uint_total_refuted"
   ],
   "note": "exact; that every uint is parsed is refuted"
  },
  {
   "property": "C16",
   "status": "proved",
   "theorems": [
    "C16_at_most_once_in_order"
   ],
   "note": "holds for all behaviours, also panics and repeated Next"
  },
  {
   "property": "C17",
   "status": "proved",
   "theorems": [
    "C17_untouched_chains_complete"
   ],
   "note": ""
  },
  {
   "property": "C18",
   "status": "proved",
   "theorems": [
    "C18_no_start_after_written"
   ],
   "note": ""
  },
  {
   "property": "C19",
   "status": "proved",
   "theorems": [
    "C19_second_next_exact",
    "C19_next_twice_partial",
    "C19_next_twice_refuted"
   ],
   "note": "exact; that a second Next is harmless is refuted"
  },
  {
   "property": "C20",
   "status": "proved",
   "theorems": [
    "C20_recovery_exact",
    "C20_panic_escapes_iff",
    "C20_client_exact",
    "C20_client_500",
    "C20_no_panic_escapes_partial",
    "C20_status_after_panic",
    "C20_client_gets_500",
    "C20_recovery_refuted"
   ],
   "note": "exact; that no panic escapes and the client always gets 500 is refuted"
  },
  {
   "property": "C21",
   "status": "proved",
   "theorems": [
    "C21_one_header_first"
   ],
   "note": "hijacked connections may have none"
  },
  {
   "property": "C22",
   "status": "proved",
   "theorems": [
    "C22_wire_exact",
    "C22_status_exact",
    "C22_status_tells_wire",
    "C22_wire_status_partial",
    "C22_status_refuted"
   ],
   "note": "exact for every call sequence and every hook; that Status() is the wire status unconditionally is refuted"
  },
  {
   "property": "C23",
   "status": "proved",
   "theorems": [
    "C23_hooks_at_most_once_reversed",
    "C23_hooks_run_before_header"
   ],
   "note": ""
  },
  {
   "property": "C24",
   "status": "proved",
   "theorems": [
    "C24_size_is_bytes_sent",
    "C24_written_exact",
    "C24_written_monotone",
    "C24_written_iff",
    "C24_written_iff_refuted"
   ],
   "note": "exact"
  },
  {
   "property": "C25",
   "status": "proved",
   "theorems": [
    "C25_flush_exact",
    "C25_flush_first",
    "C25_flush_after_write_partial",
    "C25_flush_commits_200",
    "C25_flush_refuted"
   ],
   "note": "exact; the intended claim (Flush sends the pending status) is refuted"
  },
  {
   "property": "C93",
   "status": "proved",
   "theorems": [
    "C93_requests_end_exact",
    "C93_request_is_an_exchange",
    "C93_requests_end",
    "C93_requests_end_refuted"
   ],
   "note": "exact"
  },
  {
   "property": "C94",
   "status": "proved",
   "theorems": [
    "C94_request_runs_exactly",
    "C94_request_starts_only"
   ],
   "note": "composition of router and chains"
  },
  {
   "property": "C26",
   "status": "proved",
   "theorems": [
    "C26_find_exact",
    "logged_kept",
    "C26_nearest_value_partial",
    "C26_nearest_function_partial",
    "C26_nowhere",
    "C26_nearest_refuted",
    "C26_assigned"
   ],
   "note": "exact for every history; what is kept is read off the log of calls"
  },
  {
   "property": "C27",
   "status": "proved",
   "theorems": [
    "C27_kept_exact",
    "logged_kept",
    "C26_find_exact",
    "C27_built_once_partial",
    "C27_same_value_partial",
    "C27_built_once_refuted"
   ],
   "note": "exact for every history and every next operation"
  },
  {
   "property": "C28",
   "status": "proved",
   "theorems": [
    "C28_only_supported_calls",
    "C28_missing_is_error",
    "C28_missing_exact"
   ],
   "note": "every history; chains of parents that end"
  },
  {
   "property": "C29",
   "status": "proved",
   "theorems": [
    "C29_cycle_is_error",
    "C29_cycle_exact",
    "C29_cycle_named"
   ],
   "note": "every history; chains of parents that end"
  },
  {
   "property": "C30",
   "status": "proved",
   "theorems": [
    "C30_hangs_exact",
    "C30_terminates_acyclic_partial",
    "C30_terminates_refuted"
   ],
   "note": "exact for every history; the unconditional claim is refuted by prog30"
  },
  {
   "property": "C31",
   "status": "proved",
   "theorems": [
    "C31_invoke_exact",
    "C31_invoke_once_partial",
    "C31_invoke_once_refuted"
   ],
   "note": "exact for every history"
  },
  {
   "property": "C32",
   "status": "proved",
   "theorems": [
    "C32_find_exact",
    "C32_invoke_exact",
    "C32_invoke_cycle_named",
    "C32_find_succeeds_partial",
    "C32_invoke_succeeds_partial",
    "C32_invoke_succeeds_refuted"
   ],
   "note": "exact for every history, no panics; own slot provided as a value: only the two bounds"
  },
  {
   "property": "C33",
   "status": "proved",
   "theorems": [
    "C33_slots_exact",
    "C33_literals_share",
    "C33_named_slots_differ_partial",
    "C33_slots_differ_refuted",
    "C33_pointers_aside"
   ],
   "note": "exact"
  },
  {
   "property": "C34",
   "status": "proved",
   "theorems": [
    "C34_provide_exact",
    "C34_new_value_is_found",
    "C34_new_function_is_called",
    "C34_built_values_stay",
    "C34_reprovide_refuted"
   ],
   "note": "exact for every history"
  },
  {
   "property": "C95",
   "status": "proved",
   "theorems": [
    "C95_apply_exact",
    "C95_apply_sets_tagged_fields_partial",
    "C95_apply_refuted"
   ],
   "note": "exact"
  },
  {
   "property": "C96",
   "status": "proved",
   "theorems": [
    "C96_exists_is_pure"
   ],
   "note": ""
  },
  {
   "property": "C97",
   "status": "proved",
   "theorems": [
    "C97_arguments_of_providers",
    "C97_arguments_of_invoke",
    "C97_arguments_of_invoke_partial"
   ],
   "note": "every history"
  },
  {
   "property": "C35",
   "status": "proved",
   "theorems": [
    "C35_secure_round_trip",
    "C35_empty_refused"
   ],
   "note": ""
  },
  {
   "property": "C36",
   "status": "proved",
   "theorems": [
    "C36_accepted_exact",
    "C36_accepted_is_signed",
    "C36_other_key_refused"
   ],
   "note": "for every MAC function"
  },
  {
   "property": "C37",
   "status": "proved",
   "theorems": [
    "C37_same_text_exact",
    "C37_reused_signature_exact",
    "C37_signature_covers_pair_refuted",
    "C37_signature_covers_pair_partial"
   ],
   "note": "exact, for every MAC function; the naive property (one pair per signature) is refuted"
  },
  {
   "property": "C38",
   "status": "proved",
   "theorems": [
    "C38_time_exact",
    "C36_accepted_exact",
    "C38_expiry_refuted",
    "C38_time_is_signed_partial",
    "C38_never_later_partial"
   ],
   "note": "exact; C38_expiry_refuted shows how the saturation undoes expiry"
  },
  {
   "property": "C39",
   "status": "proved",
   "theorems": [
    "C39_remember_round_trip"
   ],
   "note": ""
  },
  {
   "property": "C40",
   "status": "proved",
   "theorems": [
    "C40_has_remember_exact",
    "C40_not_ok_is_empty",
    "C40_only_remember_cookies_refuted",
    "C40_reported_user_is_signed_partial"
   ],
   "note": "exact"
  },
  {
   "property": "C41",
   "status": "proved",
   "theorems": [
    "C41_sid_well_formed",
    "C41_sids_differ",
    "C41_sid_or_panic"
   ],
   "note": ""
  },
  {
   "property": "C42",
   "status": "proved",
   "theorems": [
    "C42_number_round_trip",
    "C42_any_text",
    "C42_outside_domain",
    "C42_decode_exact"
   ],
   "note": ""
  },
  {
   "property": "C43",
   "status": "proved",
   "theorems": [
    "C43_random_bytes_exact",
    "C43_letters_used",
    "C43_random_bytes_partial",
    "C43_random_bytes_refuted",
    "C43_no_partial_output",
    "C43_alphabets"
   ],
   "note": "exact"
  },
  {
   "property": "C50",
   "status": "proved",
   "theorems": [
    "C50_cache_is_ttl_map"
   ],
   "note": "for values that print, keys and timeouts the server takes (memcached: up to 30 days, no evictions), Redis Touch without \"no end\" (C53)"
  },
  {
   "property": "C51",
   "status": "proved",
   "theorems": [
    "C51_gc_visible_exact",
    "C51_gc_invisible_partial",
    "C51_gc_invisible_refuted"
   ],
   "note": "exact"
  },
  {
   "property": "C52",
   "status": "proved",
   "theorems": [
    "C52_comes_back_exact",
    "C52_missing_until_set_partial",
    "C52_expired_returns_refuted"
   ],
   "note": "exact, for timeouts and values the server takes"
  },
  {
   "property": "C53",
   "status": "proved",
   "theorems": [
    "C53_touch_forever_exact",
    "C53_touch_forever_partial",
    "C53_touch_forever_refuted"
   ],
   "note": "exact"
  },
  {
   "property": "C54",
   "status": "proved",
   "theorems": [
    "C54_timeout_exact",
    "C54_mongo_overflow_exact",
    "C54_positive_timeout_partial",
    "C54_default_timeout",
    "C54_no_timeout",
    "C54_huge_timeout_refuted"
   ],
   "note": "exact up to 9223372036 s on every back end and beyond on Mongo; Redis and memcached beyond that depend on floats, not modelled"
  },
  {
   "property": "C55",
   "status": "proved",
   "theorems": [
    "C55_redis_isolation_exact",
    "C55_memcached_isolation_exact",
    "C55_memcached_keys_exact",
    "C55_clean_exact",
    "C55_prefixes_isolate_partial",
    "C55_prefixes_isolate_refuted"
   ],
   "note": "exact"
  },
  {
   "property": "C56",
   "status": "proved",
   "theorems": [
    "C56_ends_exact",
    "C56_agreement_exact",
    "C56_back_ends_agree_partial",
    "C56_back_ends_agree_refuted"
   ],
   "note": "exact"
  },
  {
   "property": "C98",
   "status": "proved",
   "theorems": [
    "C98_counters_exact",
    "C98_redis_any_text",
    "C98_missing_exact",
    "C98_default_count",
    "C98_counters_partial",
    "C98_memcached_counts_up_partial",
    "C98_counters_refuted"
   ],
   "note": "exact"
  },
  {
   "property": "C44",
   "status": "proved",
   "theorems": [
    "C44_start_exact",
    "C44_fresh_session",
    "C44_existing_session",
    "C44_id_not_chosen_partial",
    "C44_fresh_id_refuted",
    "C44_remember_as_session_refuted"
   ],
   "note": "exact, with every connection failure"
  },
  {
   "property": "C45",
   "status": "proved",
   "theorems": [
    "C45_regenerate_exact",
    "C45_no_cookie",
    "C45_regenerate_partial",
    "C45_regenerate_new",
    "C45_cache_error_refuted",
    "C45_old_id_refuted"
   ],
   "note": "exact, with every connection failure; the naive property is refuted by C45_cache_error_refuted and C45_old_id_refuted"
  },
  {
   "property": "C46",
   "status": "proved",
   "theorems": [
    "C46_session_is_map",
    "C46_flush_then_read",
    "C46_survives_requests"
   ],
   "note": ""
  },
  {
   "property": "C47",
   "status": "proved",
   "theorems": [
    "C47_destroyed_exact",
    "C47_both_destroy",
    "C47_revived",
    "C47_destroy_reports",
    "C47_destroyed_stays_partial",
    "C47_other_object_refuted"
   ],
   "note": "exact over all histories of actions"
  },
  {
   "property": "C48",
   "status": "proved",
   "theorems": [
    "C48_flush_exact",
    "C48_retry_partial",
    "C48_retry_refuted"
   ],
   "note": "exact, with every connection failure"
  },
  {
   "property": "C49",
   "status": "proved",
   "theorems": [
    "C49_sessions_isolated"
   ],
   "note": ""
  },
  {
   "property": "C99",
   "status": "proved",
   "theorems": [
    "C99_logout_exact",
    "C99_logout_partial",
    "C99_logout_refuted"
   ],
   "note": "exact, with every connection failure"
  },
  {
   "property": "C100",
   "status": "proved",
   "theorems": [
    "C100_touch_extends",
    "C100_touch_exact"
   ],
   "note": ""
  },
  {
   "property": "C57",
   "status": "proved",
   "theorems": [
    "C57_first_nonempty",
    "C57_env_name",
    "C57_env_key_shared_refuted"
   ],
   "note": "parents form a finite chain; names of environment variables are shared by different keys (C57_env_key_shared_refuted)"
  },
  {
   "property": "C58",
   "status": "proved",
   "theorems": [
    "C58_line_forms",
    "C58_last_value_wins",
    "C58_round_trip",
    "C58_render_and_parse",
    "C58_byte_order_mark",
    "C58_list_section"
   ],
   "note": ""
  },
  {
   "property": "C59",
   "status": "proved",
   "theorems": [
    "C59_loader_total",
    "C59_errors_exact"
   ],
   "note": ""
  },
  {
   "property": "C60",
   "status": "proved",
   "theorems": [
    "C60_default_exact",
    "C60_default_partial",
    "C60_default_refuted"
   ],
   "note": "exact"
  },
  {
   "property": "C61",
   "status": "proved",
   "theorems": [
    "C61_bind_exact",
    "C61_bind_partial",
    "C61_bind_refuted",
    "C61_no_configer"
   ],
   "note": "exact"
  },
  {
   "property": "C62",
   "status": "proved",
   "theorems": [
    "C62_later_files_win",
    "C62_files_in_order",
    "C62_dir_again_refuted"
   ],
   "note": "a directory named again keeps its first place (C62_dir_again_refuted)"
  },
  {
   "property": "C101",
   "status": "proved",
   "theorems": [
    "C101_set_exact",
    "C101_set_partial",
    "C101_set_splits_refuted",
    "C101_string_exact",
    "C101_unique"
   ],
   "note": "exact"
  },
  {
   "property": "C102",
   "status": "proved",
   "theorems": [
    "C102_decode_exact",
    "C102_decode_partial",
    "C102_decode_refuted"
   ],
   "note": "exact"
  },
  {
   "property": "C63",
   "status": "proved",
   "theorems": [
    "C63_unified_values",
    "C63_first_value_is_bound",
    "C63_string"
   ],
   "note": "a url-encoded body repeats the query's values at the end (C64)"
  },
  {
   "property": "C64",
   "status": "proved",
   "theorems": [
    "C64_each_value_count",
    "C64_each_value_once_iff",
    "C64_each_value_once_partial",
    "C64_each_value_once_refuted"
   ],
   "note": "the naive claim (never twice) is refuted"
  },
  {
   "property": "C65",
   "status": "proved",
   "theorems": [
    "C65_integer_binding_exact_form",
    "C65_uint_binding_exact_form",
    "C65_integer_binding_partial",
    "C65_integer_binding_refuted"
   ],
   "note": "exact"
  },
  {
   "property": "C66",
   "status": "proved",
   "theorems": [
    "C66_bool_binding"
   ],
   "note": ""
  },
  {
   "property": "C67",
   "status": "proved",
   "theorems": [
    "C67_slice_elements",
    "C67_indexed_value",
    "C67_zero_values"
   ],
   "note": "for every order of the maps"
  },
  {
   "property": "C68",
   "status": "proved",
   "theorems": [
    "C68_only_the_order_varies",
    "C68_equal_when_orderly",
    "C68_two_spellings_refuted",
    "C68_number_keys_refuted",
    "C68_binding_is_deterministic_partial",
    "C68_binding_is_deterministic_refuted"
   ],
   "note": "equality without conditions is refuted three ways; the theorems say what remains for every type with string-keyed maps"
  },
  {
   "property": "C84",
   "status": "proved",
   "theorems": [
    "C84_real_ip",
    "C84_right_for",
    "C84_right_for_forwarded",
    "C84_real_host",
    "C84_real_ip_partial",
    "C84_real_ip_refuted",
    "C84_real_host_partial",
    "C84_real_host_refuted"
   ],
   "note": "the naive claim (address without port) is refuted for IPv6"
  },
  {
   "property": "C103",
   "status": "proved",
   "theorems": [
    "C103_panics_exactly",
    "C103_no_slice_no_panic",
    "C103_binding_never_panics_partial",
    "C103_binding_never_panics_refuted"
   ],
   "note": "exact for types without embedded structs (C192); memory is unlimited in the model (C110: one parameter can ask for any size)"
  },
  {
   "property": "C104",
   "status": "proved",
   "theorems": [
    "C104_pointer",
    "C104_parts_alone",
    "C104_pointer_partial",
    "C104_pointer_set_iff_submitted_refuted"
   ],
   "note": "the naive claim (set when a part was submitted) is refuted"
  },
  {
   "property": "C105",
   "status": "proved",
   "theorems": [
    "C105_bind_values_to_struct",
    "C105_panics_only",
    "C105_unmentioned_fields_are_reset",
    "C105_unmentioned_is_reset",
    "C105_unsubmitted_scalars_become_zero",
    "C105_unsubmitted_fields_are_kept_refuted"
   ],
   "note": "that unsubmitted fields keep their value is refuted; distinct, acyclic embedded pointers"
  },
  {
   "property": "C106",
   "status": "proved",
   "theorems": [
    "C106_parameters_after_errors",
    "C106_errors_keep_other_params_partial",
    "C106_errors_keep_other_params_refuted"
   ],
   "note": "that other parameters survive a malformed body is refuted"
  },
  {
   "property": "C107",
   "status": "proved",
   "theorems": [
    "C107_struct_fields",
    "C67_zero_values"
   ],
   "note": "fields promoted from embedded structs: C192"
  },
  {
   "property": "C108",
   "status": "proved",
   "theorems": [
    "C108_map_entries",
    "C108_map_from_json",
    "C108_scalar_keys",
    "C108_scalar_keys_json"
   ],
   "note": "string, bool and integer keys"
  },
  {
   "property": "C109",
   "status": "proved",
   "theorems": [
    "C109_which_uploads_can_be_read",
    "C109_one_such_list",
    "C109_uploads_can_be_read_partial",
    "C109_uploads_can_be_read_refuted",
    "C109_uploads_on_disk_are_gone",
    "C109_big_upload_is_lost"
   ],
   "note": "that every upload can be read is refuted"
  },
  {
   "property": "C110",
   "status": "proved",
   "theorems": [
    "C110_slice_size",
    "C110_size_is_determined",
    "C110_one_parameter_any_size",
    "C110_slice_size_partial",
    "C110_slice_size_is_bounded_by_the_request_refuted"
   ],
   "note": "that the size is bounded by the request is refuted"
  },
  {
   "property": "C69",
   "status": "proved",
   "theorems": [
    "C69_bound"
   ],
   "note": "all interleavings, any programs"
  },
  {
   "property": "C70",
   "status": "proved",
   "theorems": [
    "C70_barrier",
    "C70_all_done"
   ],
   "note": ""
  },
  {
   "property": "C71",
   "status": "proved",
   "theorems": [
    "C71_closed"
   ],
   "note": ""
  },
  {
   "property": "C72",
   "status": "proved",
   "theorems": [
    "C72_recorded_once",
    "C72_failure_is_recorded",
    "C72_one_is_recorded",
    "C72_who_reports",
    "C72_error_is_a_tasks_partial",
    "C72_reported_once_partial",
    "C72_recorded_error_reported_partial",
    "C72_missed_refuted",
    "C72_lost_refuted"
   ],
   "note": "that Wait reports the failure of every task it waited for is refuted; who_reports and recorded_error_reported say together what is reported, up to the race of the record with a Wait under way"
  },
  {
   "property": "C73",
   "status": "proved",
   "theorems": [
    "C73_no_channel_panic"
   ],
   "note": ""
  },
  {
   "property": "C74",
   "status": "proved",
   "theorems": [
    "C74_submit_blocks_only_if",
    "C74_only_deadlock",
    "C74_deadlock_for_every_n",
    "C74_nested_refuted",
    "C74_deadlock_partial",
    "C74_spare_slot_partial"
   ],
   "note": "that submitting from a task is safe is refuted"
  },
  {
   "property": "C75",
   "status": "proved",
   "theorems": [
    "C75_terminates",
    "C75_progress",
    "C75_no_crash"
   ],
   "note": "main goroutines may submit, wait and close freely"
  },
  {
   "property": "C111",
   "status": "proved",
   "theorems": [
    "C111_panics_only_if",
    "C111_panics_for_every_n",
    "C111_submit_during_wait_refuted",
    "C111_submit_after_wakeup_refuted",
    "C111_orderly_partial"
   ],
   "note": "that RunTask may be called while another goroutine waits is refuted"
  },
  {
   "property": "C112",
   "status": "proved",
   "theorems": [
    "C112_every_deadlock",
    "C112_close_blocks_only_if",
    "C112_close_in_task_refuted",
    "C112_close_outside_partial"
   ],
   "note": "that Close can be called from anywhere is refuted; the deadlocks of every program are characterised"
  },
  {
   "property": "C113",
   "status": "proved",
   "theorems": [
    "C113_wrong_type_blocks_for_ever",
    "C113_wrong_type_stays",
    "C113_wrong_type_takes_a_slot",
    "C113_other_task_refuted",
    "C113_unended_blocks_partial"
   ],
   "note": "that it does no harm is refuted"
  },
  {
   "property": "C114",
   "status": "proved",
   "theorems": [
    "C114_accepted_until",
    "C114_dropped_after",
    "C114_reuse_partial",
    "C114_reuse_refuted"
   ],
   "note": "that a worker can be used again after any Wait is refuted"
  },
  {
   "property": "C115",
   "status": "proved",
   "theorems": [
    "C115_once"
   ],
   "note": ""
  },
  {
   "property": "C80",
   "status": "proved",
   "theorems": [
    "C80_round_trip",
    "C80_decode_any"
   ],
   "note": ""
  },
  {
   "property": "C81",
   "status": "proved",
   "theorems": [
    "C81_own_ids_accepted",
    "C81_visible",
    "C81_which_ids",
    "C81_first_header"
   ],
   "note": "without a ReqidFilter"
  },
  {
   "property": "C85",
   "status": "proved",
   "theorems": [
    "C85_level_filter",
    "C85_more_severe_passes"
   ],
   "note": ""
  },
  {
   "property": "C86",
   "status": "proved",
   "theorems": [
    "C86_flat_one_line"
   ],
   "note": ""
  },
  {
   "property": "C87",
   "status": "proved",
   "theorems": [
    "C87_carries_request_id"
   ],
   "note": "for ids without a newline, as HTTP guarantees"
  },
  {
   "property": "C116",
   "status": "proved",
   "theorems": [
    "C116_printed_text",
    "C116_line_exact",
    "C116_methods"
   ],
   "note": ""
  },
  {
   "property": "C117",
   "status": "proved",
   "theorems": [
    "C117_recover_panics_iff",
    "C117_recover_returns",
    "C117_recover_partial",
    "C117_recover_refuted"
   ],
   "note": "that Recover contains every panic is refuted"
  },
  {
   "property": "C118",
   "status": "proved",
   "theorems": [
    "C118_ids_equal_iff",
    "C118_ids_distinct_partial",
    "C118_ids_refuted"
   ],
   "note": "that ids are unique is refuted"
  },
  {
   "property": "C119",
   "status": "proved",
   "theorems": [
    "C119_first_is_a_write",
    "C119_first_is_a_flush",
    "C119_one_is_first",
    "C119_response_carries_id_partial",
    "C119_response_carries_id_refuted",
    "C119_header_names"
   ],
   "note": "that the response always carries the id is refuted"
  },
  {
   "property": "C120",
   "status": "proved",
   "theorems": [
    "C120_lines_are",
    "C120_logged_status_not_sent",
    "C120_begin_and_end_partial",
    "C120_begin_and_end_refuted"
   ],
   "note": "that every request has an end line with the status sent is refuted"
  },
  {
   "property": "C121",
   "status": "proved",
   "theorems": [
    "C121_address_is",
    "C121_entry_exists",
    "C121_forwarded_iff",
    "C121_client_address_partial",
    "C121_client_address_refuted",
    "C121_first_headers"
   ],
   "note": "that it is always the client address is refuted"
  },
  {
   "property": "C82",
   "status": "proved",
   "theorems": [
    "C82_inside_root",
    "C82_root_exact"
   ],
   "note": "containment of the paths handed to the file system; symbolic links are the file system's business"
  },
  {
   "property": "C83",
   "status": "proved",
   "theorems": [
    "C83_prefix_boundary",
    "prefix_used_unique"
   ],
   "note": ""
  },
  {
   "property": "C122",
   "status": "proved",
   "theorems": [
    "C122_redirect_exact",
    "C122_redirect_stays_partial",
    "C122_with_prefix",
    "C122_redirect_stays_refuted",
    "C122_location_written"
   ],
   "note": "exact condition both ways; C122_redirect_stays_refuted shows that the unconditional claim is false"
  },
  {
   "property": "C123",
   "status": "proved",
   "theorems": [
    "C123_files_closed_exact",
    "C123_all_closed_iff",
    "C123_files_closed_partial",
    "C123_files_closed_refuted"
   ],
   "note": "exact: the leak of the fallback file is the only exception and happens on every such request"
  },
  {
   "property": "C124",
   "status": "proved",
   "theorems": [
    "C124_one_answer",
    "C124_what_is_served",
    "C124_stat_failure"
   ],
   "note": ""
  },
  {
   "property": "C125",
   "status": "proved",
   "theorems": [
    "C125_skip_exact",
    "C125_skip_partial",
    "C125_skip_refuted"
   ],
   "note": "exact; C125_skip_refuted: skip prefixes do not protect files"
  },
  {
   "property": "C126",
   "status": "proved",
   "theorems": [
    "C126_fallback_exact",
    "C126_fallback_partial",
    "C126_fallback_refuted"
   ],
   "note": "exact condition both ways"
  },
  {
   "property": "C127",
   "status": "proved",
   "theorems": [
    "C127_name_exact",
    "C127_name_partial",
    "C127_name_refuted"
   ],
   "note": "all cases"
  },
  {
   "property": "C88",
   "status": "proved",
   "theorems": [
    "C88_resbody",
    "C88_with",
    "C88_content_type",
    "C88_raw_status_exact",
    "C88_rawbody_partial",
    "C88_rawret_refuted",
    "C88_rawtext_refuted"
   ],
   "note": "exact; the refutations show the unconditional claim for RawBody false"
  },
  {
   "property": "C89",
   "status": "proved",
   "theorems": [
    "C89_no_mutation",
    "C89_new",
    "C89_derived"
   ],
   "note": ""
  },
  {
   "property": "C90",
   "status": "proved",
   "theorems": [
    "C90_exact",
    "C90_documented_partial",
    "C90_other_results",
    "C90_zero_status",
    "C90_string_panics",
    "C90_documented_refuted"
   ],
   "note": "exact; string results are documented but panic"
  },
  {
   "property": "C91",
   "status": "proved",
   "theorems": [
    "C91_find_exact",
    "C91_plain_slots",
    "C91_find_partial",
    "C91_store",
    "C91_rejected",
    "key_injective",
    "C91_unnamed_refuted",
    "C91_local_refuted",
    "C91_nil_refuted",
    "C91_must"
   ],
   "note": "exact for all types (named pointer types are not modelled)"
  },
  {
   "property": "C92",
   "status": "proved",
   "theorems": [
    "C92_exact",
    "C92_transparent_partial",
    "C92_not_accepted",
    "C92_empty_refuted"
   ],
   "note": "exact; the compressor is specified by hypotheses of the section (decompression inverts it, a toy instance meets them)"
  },
  {
   "property": "C128",
   "status": "proved",
   "theorems": [
    "C128_encode_failure",
    "C128_raw_failure",
    "C128_encode_failure_refuted"
   ],
   "note": "exact behaviour; C128_encode_failure_refuted shows that the status is not 500"
  },
  {
   "property": "C129",
   "status": "proved",
   "theorems": [
    "C129_reusable"
   ],
   "note": ""
  },
  {
   "property": "C130",
   "status": "proved",
   "theorems": [
    "C130_reader_closed_exact",
    "C130_generic_exact",
    "C130_reader_closed_partial",
    "C130_reader_closed_refuted",
    "C130_generic_refuted"
   ],
   "note": "exact; in the two exceptions the reader leaks"
  },
  {
   "property": "C131",
   "status": "proved",
   "theorems": [
    "C131_derived_equal_exact",
    "C131_derived_equal_partial",
    "C131_derived_equal_refuted"
   ],
   "note": "exact"
  },
  {
   "property": "C132",
   "status": "proved",
   "theorems": [
    "C132_labelled",
    "C132_no_length",
    "C132_type",
    "C132_first_type"
   ],
   "note": "fields the chain or its hooks set themselves are theirs"
  },
  {
   "property": "C133",
   "status": "proved",
   "theorems": [
    "C133_accepts_exact",
    "C133_refused_refuted"
   ],
   "note": "exact; the refutation shows that refusals are not respected"
  },
  {
   "property": "C134",
   "status": "proved",
   "theorems": [
    "C134_outer_exact",
    "C134_outer_writes_refuted",
    "C134_outer_dropped"
   ],
   "note": "exact, all cases"
  },
  {
   "property": "C135",
   "status": "proved",
   "theorems": [
    "C135_real_url",
    "C135_real_url_error"
   ],
   "note": "url.ParseRequestURI is a parameter"
  },
  {
   "property": "C136",
   "status": "proved",
   "theorems": [
    "C136_wait_in_task_never_returns"
   ],
   "note": ""
  },
  {
   "property": "C137",
   "status": "proved",
   "theorems": [
    "C137_page_text",
    "C137_shown_is_a_function",
    "C137_text_is_kept_refuted"
   ],
   "note": ""
  },
  {
   "property": "C138",
   "status": "proved",
   "theorems": [
    "C138_stack_is_inert",
    "C138_page_is_inert_refuted",
    "C138_page_markup"
   ],
   "note": "what fmt prints for the panic value is a parameter"
  },
  {
   "property": "C139",
   "status": "proved",
   "theorems": [
    "C139_stack_frames",
    "C139_line_text_is_a_function",
    "C139_file_source",
    "C139_addresses"
   ],
   "note": "files do not change while Stack runs; file names are not empty"
  },
  {
   "property": "C140",
   "status": "proved",
   "theorems": [
    "C140_function_names",
    "C140_unknown_function"
   ],
   "note": ""
  },
  {
   "property": "C141",
   "status": "proved",
   "theorems": [
    "C141_page_shows_stack",
    "C141_page_layout"
   ],
   "note": "function names contain no line break"
  },
  {
   "property": "C142",
   "status": "proved",
   "theorems": [
    "C142_session_and_its_map",
    "C142_read_session"
   ],
   "note": "one goroutine at a time"
  },
  {
   "property": "C143",
   "status": "proved",
   "theorems": [
    "C143_dummy_is_a_session"
   ],
   "note": ""
  },
  {
   "property": "C144",
   "status": "proved",
   "theorems": [
    "C144_what_flush_saves",
    "C144_changes_are_saved_refuted"
   ],
   "note": ""
  },
  {
   "property": "C145",
   "status": "proved",
   "theorems": [
    "C145_effective_settings",
    "C145_mode_from_file_refuted"
   ],
   "note": "the environment does not change in between"
  },
  {
   "property": "C146",
   "status": "proved",
   "theorems": [
    "C146_other_options_panic",
    "C146_classic_filters",
    "C146_on_a_used_application",
    "C146_again_adds_nothing_refuted"
   ],
   "note": "hooks add filters of the program only, none twice"
  },
  {
   "property": "C147",
   "status": "proved",
   "theorems": [
    "C147_gc_schedule",
    "C147_interval_used_refuted",
    "C147_no_secret_no_manager"
   ],
   "note": ""
  },
  {
   "property": "C148",
   "status": "proved",
   "theorems": [
    "C148_after_hijack",
    "C148_failed_hijack"
   ],
   "note": ""
  },
  {
   "property": "C149",
   "status": "proved",
   "theorems": [
    "C149_body_exact"
   ],
   "note": ""
  },
  {
   "property": "C150",
   "status": "proved",
   "theorems": [
    "C150_signed_exact",
    "C150_unsigned_exact",
    "C150_text_exact",
    "C150_no_number",
    "C150_widening",
    "C150_bool_exact",
    "C150_other_accessors"
   ],
   "note": "exact; floats only as a source, by their printed form"
  },
  {
   "property": "C151",
   "status": "proved",
   "theorems": [
    "C151_to_int64_exact"
   ],
   "note": "exact"
  },
  {
   "property": "C152",
   "status": "proved",
   "theorems": [
    "C152_float",
    "C152_time",
    "C152_one_time",
    "C152_zero_values"
   ],
   "note": "exact, for any reader of floats and times"
  },
  {
   "property": "C153",
   "status": "proved",
   "theorems": [
    "C153_default_times",
    "C153_zone_of_any_format",
    "C153_one_meaning",
    "C153_no_minutes_refuted"
   ],
   "note": "exact; the fraction's nanoseconds and the zone's offset are read by an arbitrary function; that hour and minute suffice is refuted"
  },
  {
   "property": "C154",
   "status": "proved",
   "theorems": [
    "C154_first",
    "C154_read_error",
    "C154_body_is_read_once",
    "C154_twice_refuted"
   ],
   "note": "for any decoder"
  },
  {
   "property": "C155",
   "status": "proved",
   "theorems": [
    "C155_bodies",
    "C155_values"
   ],
   "note": "exact"
  },
  {
   "property": "C156",
   "status": "proved",
   "theorems": [
    "C156_limit",
    "C156_first_setting_wins",
    "C156_later_settings_refuted"
   ],
   "note": "all interleavings"
  },
  {
   "property": "C157",
   "status": "proved",
   "theorems": [
    "C157_readable",
    "C157_no_file_stays",
    "C157_all_or_lost",
    "C157_upload_refuted"
   ],
   "note": "that every upload can be read is refuted"
  },
  {
   "property": "C158",
   "status": "proved",
   "theorems": [
    "C158_router_panics",
    "C158_router_path"
   ],
   "note": "white space as strings.TrimSpace"
  },
  {
   "property": "C159",
   "status": "proved",
   "theorems": [
    "C159_accepted",
    "C159_nil"
   ],
   "note": "all types, methods and options"
  },
  {
   "property": "C160",
   "status": "proved",
   "theorems": [
    "C160_accepted",
    "C160_invoked",
    "C160_exempt",
    "C160_provide_refuted",
    "C160_typed_refuted",
    "C160_numbered"
   ],
   "note": "that Exempt takes away an inject.Provide given as a slice is refuted; C160_numbered links to the numbered filters of the routing model"
  },
  {
   "property": "C161",
   "status": "proved",
   "theorems": [
    "C161_unreached_structs_stay",
    "C161_own_fields",
    "C161_as_alone",
    "C161_failed_lookup"
   ],
   "note": "all schedules"
  },
  {
   "property": "C162",
   "status": "proved",
   "theorems": [
    "C162_shared_behind_pointers"
   ],
   "note": "isolation behind pointers is refuted for every such controller"
  },
  {
   "property": "C163",
   "status": "proved",
   "theorems": [
    "C163_as_alone",
    "C163_shared_injectors_stay",
    "C163_cycle_always_reported_refuted"
   ],
   "note": "functions provided answer a request as if it were alone; a request works on its own injectors only"
  },
  {
   "property": "C164",
   "status": "proved",
   "theorems": [
    "C164_counter_wraps_refuted"
   ],
   "note": "the property is the exact form: when the spurious cycle is reported"
  },
  {
   "property": "C165",
   "status": "proved",
   "theorems": [
    "C165_found",
    "C165_arguments",
    "C165_kept_after_call",
    "C165_provided_is_given",
    "C165_kept_is_given",
    "C165_find_gives_provided",
    "C165_without_callbacks",
    "C165_last_provided_wins_refuted"
   ],
   "note": "one goroutine"
  },
  {
   "property": "C166",
   "status": "proved",
   "theorems": [
    "C166_kept_calls_nothing",
    "C166_made_once_refuted",
    "C166_cycles_are_reported_refuted"
   ],
   "note": "made once and cycle reporting are refuted for functions that call back"
  },
  {
   "property": "C167",
   "status": "proved",
   "theorems": [
    "C167_values_exact",
    "C167_route_sees_app",
    "C167_app_keeps_its_values",
    "C167_context_of_the_request",
    "C167_derived_lookups_return",
    "C167_behind_itself",
    "C167_lookups_return_refuted",
    "C167_key"
   ],
   "note": "that all lookups return is refuted; when they do is proved"
  },
  {
   "property": "C168",
   "status": "proved",
   "theorems": [
    "C168_at_most_once_in_order",
    "C168_given_context",
    "C168_found_context",
    "C168_app_chain_is_over",
    "C168_requests_end",
    "C168_own_contexts_only",
    "C168_next_on_found_context_refuted",
    "C168_goes_on_after_panic"
   ],
   "note": "agrees with ChainModel for handlers that use only the Context they are given"
  },
  {
   "property": "C169",
   "status": "proved",
   "theorems": [
    "C169_value_given_back",
    "C169_kept_is_a_function",
    "C169_caches_agree",
    "C169_memcached_keys"
   ],
   "note": "floats are not modelled"
  },
  {
   "property": "C170",
   "status": "proved",
   "theorems": [
    "C170_gc_needs_no_server",
    "C170_lost_connection"
   ],
   "note": "all failure points"
  },
  {
   "property": "C171",
   "status": "proved",
   "theorems": [
    "C171_session_is_a_register",
    "C171_own_copy"
   ],
   "note": "all schedules and faults"
  },
  {
   "property": "C172",
   "status": "proved",
   "theorems": [
    "C172_lost_update",
    "C172_serial_updates_survive",
    "C172_updates_survive_refuted"
   ],
   "note": "that overlapping updates survive is refuted, with the exact outcome"
  },
  {
   "property": "C173",
   "status": "proved",
   "theorems": [
    "C173_logger_of_the_request",
    "C173_filter_sets_logger",
    "C173_get_logger",
    "C173_with_logger",
    "C173_key"
   ],
   "note": "all handlers and histories"
  },
  {
   "property": "C174",
   "status": "proved",
   "theorems": [
    "C174_values_of_the_request",
    "C174_values_survive_refuted"
   ],
   "note": "that values survive the filter is refuted; what is found is exact"
  },
  {
   "property": "C175",
   "status": "proved",
   "theorems": [
    "C175_each_node_once"
   ],
   "note": "the matcher instrumented with its looks, shown to find what the matcher of C01-C15 finds"
  },
  {
   "property": "C176",
   "status": "proved",
   "theorems": [
    "C176_own_filters",
    "C176_no_replacing",
    "C176_shared_exact",
    "C176_independent_refuted"
   ],
   "note": "independence for all uses refuted with Go's doubling; exact law of two calls"
  },
  {
   "property": "C177",
   "status": "proved",
   "theorems": [
    "C177_status_reported",
    "C177_text_is_body",
    "C177_other_errors"
   ],
   "note": "on the heap of errors of C89 and C131"
  },
  {
   "property": "C178",
   "status": "proved",
   "theorems": [
    "C178_nil_or_not",
    "C178_odd_nils",
    "C178_booleans"
   ],
   "note": ""
  },
  {
   "property": "C179",
   "status": "proved",
   "theorems": [
    "C179_alone",
    "C179_regenerate_exact",
    "C179_values_at_the_first_read",
    "C179_old_id_is_gone",
    "C179_update_survives_refuted",
    "C179_old_id_comes_back_refuted"
   ],
   "note": "that no flushed update is lost and that the old id stops working are refuted; alone shows that the steps are those of the Regenerate of SessModel"
  },
  {
   "property": "C180",
   "status": "proved",
   "theorems": [
    "C180_session_line",
    "C180_remember_line",
    "C180_deleting_lines",
    "C180_bad_names",
    "C180_token"
   ],
   "note": "the lines as a browser of RFC 6265 (UserAgent.v) parses them; which texts are domain names is that of net/http"
  },
  {
   "property": "C181",
   "status": "proved",
   "theorems": [
    "C181_same_request",
    "C181_other_cookies",
    "C181_second_line_lost_refuted"
   ],
   "note": "that the other cookies stay is refuted for requests with several Cookie lines"
  },
  {
   "property": "C182",
   "status": "proved",
   "theorems": [
    "C182_kept",
    "C182_read_back",
    "C182_stays",
    "C182_destroyed"
   ],
   "note": "for every browser history; the browser is the specification UserAgent.v"
  },
  {
   "property": "C183",
   "status": "proved",
   "theorems": [
    "C183_remember_in_the_browser"
   ],
   "note": "exact, for lifetimes up to 292 years either way"
  },
  {
   "property": "C184",
   "status": "proved",
   "theorems": [
    "C184_which_cookie_counts",
    "C184_no_cookie",
    "C184_tossed_refuted",
    "C184_readable_value",
    "C184_blanks"
   ],
   "note": "exact; that a valid session cookie that is sent counts is refuted"
  },
  {
   "property": "C185",
   "status": "proved",
   "theorems": [
    "C185_start_after_destroy",
    "C185_lost_session_refuted",
    "C185_regenerate_after_destroy"
   ],
   "note": "that Destroy and Start in one request leave the browser with the new session is refuted"
  },
  {
   "property": "C186",
   "status": "proved",
   "theorems": [
    "C186_three_cases",
    "C186_exists_hangs",
    "C186_find_hangs",
    "C186_provided_is_found"
   ],
   "note": "in Go the endless recursion ends the program"
  },
  {
   "property": "C187",
   "status": "proved",
   "theorems": [
    "C187_which_domains_count",
    "C187_domain_names",
    "C187_addresses"
   ],
   "note": "the rules are those of net/http, which drops the attribute with a line in the log only"
  },
  {
   "property": "C188",
   "status": "proved",
   "theorems": [
    "C188_same_resource",
    "C188_errors",
    "C188_own_text",
    "C188_original_text",
    "C188_text_kept_refuted",
    "C188_host_text",
    "C188_path_text"
   ],
   "note": "exact; that the text of the header is kept is refuted; other forms of targets (star, full URLs) are quantified"
  },
  {
   "property": "C189",
   "status": "proved",
   "theorems": [
    "C189_where_run_listens",
    "C189_endpoints",
    "C189_ipv6_refuted"
   ],
   "note": "the form of addresses is that of net.SplitHostPort; the system calls are not modelled; that every IP address can be configured is refuted"
  },
  {
   "property": "C190",
   "status": "proved",
   "theorems": [
    "C190_strings",
    "C190_pieces_join",
    "C190_join_back",
    "C190_empty_delimiter",
    "C190_empty_delimiter_any"
   ],
   "note": "exact for UTF-8 text; a byte that begins no UTF-8 sequence is kept, as Go does since 1.18"
  },
  {
   "property": "C191",
   "status": "proved",
   "theorems": [
    "C191_integer_in_base",
    "C191_read_back",
    "C191_no_number",
    "C191_float",
    "C191_different_integers"
   ],
   "note": "exact; the digits of floats are quantified"
  },
  {
   "property": "C192",
   "status": "proved",
   "theorems": [
    "C192_field_by_name",
    "C192_bound",
    "C192_pointer_panics",
    "C192_order_irrelevant",
    "C192_order_refuted",
    "C192_pointer_order_refuted"
   ],
   "note": "what Bind gives for a field is quantified; types that embed themselves through pointers are not modelled; that promoted fields can always be bound, and that the order never matters, is refuted: C192_order_irrelevant says when it does not"
  }
 ]
}