C01 | proved | C01_served_action_was_declared | for all programs, methods, paths
C02 | proved | C02_static_routes_always_served | latest declaration of the pattern and method is served
C03 | proved | C03_not_found_exact C03_found_exact C03_not_found_complete_refuted C03_not_found_complete_partial | both directions for every program; the refuted theorem shows that conforming patterns can be missed (the hidden ones)
C04 | proved | C04_selection_exact C04_selection_unique C04_priority_unique C04_priority_refuted C04_route_priority_partial | iff for every program; priority over hidden patterns is refuted
C05 | proved | C05_segments_clean C05_normalisation | trimming is Go's TrimSpace incl. the Unicode spaces
C06 | proved | C06_params_are_the_matched_segments | names, values, reconstruction of the path and Values map
C07 | proved | C07_request_exact C07_answers_exist C07_method_dispatch C07_dispatch_total | all cases, HEAD defaults and replaced wildcards included
C08 | proved | C08_head_exact C08_head_is_get_refuted C08_head_is_get_partial | exact; the refuted theorem is the double GET declaration
C09 | proved | C09_filters_in_force C09_outer_before_inner | set, order and uniqueness of the filters of every served action
C11 | proved | C11_param_names_agree C11_wildcard_names_agree C11_wildcard_is_last | stated as facts of every accepted program
C12 | proved | C12_registration_exact C12_table_exact C12_registration_monotone_refuted C12_registration_monotone_partial | exact; the refuted theorem is the replaced wildcard
C14 | proved | C14_route_info_path | 
C10 | proved | C10_sibling_filters_do_not_interfere | slice heap with aliasing; every append/remove modelled on shared arrays
C13 | proved | C13_one_call C13_used_twice C13_builders_independent_partial C13_builders_independent_refuted | that builders are independent is refuted
C15 | proved | C15_call_exact C15_recorded_types C15_arguments_partial C15_arguments_refuted C15_zero_values | exact for all types; floats by an arbitrary parser
C76 | proved | C76_integer_round_trip | 
C77 | proved | C77_strip_exact_or_error C77_utils_int_exact C77_utils_uint_exact C77_utils_exact_or_error_partial C77_utils_zero_on_error_refuted | exact for both packages and every string
C78 | proved | C78_exact C78_strip_exact C78_tostr_prints_partial C78_tostr_prints_refuted | exact
C79 | proved | C79_exact C79_utils_uint_total C79_uint_32_bits_partial C79_strip_uint_total_refuted | exact; that every uint is parsed is refuted
C16 | proved | C16_at_most_once_in_order | holds for all behaviours, also panics and repeated Next
C17 | proved | C17_untouched_chains_complete | 
C18 | proved | C18_no_start_after_written | 
C19 | proved | C19_second_next_exact C19_next_twice_partial C19_next_twice_refuted | exact; that a second Next is harmless is refuted
C20 | proved | C20_recovery_exact C20_panic_escapes_iff C20_client_exact C20_client_500 C20_no_panic_escapes_partial C20_status_after_panic C20_client_gets_500 C20_recovery_refuted | exact; that no panic escapes and the client always gets 500 is refuted
C21 | proved | C21_one_header_first | hijacked connections may have none
C22 | proved | C22_wire_exact C22_status_exact C22_status_tells_wire C22_wire_status_partial C22_status_refuted | exact for every call sequence and every hook; that Status() is the wire status unconditionally is refuted
C23 | proved | C23_hooks_at_most_once_reversed C23_hooks_run_before_header | 
C24 | proved | C24_size_is_bytes_sent C24_written_exact C24_written_monotone C24_written_iff C24_written_iff_refuted | exact
C25 | proved | C25_flush_exact C25_flush_first C25_flush_after_write_partial C25_flush_commits_200 C25_flush_refuted | exact; the intended claim (Flush sends the pending status) is refuted
C93 | proved | C93_requests_end_exact C93_request_is_an_exchange C93_requests_end C93_requests_end_refuted | exact
C94 | proved | C94_request_runs_exactly C94_request_starts_only | composition of router and chains
C26 | proved | C26_find_exact logged_kept C26_nearest_value_partial C26_nearest_function_partial C26_nowhere C26_nearest_refuted C26_assigned | exact for every history; what is kept is read off the log of calls
C27 | proved | C27_kept_exact logged_kept C26_find_exact C27_built_once_partial C27_same_value_partial C27_built_once_refuted | exact for every history and every next operation
C28 | proved | C28_only_supported_calls C28_missing_is_error C28_missing_exact | every history; chains of parents that end
C29 | proved | C29_cycle_is_error C29_cycle_exact C29_cycle_named | every history; chains of parents that end
C30 | proved | C30_hangs_exact C30_terminates_acyclic_partial C30_terminates_refuted | exact for every history; the unconditional claim is refuted by prog30
C31 | proved | C31_invoke_exact C31_invoke_once_partial C31_invoke_once_refuted | exact for every history
C32 | proved | C32_find_exact C32_invoke_exact C32_invoke_cycle_named C32_find_succeeds_partial C32_invoke_succeeds_partial C32_invoke_succeeds_refuted | exact for every history, no panics; own slot provided as a value: only the two bounds
C33 | proved | C33_slots_exact C33_literals_share C33_named_slots_differ_partial C33_slots_differ_refuted C33_pointers_aside | exact
C34 | proved | C34_provide_exact C34_new_value_is_found C34_new_function_is_called C34_built_values_stay C34_reprovide_refuted | exact for every history
C95 | proved | C95_apply_exact C95_apply_sets_tagged_fields_partial C95_apply_refuted | exact
C96 | proved | C96_exists_is_pure | 
C97 | proved | C97_arguments_of_providers C97_arguments_of_invoke C97_arguments_of_invoke_partial | every history
C35 | proved | C35_secure_round_trip C35_empty_refused | 
C36 | proved | C36_accepted_exact C36_accepted_is_signed C36_other_key_refused | for every MAC function
C37 | proved | C37_same_text_exact C37_reused_signature_exact C37_signature_covers_pair_refuted C37_signature_covers_pair_partial | exact, for every MAC function; the naive property (one pair per signature) is refuted
C38 | proved | C38_time_exact C36_accepted_exact C38_expiry_refuted C38_time_is_signed_partial C38_never_later_partial | exact; C38_expiry_refuted shows how the saturation undoes expiry
C39 | proved | C39_remember_round_trip | 
C40 | proved | C40_has_remember_exact C40_not_ok_is_empty C40_only_remember_cookies_refuted C40_reported_user_is_signed_partial | exact
C41 | proved | C41_sid_well_formed C41_sids_differ C41_sid_or_panic | 
C42 | proved | C42_number_round_trip C42_any_text C42_outside_domain C42_decode_exact | 
C43 | proved | C43_random_bytes_exact C43_letters_used C43_random_bytes_partial C43_random_bytes_refuted C43_no_partial_output C43_alphabets | exact
C50 | proved | C50_cache_is_ttl_map | for values that print, keys and timeouts the server takes (memcached: up to 30 days, no evictions), Redis Touch without "no end" (C53)
C51 | proved | C51_gc_visible_exact C51_gc_invisible_partial C51_gc_invisible_refuted | exact
C52 | proved | C52_comes_back_exact C52_missing_until_set_partial C52_expired_returns_refuted | exact, for timeouts and values the server takes
C53 | proved | C53_touch_forever_exact C53_touch_forever_partial C53_touch_forever_refuted | exact
C54 | proved | C54_timeout_exact C54_mongo_overflow_exact C54_positive_timeout_partial C54_default_timeout C54_no_timeout C54_huge_timeout_refuted | exact up to 9223372036 s on every back end and beyond on Mongo; Redis and memcached beyond that depend on floats, not modelled
C55 | proved | C55_redis_isolation_exact C55_memcached_isolation_exact C55_memcached_keys_exact C55_clean_exact C55_prefixes_isolate_partial C55_prefixes_isolate_refuted | exact
C56 | proved | C56_ends_exact C56_agreement_exact C56_back_ends_agree_partial C56_back_ends_agree_refuted | exact
C98 | proved | C98_counters_exact C98_redis_any_text C98_missing_exact C98_default_count C98_counters_partial C98_memcached_counts_up_partial C98_counters_refuted | exact
C44 | proved | C44_start_exact C44_fresh_session C44_existing_session C44_id_not_chosen_partial C44_fresh_id_refuted C44_remember_as_session_refuted | exact, with every connection failure
C45 | proved | C45_regenerate_exact C45_no_cookie C45_regenerate_partial C45_regenerate_new C45_cache_error_refuted C45_old_id_refuted | exact, with every connection failure; the naive property is refuted by C45_cache_error_refuted and C45_old_id_refuted
C46 | proved | C46_session_is_map C46_flush_then_read C46_survives_requests | 
C47 | proved | C47_destroyed_exact C47_both_destroy C47_revived C47_destroy_reports C47_destroyed_stays_partial C47_other_object_refuted | exact over all histories of actions
C48 | proved | C48_flush_exact C48_retry_partial C48_retry_refuted | exact, with every connection failure
C49 | proved | C49_sessions_isolated | 
C99 | proved | C99_logout_exact C99_logout_partial C99_logout_refuted | exact, with every connection failure
C100 | proved | C100_touch_extends C100_touch_exact | 
C57 | proved | C57_first_nonempty C57_env_name C57_env_key_shared_refuted | parents form a finite chain; names of environment variables are shared by different keys (C57_env_key_shared_refuted)
C58 | proved | C58_line_forms C58_last_value_wins C58_round_trip C58_render_and_parse C58_byte_order_mark C58_list_section | 
C59 | proved | C59_loader_total C59_errors_exact | 
C60 | proved | C60_default_exact C60_default_partial C60_default_refuted | exact
C61 | proved | C61_bind_exact C61_bind_partial C61_bind_refuted C61_no_configer | exact
C62 | proved | C62_later_files_win C62_files_in_order C62_dir_again_refuted | a directory named again keeps its first place (C62_dir_again_refuted)
C101 | proved | C101_set_exact C101_set_partial C101_set_splits_refuted C101_string_exact C101_unique | exact
C102 | proved | C102_decode_exact C102_decode_partial C102_decode_refuted | exact
C63 | proved | C63_unified_values C63_first_value_is_bound C63_string | a url-encoded body repeats the query's values at the end (C64)
C64 | proved | C64_each_value_count C64_each_value_once_iff C64_each_value_once_partial C64_each_value_once_refuted | the naive claim (never twice) is refuted
C65 | proved | C65_integer_binding_exact_form C65_uint_binding_exact_form C65_integer_binding_partial C65_integer_binding_refuted | exact
C66 | proved | C66_bool_binding |
C67 | proved | C67_slice_elements C67_indexed_value C67_zero_values | for every order of the maps
C68 | proved | C68_only_the_order_varies C68_equal_when_orderly C68_two_spellings_refuted C68_number_keys_refuted C68_binding_is_deterministic_partial C68_binding_is_deterministic_refuted | equality without conditions is refuted three ways; the theorems say what remains for every type with string-keyed maps
C84 | proved | C84_real_ip C84_right_for C84_right_for_forwarded C84_real_host C84_real_ip_partial C84_real_ip_refuted C84_real_host_partial C84_real_host_refuted | the naive claim (address without port) is refuted for IPv6
C103 | proved | C103_panics_exactly C103_no_slice_no_panic C103_binding_never_panics_partial C103_binding_never_panics_refuted | exact for types without embedded structs (C192); memory is unlimited in the model (C110: one parameter can ask for any size)
C104 | proved | C104_pointer C104_parts_alone C104_pointer_partial C104_pointer_set_iff_submitted_refuted | the naive claim (set when a part was submitted) is refuted
C105 | proved | C105_bind_values_to_struct C105_panics_only C105_unmentioned_fields_are_reset C105_unmentioned_is_reset C105_unsubmitted_scalars_become_zero C105_unsubmitted_fields_are_kept_refuted | that unsubmitted fields keep their value is refuted; distinct, acyclic embedded pointers
C106 | proved | C106_parameters_after_errors C106_errors_keep_other_params_partial C106_errors_keep_other_params_refuted | that other parameters survive a malformed body is refuted
C107 | proved | C107_struct_fields C67_zero_values | fields promoted from embedded structs: C192
C108 | proved | C108_map_entries C108_map_from_json C108_scalar_keys C108_scalar_keys_json | string, bool and integer keys
C109 | proved | C109_which_uploads_can_be_read C109_one_such_list C109_uploads_can_be_read_partial C109_uploads_can_be_read_refuted C109_uploads_on_disk_are_gone C109_big_upload_is_lost | that every upload can be read is refuted
C110 | proved | C110_slice_size C110_size_is_determined C110_one_parameter_any_size C110_slice_size_partial C110_slice_size_is_bounded_by_the_request_refuted | that the size is bounded by the request is refuted
C69 | proved | C69_bound | all interleavings, any programs
C70 | proved | C70_barrier C70_all_done |
C71 | proved | C71_closed |
C72 | proved | C72_recorded_once C72_failure_is_recorded C72_one_is_recorded C72_who_reports C72_error_is_a_tasks_partial C72_reported_once_partial C72_recorded_error_reported_partial C72_missed_refuted C72_lost_refuted | that Wait reports the failure of every task it waited for is refuted; who_reports and recorded_error_reported say together what is reported, up to the race of the record with a Wait under way
C73 | proved | C73_no_channel_panic |
C74 | proved | C74_submit_blocks_only_if C74_only_deadlock C74_deadlock_for_every_n C74_nested_refuted C74_deadlock_partial C74_spare_slot_partial | that submitting from a task is safe is refuted
C75 | proved | C75_terminates C75_progress C75_no_crash | main goroutines may submit, wait and close freely
C111 | proved | C111_panics_only_if C111_panics_for_every_n C111_submit_during_wait_refuted C111_submit_after_wakeup_refuted C111_orderly_partial | that RunTask may be called while another goroutine waits is refuted
C112 | proved | C112_every_deadlock C112_close_blocks_only_if C112_close_in_task_refuted C112_close_outside_partial | that Close can be called from anywhere is refuted; the deadlocks of every program are characterised
C113 | proved | C113_wrong_type_blocks_for_ever C113_wrong_type_stays C113_wrong_type_takes_a_slot C113_other_task_refuted C113_unended_blocks_partial | that it does no harm is refuted
C114 | proved | C114_accepted_until C114_dropped_after C114_reuse_partial C114_reuse_refuted | that a worker can be used again after any Wait is refuted
C115 | proved | C115_once |
C80 | proved | C80_round_trip C80_decode_any |
C81 | proved | C81_own_ids_accepted C81_visible C81_which_ids C81_first_header | without a ReqidFilter
C85 | proved | C85_level_filter C85_more_severe_passes |
C86 | proved | C86_flat_one_line |
C87 | proved | C87_carries_request_id | for ids without a newline, as HTTP guarantees
C116 | proved | C116_printed_text C116_line_exact C116_methods |
C117 | proved | C117_recover_panics_iff C117_recover_returns C117_recover_partial C117_recover_refuted | that Recover contains every panic is refuted
C118 | proved | C118_ids_equal_iff C118_ids_distinct_partial C118_ids_refuted | that ids are unique is refuted
C119 | proved | C119_first_is_a_write C119_first_is_a_flush C119_one_is_first C119_response_carries_id_partial C119_response_carries_id_refuted C119_header_names | that the response always carries the id is refuted
C120 | proved | C120_lines_are C120_logged_status_not_sent C120_begin_and_end_partial C120_begin_and_end_refuted | that every request has an end line with the status sent is refuted
C121 | proved | C121_address_is C121_entry_exists C121_forwarded_iff C121_client_address_partial C121_client_address_refuted C121_first_headers | that it is always the client address is refuted
C82 | proved | C82_inside_root C82_root_exact | containment of the paths handed to the file system; symbolic links are the file system's business
C83 | proved | C83_prefix_boundary prefix_used_unique | 
C122 | proved | C122_redirect_exact C122_redirect_stays_partial C122_with_prefix C122_redirect_stays_refuted C122_location_written | exact condition both ways; C122_redirect_stays_refuted shows that the unconditional claim is false
C123 | proved | C123_files_closed_exact C123_all_closed_iff C123_files_closed_partial C123_files_closed_refuted | exact: the leak of the fallback file is the only exception and happens on every such request
C124 | proved | C124_one_answer C124_what_is_served C124_stat_failure | 
C125 | proved | C125_skip_exact C125_skip_partial C125_skip_refuted | exact; C125_skip_refuted: skip prefixes do not protect files
C126 | proved | C126_fallback_exact C126_fallback_partial C126_fallback_refuted | exact condition both ways
C127 | proved | C127_name_exact C127_name_partial C127_name_refuted | all cases
C88 | proved | C88_resbody C88_with C88_content_type C88_raw_status_exact C88_rawbody_partial C88_rawret_refuted C88_rawtext_refuted | exact; the refutations show the unconditional claim for RawBody false
C89 | proved | C89_no_mutation C89_new C89_derived | 
C90 | proved | C90_exact C90_documented_partial C90_other_results C90_zero_status C90_string_panics C90_documented_refuted | exact; string results are documented but panic
C91 | proved | C91_find_exact C91_plain_slots C91_find_partial C91_store C91_rejected key_injective C91_unnamed_refuted C91_local_refuted C91_nil_refuted C91_must | exact for all types (named pointer types are not modelled)
C92 | proved | C92_exact C92_transparent_partial C92_not_accepted C92_empty_refuted | exact; the compressor is specified by hypotheses of the section (decompression inverts it, a toy instance meets them)
C128 | proved | C128_encode_failure C128_raw_failure C128_encode_failure_refuted | exact behaviour; C128_encode_failure_refuted shows that the status is not 500
C129 | proved | C129_reusable | 
C130 | proved | C130_reader_closed_exact C130_generic_exact C130_reader_closed_partial C130_reader_closed_refuted C130_generic_refuted | exact; in the two exceptions the reader leaks
C131 | proved | C131_derived_equal_exact C131_derived_equal_partial C131_derived_equal_refuted | exact
C132 | proved | C132_labelled C132_no_length C132_type C132_first_type | fields the chain or its hooks set themselves are theirs
C133 | proved | C133_accepts_exact C133_refused_refuted | exact; the refutation shows that refusals are not respected
C134 | proved | C134_outer_exact C134_outer_writes_refuted C134_outer_dropped | exact, all cases
C135 | proved | C135_real_url C135_real_url_error | url.ParseRequestURI is a parameter
C136 | proved | C136_wait_in_task_never_returns | 
C137 | proved | C137_page_text C137_shown_is_a_function C137_text_is_kept_refuted | 
C138 | proved | C138_stack_is_inert C138_page_is_inert_refuted C138_page_markup | what fmt prints for the panic value is a parameter
C139 | proved | C139_stack_frames C139_line_text_is_a_function C139_file_source C139_addresses | files do not change while Stack runs; file names are not empty
C140 | proved | C140_function_names C140_unknown_function | 
C141 | proved | C141_page_shows_stack C141_page_layout | function names contain no line break
C142 | proved | C142_session_and_its_map C142_read_session | one goroutine at a time
C143 | proved | C143_dummy_is_a_session | 
C144 | proved | C144_what_flush_saves C144_changes_are_saved_refuted | 
C145 | proved | C145_effective_settings C145_mode_from_file_refuted | the environment does not change in between
C146 | proved | C146_other_options_panic C146_classic_filters C146_on_a_used_application C146_again_adds_nothing_refuted | hooks add filters of the program only, none twice
C147 | proved | C147_gc_schedule C147_interval_used_refuted C147_no_secret_no_manager | 
C148 | proved | C148_after_hijack C148_failed_hijack | 
C149 | proved | C149_body_exact | 
C150 | proved | C150_signed_exact C150_unsigned_exact C150_text_exact C150_no_number C150_widening C150_bool_exact C150_other_accessors | exact; floats only as a source, by their printed form
C151 | proved | C151_to_int64_exact | exact
C152 | proved | C152_float C152_time C152_one_time C152_zero_values | exact, for any reader of floats and times
C153 | proved | C153_default_times C153_zone_of_any_format C153_one_meaning C153_no_minutes_refuted | exact; the fraction's nanoseconds and the zone's offset are read by an arbitrary function; that hour and minute suffice is refuted
C154 | proved | C154_first C154_read_error C154_body_is_read_once C154_twice_refuted | for any decoder
C155 | proved | C155_bodies C155_values | exact
C156 | proved | C156_limit C156_first_setting_wins C156_later_settings_refuted | all interleavings
C157 | proved | C157_readable C157_no_file_stays C157_all_or_lost C157_upload_refuted | that every upload can be read is refuted
C158 | proved | C158_router_panics C158_router_path | white space as strings.TrimSpace
C159 | proved | C159_accepted C159_nil | all types, methods and options
C160 | proved | C160_accepted C160_invoked C160_exempt C160_provide_refuted C160_typed_refuted C160_numbered | that Exempt takes away an inject.Provide given as a slice is refuted; C160_numbered links to the numbered filters of the routing model
C161 | proved | C161_unreached_structs_stay C161_own_fields C161_as_alone C161_failed_lookup | all schedules
C162 | proved | C162_shared_behind_pointers | isolation behind pointers is refuted for every such controller
C163 | proved | C163_as_alone C163_shared_injectors_stay C163_cycle_always_reported_refuted | functions provided answer a request as if it were alone; a request works on its own injectors only
C164 | proved | C164_counter_wraps_refuted | the property is the exact form: when the spurious cycle is reported
C165 | proved | C165_found C165_arguments C165_kept_after_call C165_provided_is_given C165_kept_is_given C165_find_gives_provided C165_without_callbacks C165_last_provided_wins_refuted | one goroutine
C166 | proved | C166_kept_calls_nothing C166_made_once_refuted C166_cycles_are_reported_refuted | made once and cycle reporting are refuted for functions that call back
C167 | proved | C167_values_exact C167_route_sees_app C167_app_keeps_its_values C167_context_of_the_request C167_derived_lookups_return C167_behind_itself C167_lookups_return_refuted C167_key | that all lookups return is refuted; when they do is proved
C168 | proved | C168_at_most_once_in_order C168_given_context C168_found_context C168_app_chain_is_over C168_requests_end C168_own_contexts_only C168_next_on_found_context_refuted C168_goes_on_after_panic | agrees with ChainModel for handlers that use only the Context they are given
C169 | proved | C169_value_given_back C169_kept_is_a_function C169_caches_agree C169_memcached_keys | floats are not modelled
C170 | proved | C170_gc_needs_no_server C170_lost_connection | all failure points
C171 | proved | C171_session_is_a_register C171_own_copy | all schedules and faults
C172 | proved | C172_lost_update C172_serial_updates_survive C172_updates_survive_refuted | that overlapping updates survive is refuted, with the exact outcome
C173 | proved | C173_logger_of_the_request C173_filter_sets_logger C173_get_logger C173_with_logger C173_key | all handlers and histories
C174 | proved | C174_values_of_the_request C174_values_survive_refuted | that values survive the filter is refuted; what is found is exact
C175 | proved | C175_each_node_once | the matcher instrumented with its looks, shown to find what the matcher of C01-C15 finds
C176 | proved | C176_own_filters C176_no_replacing C176_shared_exact C176_independent_refuted | independence for all uses refuted with Go's doubling; exact law of two calls
C177 | proved | C177_status_reported C177_text_is_body C177_other_errors | on the heap of errors of C89 and C131
C178 | proved | C178_nil_or_not C178_odd_nils C178_booleans | 
C179 | proved | C179_alone C179_regenerate_exact C179_values_at_the_first_read C179_old_id_is_gone C179_update_survives_refuted C179_old_id_comes_back_refuted | that no flushed update is lost and that the old id stops working are refuted; alone shows that the steps are those of the Regenerate of SessModel
C180 | proved | C180_session_line C180_remember_line C180_deleting_lines C180_bad_names C180_token | the lines as a browser of RFC 6265 (UserAgent.v) parses them; which texts are domain names is that of net/http
C181 | proved | C181_same_request C181_other_cookies C181_second_line_lost_refuted | that the other cookies stay is refuted for requests with several Cookie lines
C182 | proved | C182_kept C182_read_back C182_stays C182_destroyed | for every browser history; the browser is the specification UserAgent.v
C183 | proved | C183_remember_in_the_browser | exact, for lifetimes up to 292 years either way
C184 | proved | C184_which_cookie_counts C184_no_cookie C184_tossed_refuted C184_readable_value C184_blanks | exact; that a valid session cookie that is sent counts is refuted
C185 | proved | C185_start_after_destroy C185_lost_session_refuted C185_regenerate_after_destroy | that Destroy and Start in one request leave the browser with the new session is refuted
C186 | proved | C186_three_cases C186_exists_hangs C186_find_hangs C186_provided_is_found | in Go the endless recursion ends the program
C187 | proved | C187_which_domains_count C187_domain_names C187_addresses | the rules are those of net/http, which drops the attribute with a line in the log only
C188 | proved | C188_same_resource C188_errors C188_own_text C188_original_text C188_text_kept_refuted C188_host_text C188_path_text | exact; that the text of the header is kept is refuted; other forms of targets (star, full URLs) are quantified
C189 | proved | C189_where_run_listens C189_endpoints C189_ipv6_refuted | the form of addresses is that of net.SplitHostPort; the system calls are not modelled; that every IP address can be configured is refuted
C190 | proved | C190_strings C190_pieces_join C190_join_back C190_empty_delimiter C190_empty_delimiter_any | exact for UTF-8 text; a byte that begins no UTF-8 sequence is kept, as Go does since 1.18
C191 | proved | C191_integer_in_base C191_read_back C191_no_number C191_float C191_different_integers | exact; the digits of floats are quantified
C192 | proved | C192_field_by_name C192_bound C192_pointer_panics C192_order_irrelevant C192_order_refuted C192_pointer_order_refuted | what Bind gives for a field is quantified; types that embed themselves through pointers are not modelled; that promoted fields can always be bound, and that the order never matters, is refuted: C192_order_irrelevant says when it does not
