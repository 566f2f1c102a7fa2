{
 "claims": [
  {
   "property": "C01",
   "status": "proved",
   "theorems": [
    "C01_field_roundtrip",
    "C01_peek_value",
    "C01_fill_bits",
    "C01_write_bit"
   ],
   "note": "Values, indices and lengths are unbounded numbers; size_t wrap-around is not modelled."
  },
  {
   "property": "C02",
   "status": "proved",
   "theorems": [
    "C02_reversed_roundtrip",
    "C02_write_normal_read_reversed"
   ],
   "note": ""
  },
  {
   "property": "C03",
   "status": "proved",
   "theorems": [
    "C03_layout_roundtrip"
   ],
   "note": ""
  },
  {
   "property": "C04",
   "status": "proved",
   "theorems": [
    "C04_write_bounds",
    "C04_read_bounds"
   ],
   "note": "Indices are unbounded numbers; addresses that wrap are in C95. Reads before the vector and forming out-of-range pointers without access are not distinguished."
  },
  {
   "property": "C05",
   "status": "proved",
   "theorems": [
    "C05_codeword_syndrome",
    "C05_remainders",
    "C05_remainder_unique",
    "C05_length_limits"
   ],
   "note": "is_remainder is an independent GF(2) polynomial specification; the remainder is unique."
  },
  {
   "property": "C06",
   "status": "proved",
   "theorems": [
    "C06_linear",
    "C06_burst_detected"
   ],
   "note": ""
  },
  {
   "property": "C07",
   "status": "proved",
   "theorems": [
    "C07_pack_bytes",
    "C07_unpack_pack",
    "C07_pack_unpack"
   ],
   "note": ""
  },
  {
   "property": "C08",
   "status": "proved",
   "theorems": [
    "C08_hexstr",
    "C08_hex_roundtrip",
    "C08_unhex"
   ],
   "note": "The defect for sizes not divisible by four is part of the theorem C08_hex_roundtrip."
  },
  {
   "property": "C09",
   "status": "proved",
   "theorems": [
    "C09_punctured",
    "C09_unpunctured",
    "C09_roundtrip"
   ],
   "note": "Sizes below 2^31 and unsigned int indices."
  },
  {
   "property": "C10",
   "status": "proved",
   "theorems": [
    "C10_map",
    "C10_unmap",
    "C10_unmap_map",
    "C10_map_unmap"
   ],
   "note": ""
  },
  {
   "property": "C11",
   "status": "proved",
   "theorems": [
    "C11_invert",
    "C11_LSB8MSB",
    "C11_reverse8",
    "C11_sum_print",
    "C11_from_text",
    "C11_bit_access",
    "C11_settfb_outside",
    "C11_equal_raw",
    "C11_equal_after_invert",
    "C11_equal_bits_refuted"
   ],
   "note": "operator== on raw bytes: C11_equal_bits_refuted is the witness of the defect."
  },
  {
   "property": "C12",
   "status": "proved",
   "theorems": [
    "C12_no_double_free",
    "C12_one_owner",
    "C12_no_leak",
    "C12_destroy"
   ],
   "note": "C12_no_double_free also covers histories that touch dangling aliases: those end in VBadAccess, never in VBadFree."
  },
  {
   "property": "C13",
   "status": "proved",
   "theorems": [
    "C13_segment_shares",
    "C13_write_read",
    "C13_segment_bounds",
    "C13_copy_of_owner",
    "C13_const_copy",
    "C13_clone_segment",
    "C13_copy_of_alias"
   ],
   "note": ""
  },
  {
   "property": "C14",
   "status": "proved",
   "theorems": [
    "C14_assign_distinct",
    "C14_shift_distinct",
    "C14_self_assign_loses_contents",
    "C14_assign_own_view_dangles",
    "C14_self_assign_alias",
    "C14_self_shift_empties",
    "C14_self_assign_keeps_refuted"
   ],
   "note": "Defects: C14_self_assign_loses_contents, C14_assign_own_view_dangles, C14_self_shift_empties hold for every such state."
  },
  {
   "property": "C15",
   "status": "proved",
   "theorems": [
    "C15_slice_soft",
    "C15_sliced",
    "C15_print",
    "C15_print_bits",
    "C15_access",
    "C15_unknown"
   ],
   "note": ""
  },
  {
   "property": "C16",
   "status": "proved",
   "theorems": [
    "C16_int_exact",
    "C16_add_exact",
    "C16_sub_exact",
    "C16_mul_floor",
    "C16_div_trunc",
    "C16_compare"
   ],
   "note": "Integer operations; float conversions are the subject of C59."
  },
  {
   "property": "C17",
   "status": "proved",
   "theorems": [
    "C17_add_overflow",
    "C17_mul_wraps",
    "C17_mul_saturation_refuted",
    "C17_div_zero",
    "C17_chained_assignment"
   ],
   "note": ""
  },
  {
   "property": "C18",
   "status": "proved",
   "theorems": [
    "C18_fifo_refines_deque",
    "C18_no_crosslink",
    "C18_null_ambiguous"
   ],
   "note": ""
  },
  {
   "property": "C19",
   "status": "proved",
   "theorems": [
    "C19_list_refines_deque",
    "C19_double_push_refuted",
    "C19_resized_node_refuted"
   ],
   "note": "Nodes are client objects; the duties of the client are the predicate allowed_run, refuted without it by two witnesses."
  },
  {
   "property": "C20",
   "status": "proved",
   "theorems": [
    "C20_linearizable",
    "C20_fifo",
    "C20_exactly_once",
    "C20_read_not_null",
    "C20_returned_is_taken"
   ],
   "note": "Any number of threads, any schedule, spurious wake-ups included; items compared without NULLs, which are consumed silently."
  },
  {
   "property": "C21",
   "status": "proved",
   "theorems": [
    "C21_wakeups_cover_items",
    "C21_no_lost_wakeup",
    "C21_null_write_refuted"
   ],
   "note": "C21_null_write_refuted is the witness for the defect with NULL writes."
  },
  {
   "property": "C22",
   "status": "proved",
   "theorems": [
    "C22_single_waiter",
    "C22_timeout_spins_forever",
    "C22_wrong_reader_refuted"
   ],
   "note": "Defects: C22_timeout_spins_forever (for every continuation), C22_wrong_reader_refuted."
  },
  {
   "property": "C23",
   "status": "proved",
   "theorems": [
    "C23_linearizable",
    "C23_fifo",
    "C23_single_drainer",
    "C23_readers_woken",
    "C23_two_drainers_refuted",
    "C23_null_refuted"
   ],
   "note": "Defects: C23_two_drainers_refuted, C23_null_refuted."
  },
  {
   "property": "C24",
   "status": "proved",
   "theorems": [
    "C24_linearizable",
    "C24_contents",
    "C24_get_latest",
    "C24_no_lost_wakeup"
   ],
   "note": "InterthreadMap1::size reads without the mutex and is not modelled."
  },
  {
   "property": "C25",
   "status": "proved",
   "theorems": [
    "C25_accounting",
    "C25_deleted_once",
    "C25_displaced_deleted",
    "C25_rewrite_dangles",
    "C25_rewrite_refuted",
    "C25_destructor_leaks"
   ],
   "note": "Defects: C25_rewrite_dangles, C25_rewrite_refuted, C25_destructor_leaks."
  },
  {
   "property": "C26",
   "status": "proved",
   "theorems": [
    "C26_linearizable",
    "C26_read_least",
    "C26_exactly_once",
    "C26_no_lost_wakeup"
   ],
   "note": "std::priority_queue is modelled by the contract of top/pop, ties resolved by an arbitrary choice argument."
  },
  {
   "property": "C27",
   "status": "proved",
   "theorems": [
    "C27_linearizable",
    "C27_wakeup_on_the_way",
    "C27_no_lost_wakeup",
    "C27_gets_bounded"
   ],
   "note": ""
  },
  {
   "property": "C28",
   "status": "proved",
   "theorems": [
    "C28_mutual_exclusion",
    "C28_lockcnt",
    "C28_lockcnt_depth",
    "C28_sites_in_bounds",
    "C28_released",
    "C28_free_when_idle",
    "C28_mutext_names_holder",
    "C28_recursive_wait_keeps_mutex",
    "C28_lockcnt_waiter_refuted"
   ],
   "note": "pthread mutexes by their specification (recursive, glibc condition waits). Defects: C28_recursive_wait_keeps_mutex, C28_lockcnt_waiter_refuted."
  },
  {
   "property": "C29",
   "status": "proved",
   "theorems": [
    "C29_timedlock_sound",
    "C29_timedlock_wrong",
    "C29_timedlock_false",
    "C29_lock_has_mutex",
    "C29_affected_timeouts"
   ],
   "note": "Defect for every affected clock value: C29_timedlock_wrong."
  },
  {
   "property": "C30",
   "status": "proved",
   "theorems": [
    "C30_constructor_holds_all",
    "C30_scopes_exclude",
    "C30_destructor_restores",
    "C30_no_hold_and_wait",
    "C30_no_deadlock",
    "C30_deadlock_refuted"
   ],
   "note": "Defect: C30_deadlock_refuted. Livelock (endless retries) is not excluded and not claimed."
  },
  {
   "property": "C31",
   "status": "proved",
   "theorems": [
    "C31_future_exact",
    "C31_future_normal_iff",
    "C31_timespec_valid_iff",
    "C31_invalid_deadline"
   ],
   "note": "Defect: C31_invalid_deadline."
  },
  {
   "property": "C32",
   "status": "proved",
   "theorems": [
    "C32_delta_accurate",
    "C32_delta_antisymmetric",
    "C32_delta_additive",
    "C32_remaining_of_future",
    "C32_passed_iff_later",
    "C32_remaining_passed",
    "C32_delta_overflows",
    "C32_passed_unnormalised_refuted",
    "C32_addMinutes_exact_iff"
   ],
   "note": "Defects: C32_delta_overflows, C32_passed_unnormalised_refuted, addMinutes wraps from 71582789 minutes on."
  },
  {
   "property": "C33",
   "status": "proved",
   "theorems": [
    "C33_encode_rfc4648",
    "C33_roundtrip",
    "C33_roundtrip_spaces",
    "C33_whitespace_ignored",
    "C33_length",
    "C33_error_iff",
    "C33_truncated_accepted"
   ],
   "note": "Defect: C33_truncated_accepted."
  },
  {
   "property": "C34",
   "status": "proved",
   "theorems": [
    "C34_encode",
    "C34_decode",
    "C34_roundtrip",
    "C34_error_iff",
    "C34_output_length"
   ],
   "note": "C34_error_iff gives the exact error condition."
  },
  {
   "property": "C35",
   "status": "proved",
   "theorems": [
    "C35_binary_identity",
    "C35_unknown_rejected",
    "C35_roundtrip",
    "C35_stale_error",
    "C35_case_sensitive"
   ],
   "note": "Defects: C35_stale_error, C35_case_sensitive."
  },
  {
   "property": "C36",
   "status": "proved",
   "theorems": [
    "C36_shape",
    "C36_unreserved_kept",
    "C36_roundtrip_iff",
    "C36_escaped",
    "C36_not_injective_refuted",
    "C36_slash_becomes_dot",
    "C36_nul_not_escaped"
   ],
   "note": "Defects: C36_roundtrip_iff says exactly which strings survive; C36_not_injective_refuted."
  },
  {
   "property": "C37",
   "status": "proved",
   "theorems": [
    "C37_positive",
    "C37_zero",
    "C37_mixed_signs",
    "C37_both_negative"
   ],
   "note": "Depth of the recursion is the fuel; Diverge for every fuel is endless recursion."
  },
  {
   "property": "C38",
   "status": "proved",
   "theorems": [
    "C38_replaced",
    "C38_unique",
    "C38_absent",
    "C38_empty_search"
   ],
   "note": "replaced is an inductive specification, shown to determine the result."
  },
  {
   "property": "C39",
   "status": "proved",
   "theorems": [
    "C39_cstrSplit",
    "C39_stringSplit",
    "C39_separators",
    "C39_cstrGetArg",
    "C39_no_field"
   ],
   "note": ""
  },
  {
   "property": "C40",
   "status": "proved",
   "theorems": [
    "C40_safe",
    "C40_count",
    "C40_pointee_alive",
    "C40_deleted_once",
    "C40_last_release",
    "C40_dead_stays_dead",
    "C40_overflow_refuted",
    "C40_cycle_leaks",
    "C40_member_release_refuted"
   ],
   "note": "Histories of one thread (or serialised ones); duties of the caller are the predicate allowed. Limits by witness: C40_overflow_refuted, C40_cycle_leaks, C40_member_release_refuted."
  },
  {
   "property": "C41",
   "status": "proved",
   "theorems": [
    "C41_roundtrip",
    "C41_digits",
    "C41_digits32",
    "C41_wrong_length"
   ],
   "note": ""
  },
  {
   "property": "C42",
   "status": "proved",
   "theorems": [
    "C42_format_whole",
    "C42_format_long",
    "C42_format_199",
    "C42_osprintf"
   ],
   "note": "The formatted text is an argument; vsnprintf by its specification."
  },
  {
   "property": "C43",
   "status": "proved",
   "theorems": [
    "C43_count",
    "C43_initial",
    "C43_min_max",
    "C43_average",
    "C43_empty",
    "C43_wrap_refuted",
    "C43_rounding",
    "C43_sum_rounded_refuted"
   ],
   "note": "The rounding of the final division is left out; doubles of the running sum are rounded to 53 bits."
  },
  {
   "property": "C44",
   "status": "proved",
   "theorems": [
    "C44_refines_map",
    "C44_read_your_writes",
    "C44_removed",
    "C44_remove_absent_refuted",
    "C44_all_pairs"
   ],
   "note": "SQLite is specified by SqlModel.v (lexer, parser and effect of the statement forms used). defines() is lookup succeeding and is not stated separately."
  },
  {
   "property": "C45",
   "status": "proved",
   "theorems": [
    "C45_three_seconds",
    "C45_two_tables_refuted",
    "C45_clock_set_back_refuted",
    "C45_failed_read_cached_refuted"
   ],
   "note": "Defects: C45_two_tables_refuted (any length of time), C45_clock_set_back_refuted, C45_failed_read_cached_refuted."
  },
  {
   "property": "C46",
   "status": "proved",
   "theorems": [
    "C46_num_roundtrip",
    "C46_decimal",
    "C46_hex",
    "C46_octal",
    "C46_no_number",
    "C46_bool",
    "C46_words_are_false_refuted"
   ],
   "note": "getFloat is not modelled."
  },
  {
   "property": "C47",
   "status": "proved",
   "theorems": [
    "C47_set_verbatim",
    "C47_remove_verbatim",
    "C47_lookup_verbatim",
    "C47_nul_rejected",
    "C47_injection_refuted",
    "C47_doubled_quote_refuted",
    "C47_apostrophe_key_refuted",
    "C47_remove_all_refuted",
    "C47_column_name_refuted",
    "C47_description_refuted"
   ],
   "note": "SQLite by the specification in SqlModel.v. Defects: C47_injection_refuted, C47_doubled_quote_refuted, C47_apostrophe_key_refuted, C47_remove_all_refuted, C47_column_name_refuted, C47_description_refuted."
  },
  {
   "property": "C48",
   "status": "proved",
   "theorems": [
    "C48_boolean",
    "C48_optional",
    "C48_regex",
    "C48_string",
    "C48_choice",
    "C48_choice_undescribed",
    "C48_address",
    "C48_cidr",
    "C48_host_and_port",
    "C48_address_and_port",
    "C48_address_list",
    "C48_port",
    "C48_file_path",
    "C48_range",
    "C48_delimiter_refuted",
    "C48_trailing_refuted",
    "C48_saturated_refuted",
    "C48_choice_refuted",
    "C48_list_ports_refuted",
    "C48_ranges_refuted",
    "C48_unset_refuted"
   ],
   "note": "regcomp/regexec and float ranges are parameters, instantiated in C93 and C94; inet_pton and stream extraction by the specifications in ValidModel.v."
  },
  {
   "property": "C49",
   "status": "proved",
   "theorems": [
    "C49_strings",
    "C49_runs_unique",
    "C49_words_roundtrip",
    "C49_numbers",
    "C49_numbers_roundtrip",
    "C49_tab_refuted"
   ],
   "note": "Values without NUL; numbers need fields without white space other than the space (C49_tab_refuted shows why)."
  },
  {
   "property": "C50",
   "status": "proved",
   "theorems": [
    "C50_get_last",
    "C50_get_other",
    "C50_key_with_equals_refuted",
    "C50_all_texts",
    "C50_leak_refuted",
    "C50_getNum_flag_refuted",
    "C50_getNum"
   ],
   "note": "C50_all_texts: every text without NUL is covered."
  },
  {
   "property": "C51",
   "status": "proved",
   "theorems": [
    "C51_one_character",
    "C51_nine_ascii",
    "C51_ten_characters_refuted",
    "C51_bytes_refuted",
    "C51_greater_refuted",
    "C51_order"
   ],
   "note": "Nine is the exact limit: C51_ten_characters_refuted."
  },
  {
   "property": "C52",
   "status": "proved",
   "theorems": [
    "C52_level_names",
    "C52_lookup",
    "C52_prescribed_unique",
    "C52_corrects",
    "C52_fresh",
    "C52_fresh_short_names",
    "C52_limit_reached",
    "C52_collision_refuted",
    "C52_threads",
    "C52_held_up_refuted"
   ],
   "note": "The key/value store, getStr and the schema default are parameters. Defects: C52_collision_refuted, C52_held_up_refuted; C52_limit_reached shows that 1000 is exact."
  },
  {
   "property": "C53",
   "status": "proved",
   "theorems": [
    "C53_last_alarms",
    "C53_changing_limits",
    "C53_kept",
    "C53_negative_limit_refuted"
   ],
   "note": "Defect: C53_negative_limit_refuted."
  },
  {
   "property": "C54",
   "status": "proved",
   "theorems": [
    "C54_accounting",
    "C54_never_more",
    "C54_conserved",
    "C54_commit",
    "C54_max",
    "C54_failed_update_refuted",
    "C54_created_late_refuted",
    "C54_clear_pending_refuted",
    "C54_column_refuted"
   ],
   "note": "SQLite is specified by ReportModel.v (a row per name, UPDATE ... WHERE name= with double quotes). Defects: the four theorems ending in _refuted."
  },
  {
   "property": "C55",
   "status": "proved",
   "theorems": [
    "C55_buffer",
    "C55_injective",
    "C55_range",
    "C55_range_fails",
    "C55_whole_range_refuted",
    "C55_command_limits",
    "C55_command_overflow"
   ],
   "note": "create_range with real buffers; C55_whole_range_refuted holds for every start."
  },
  {
   "property": "C56",
   "status": "proved",
   "theorems": [
    "C56_run_query",
    "C56_prepare",
    "C56_no_tries_refuted",
    "C56_command",
    "C56_query_stops",
    "C56_query_step",
    "C56_query_start"
   ],
   "note": "The results of the database functions are arbitrary sequences."
  },
  {
   "property": "C57",
   "status": "proved",
   "theorems": [
    "C57_pid_file",
    "C57_same_program",
    "C57_long_names_refuted",
    "C57_single_instance",
    "C57_file_names_instance",
    "C57_refused",
    "C57_exit",
    "C57_restart",
    "C57_race_refuted",
    "C57_second_exit_refuted",
    "C57_stale_refuted",
    "C57_signals"
   ],
   "note": "Process numbers are not reused within a history. Defects: C57_race_refuted, C57_second_exit_refuted, C57_stale_refuted, C57_long_names_refuted."
  },
  {
   "property": "C58",
   "status": "proved",
   "theorems": [
    "C58_registered",
    "C58_out_of_range",
    "C58_caught",
    "C58_delivery_general",
    "C58_delivery",
    "C58_reregister_refuted"
   ],
   "note": "The core writer and the shell command are not modelled. Defect: C58_reregister_refuted."
  },
  {
   "property": "C60",
   "status": "proved",
   "theorems": [
    "C60_firstlines",
    "C60_lines_complete",
    "C60_lines_shape",
    "C60_stringcat"
   ],
   "note": ""
  },
  {
   "property": "C61",
   "status": "proved",
   "theorems": [
    "C61_aligned",
    "C61_width",
    "C61_tabs",
    "C61_table",
    "C61_columns_dropped",
    "C61_long_cell"
   ],
   "note": ""
  },
  {
   "property": "C62",
   "status": "proved",
   "theorems": [
    "C62_set_clear",
    "C62_large_undefined"
   ],
   "note": ""
  },
  {
   "property": "C63",
   "status": "proved",
   "theorems": [
    "C63_set_get",
    "C63_too_long",
    "C63_missing",
    "C63_long_name_refuted",
    "C63_injection_refuted"
   ],
   "note": "SQLite by the specification in SqlModel.v; CREATE TABLE is taken to succeed."
  },
  {
   "property": "C64",
   "status": "proved",
   "theorems": [
    "C64_groups_unset",
    "C64_group_set_refuted",
    "C64_record",
    "C64_group_index",
    "C64_group_unknown",
    "C64_case"
   ],
   "note": "Reading freed memory is undefined behaviour in the model. Defect: C64_group_set_refuted."
  },
  {
   "property": "C65",
   "status": "proved",
   "theorems": [
    "C65_fill",
    "C65_fill_range",
    "C65_copyToSegment",
    "C65_segmentCopyTo",
    "C65_overlap_refuted",
    "C65_concat"
   ],
   "note": "One cell per element. Defect: C65_overlap_refuted."
  },
  {
   "property": "C66",
   "status": "proved",
   "theorems": [
    "C66_size",
    "C66_index",
    "C66_segment",
    "C66_segment_holds",
    "C66_head",
    "C66_tail",
    "C66_fill_range",
    "C66_minus_one_refuted",
    "C66_tail_refuted",
    "C66_negative_span_refuted",
    "C66_null"
   ],
   "note": "Pointer arithmetic as compiled on a flat 64-bit address space. Defects: C66_minus_one_refuted, C66_tail_refuted, C66_negative_span_refuted."
  },
  {
   "property": "C67",
   "status": "proved",
   "theorems": [
    "C67_write",
    "C67_no_destination",
    "C67_write_back",
    "C67_write_back_first_refuted",
    "C67_text",
    "C67_read",
    "C67_read_result",
    "C67_timeout",
    "C67_text_arrives"
   ],
   "note": "The network and the resolver are arguments of the model; Linux rules for sendto, recvfrom and select. Defects: C67_write_back_first_refuted, C67_text_arrives (last part)."
  },
  {
   "property": "C68",
   "status": "proved",
   "theorems": [
    "C68_resolve",
    "C68_host_port",
    "C68_roundtrip",
    "C68_missing_port",
    "C68_bad_port_refuted"
   ],
   "note": "gethostbyname is an argument. Defects: C68_missing_port (leak), C68_bad_port_refuted."
  },
  {
   "property": "C69",
   "status": "proved",
   "theorems": [
    "C69_open",
    "C69_write_refuted",
    "C69_destination",
    "C69_write_back",
    "C69_write_back_first_refuted"
   ],
   "note": "Linux layout of sockaddr_un. Defects: C69_open, C69_destination (overruns), C69_write_refuted, C69_write_back_first_refuted, C69_example (nameless sender)."
  },
  {
   "property": "C70",
   "status": "proved",
   "theorems": [
    "C70_own",
    "C70_close_refuted",
    "C70_reopen_refuted",
    "C70_unopened_refuted"
   ],
   "note": "socket() and bind() succeed in the model; the lowest free descriptor is taken. Defects: C70_close_refuted, C70_reopen_refuted, C70_unopened_refuted."
  },
  {
   "property": "C71",
   "status": "proved",
   "theorems": [
    "C71_exists",
    "C71_number",
    "C71_text",
    "C71_command",
    "C71_string",
    "C71_just_string",
    "C71_integer",
    "C71_program",
    "C71_no_tries_refuted",
    "C71_copy_refuted",
    "C71_rows"
   ],
   "note": "The database is an oracle for the answers of its calls. Defects: C71_no_tries_refuted, C71_copy_refuted."
  },
  {
   "property": "C59",
   "status": "proved",
   "theorems": [
    "C59_convert",
    "C59_convert_refuted",
    "C59_not_finite",
    "C59_double",
    "C59_float",
    "C59_roundtrip",
    "C59_roundtrip_refuted",
    "C59_compare",
    "C59_compare_refuted",
    "C59_mul",
    "C59_div",
    "C59_div_zero"
   ],
   "note": "Complete for finite single floats, infinities and not-a-number; the sign of zero is not kept."
  },
  {
   "property": "C72",
   "status": "proved",
   "theorems": [
    "C72_defaults",
    "C72_again",
    "C72_quote_refuted"
   ],
   "note": "SQLite's reading of the file (comments, statements, INSERT OR IGNORE) is specified in SchemaModel.v. Text with NUL is read like any other character. Defects: C72_quote_refuted."
  },
  {
   "property": "C73",
   "status": "proved",
   "theorems": [
    "C73_sections",
    "C73_special_refuted"
   ],
   "note": "Defect: C73_special_refuted."
  },
  {
   "property": "C74",
   "status": "proved",
   "theorems": [
    "C74_find",
    "C74_wildcard_refuted"
   ],
   "note": "SQLite's LIKE is specified in SchemaModel.v for ASCII letters; the statement is assumed to run without errors. Defects: C74_wildcard_refuted."
  },
  {
   "property": "C75",
   "status": "proved",
   "theorems": [
    "C75_schema",
    "C75_library",
    "C75_lookup",
    "C75_validate",
    "C75_validate_refuted",
    "C75_similar",
    "C75_name"
   ],
   "note": "std::map is a list in ascending order of keys; bytes are compared as unsigned. Defect: C75_validate_refuted."
  },
  {
   "property": "C76",
   "status": "proved",
   "theorems": [
    "C76_choices",
    "C76_ranges",
    "C76_plain_refuted",
    "C76_other",
    "C76_names",
    "C76_key",
    "C76_description"
   ],
   "note": "Defects: C76_plain_refuted; the doubled scope is part of C76_description."
  },
  {
   "property": "C77",
   "status": "proved",
   "theorems": [
    "C77_life",
    "C77_goes_on",
    "C77_undefined",
    "C77_start",
    "C77_start2",
    "C77_join",
    "C77_freed",
    "C77_unjoined",
    "C77_alert_refuted",
    "C77_new"
   ],
   "note": "pthread_create, pthread_join and pthread_attr_setstacksize as specified by POSIX and glibc (minimum stack 16384). Defects: C77_alert_refuted; the kept thread is C77_unjoined."
  },
  {
   "property": "C78",
   "status": "proved",
   "theorems": [
    "C78_lines",
    "C78_complete",
    "C78_progress",
    "C78_nested_refuted",
    "C78_throw_refuted"
   ],
   "note": "One stream is modelled; each stream has its own lock. Defects: C78_nested_refuted, C78_throw_refuted."
  },
  {
   "property": "C79",
   "status": "proved",
   "theorems": [
    "C79_law",
    "C79_now",
    "C79_total",
    "C79_no_alarm",
    "C79_copy_refuted",
    "C79_labels",
    "C79_labels_refuted"
   ],
   "note": "Each counter operation is one step: mMemNow and mMemTotal are changed under a lock; mMemMap is not, so the label law holds for programs that label in one thread. Defects: C79_copy_refuted, C79_labels_refuted."
  },
  {
   "property": "C80",
   "status": "proved",
   "theorems": [
    "C80_scan",
    "C80_determined",
    "C80_one",
    "C80_one_refuted",
    "C80_chr_refuted",
    "C80_all",
    "C80_pair",
    "C80_set",
    "C80_range",
    "C80_format"
   ],
   "note": "sscanf is specified from C11 and glibc in ScanModel.v; the strings are distinct objects; widths below 2^31; the stack is large enough. Defects: C80_one_refuted, C80_chr_refuted."
  },
  {
   "property": "C81",
   "status": "proved",
   "theorems": [
    "C81_calendar",
    "C81_iso",
    "C81_fields",
    "C81_undefined",
    "C81_order",
    "C81_injective",
    "C81_local",
    "C81_local_refuted",
    "C81_timestr",
    "C81_default"
   ],
   "note": "gmtime_r is the Gregorian calendar without leap seconds (C81_calendar checks it day by day), localtime_r shifts by an arbitrary function of the time. Defect: C81_local_refuted."
  },
  {
   "property": "C82",
   "status": "proved",
   "theorems": [
    "C82_exclusion",
    "C82_calls",
    "C82_relock_refuted",
    "C82_upgrade_refuted",
    "C82_starvation_refuted"
   ],
   "note": "pthread_rwlock is specified as in glibc with the default attributes (readers preferred, EDEADLK for the writing thread); fewer than 2^29 readers. Defects: C82_relock_refuted, C82_upgrade_refuted, C82_starvation_refuted."
  },
  {
   "property": "C83",
   "status": "proved",
   "theorems": [
    "C83_energy",
    "C83_nan",
    "C83_empty",
    "C83_certain",
    "C83_average_refuted",
    "C83_snr",
    "C83_unknown",
    "C83_defined",
    "C83_clamp_refuted"
   ],
   "note": "IEEE single and double with rounding to nearest even after each operation; the limits of the range of double are left out, and zeros have no sign. Defects: C83_average_refuted, C83_clamp_refuted."
  },
  {
   "property": "C84",
   "status": "proved",
   "theorems": [
    "C84_file",
    "C84_opens",
    "C84_level",
    "C84_mutex",
    "C84_mutex_refuted",
    "C84_mutex_again_refuted",
    "C84_complaint",
    "C84_line",
    "C84_range",
    "C84_pid_refuted",
    "C84_pid",
    "C84_cmd",
    "C84_groups"
   ],
   "note": "One thread; writing to the open file succeeds and nobody else changes it; gConfig.set succeeds; thread number and time in a record are given. Defects: C84_mutex_refuted, C84_mutex_again_refuted, C84_pid_refuted."
  },
  {
   "property": "C85",
   "status": "proved",
   "theorems": [
    "C85_conserved",
    "C85_delivered",
    "C85_alive",
    "C85_stops",
    "C85_ends",
    "C85_stores",
    "C85_pending",
    "C85_done",
    "C85_answers",
    "C85_flag_set",
    "C85_shutdown_refuted",
    "C85_early_refuted",
    "C85_second_refuted"
   ],
   "note": "gReports is the table constructed first; reads and writes of mReportRunning are atomic; commands and buffers as in C54. Defects: C85_shutdown_refuted, C85_early_refuted, C85_second_refuted."
  },
  {
   "property": "C86",
   "status": "proved",
   "theorems": [
    "C86_decimal",
    "C86_hex",
    "C86_words",
    "C86_no_number",
    "C86_exact",
    "C86_roundtrip",
    "C86_monotone",
    "C86_integer",
    "C86_set",
    "C86_agree",
    "C86_octal_refuted",
    "C86_number",
    "C86_values",
    "C86_warn"
   ],
   "note": "strtof and strtol as the C standard has them in the C locale (rounding to nearest, ties to even); the sign of zero is dropped. Defect: C86_octal_refuted."
  },
  {
   "property": "C87",
   "status": "proved",
   "theorems": [
    "C87_query_u",
    "C87_query_c",
    "C87_steps",
    "C87_columns",
    "C87_lookup_u",
    "C87_lookup_text",
    "C87_lookup_number",
    "C87_exists",
    "C87_single_u",
    "C87_single_c",
    "C87_down",
    "C87_agree",
    "C87_agree_refuted",
    "C87_cut_refuted",
    "C87_format_refuted",
    "C87_quote_refuted"
   ],
   "note": "SELECT with = and column affinities of SQLite modelled for NULL, integers and texts; real numbers and blobs left out. Defects: C87_cut_refuted, C87_format_refuted, C87_agree_refuted, C87_quote_refuted."
  },
  {
   "property": "C88",
   "status": "proved",
   "theorems": [
    "C88_convert",
    "C88_wrap",
    "C88_int",
    "C88_returns",
    "C88_read",
    "C88_message",
    "C88_roundtrip",
    "C88_field",
    "C88_width_refuted"
   ],
   "note": "Float_z and Double_z are left out. Defect: C88_width_refuted."
  },
  {
   "property": "C89",
   "status": "proved",
   "theorems": [
    "C89_seconds",
    "C89_timef",
    "C89_order",
    "C89_elapsed",
    "C89_print",
    "C89_digits",
    "C89_timespec",
    "C89_limit_refuted",
    "C89_stream_refuted",
    "C89_sleepf",
    "C89_sleepf_whole",
    "C89_sleepf_refuted",
    "C89_msleep",
    "C89_msleep_refuted"
   ],
   "note": "Doubles round to 53 bits at every operation. Within a tenth of a nanosecond of 10 and of 2^32 microseconds sleepf is left open. Defects: C89_limit_refuted, C89_stream_refuted, C89_sleepf_refuted, C89_msleep_refuted."
  },
  {
   "property": "C90",
   "status": "proved",
   "theorems": [
    "C90_open",
    "C90_listed",
    "C90_no_exception",
    "C90_calls",
    "C90_cached",
    "C90_find",
    "C90_unopened",
    "C90_not_answering_refuted"
   ],
   "note": "Reads while the database answers, keys and values that cannot be confused with SQL (C47). Defects: C90_unopened (crossCheck), C90_not_answering_refuted."
  },
  {
   "property": "C91",
   "status": "proved",
   "theorems": [
    "C91_render",
    "C91_defined",
    "C91_unique",
    "C91_exists",
    "C91_not_cut",
    "C91_decimal",
    "C91_times",
    "C91_statements",
    "C91_cell",
    "C91_mutext",
    "C91_octal_refuted",
    "C91_text_as_format",
    "C91_text_as_format_refuted"
   ],
   "note": "Without %g, %f and %p; the cut to the buffers is C42. Defects of use: C91_octal_refuted, C91_text_as_format_refuted."
  },
  {
   "property": "C92",
   "status": "proved",
   "theorems": [
    "C92_linearizable",
    "C92_no_dangling",
    "C92_ends",
    "C92_only_races",
    "C92_race_free",
    "C92_two_tables_refuted",
    "C92_unknown_refuted"
   ],
   "note": "A step does one access to shared memory; sqlite serialises the statements; without the update hook and cross checks. Defects: C92_two_tables_refuted, C92_unknown_refuted."
  },
  {
   "property": "C93",
   "status": "proved",
   "theorems": [
    "C93_compile",
    "C93_unique",
    "C93_invalid",
    "C93_outside",
    "C93_search",
    "C93_match",
    "C93_Regexp",
    "C93_literal",
    "C93_constants",
    "C93_string",
    "C93_regex_key",
    "C93_unanchored_refuted"
   ],
   "note": "regcomp and regexec are modelled after POSIX and, where that leaves the result open, the GNU C library, in the C locale. Defect: C93_unanchored_refuted."
  },
  {
   "property": "C94",
   "status": "proved",
   "theorems": [
    "C94_range",
    "C94_within",
    "C94_outside",
    "C94_getFloat",
    "C94_getNum",
    "C94_trailing_refuted",
    "C94_rounding_refuted",
    "C94_bound_refuted",
    "C94_octal_refuted"
   ],
   "note": "Reading a float from a stream after libstdc++. Defects: C94_trailing_refuted, C94_rounding_refuted, C94_bound_refuted, C94_octal_refuted."
  },
  {
   "property": "C95",
   "status": "proved",
   "theorems": [
    "C95_fill",
    "C95_nothing",
    "C95_as_lists",
    "C95_peek",
    "C95_peek_as_lists",
    "C95_before_refuted",
    "C95_behind_refuted",
    "C95_long_refuted"
   ],
   "note": "Flat memory; unmapped addresses are not modelled. Defects: C95_before_refuted, C95_behind_refuted, C95_long_refuted."
  },
  {
   "property": "C96",
   "status": "proved",
   "theorems": [
    "C96_exclusion",
    "C96_torn",
    "C96_defined",
    "C96_calls",
    "C96_progress",
    "C96_end",
    "C96_dies",
    "C96_arrives",
    "C96_killed",
    "C96_register",
    "C96_register_progress",
    "C96_order",
    "C96_deadlock_refuted",
    "C96_interrupted_refuted",
    "C96_early_refuted",
    "C96_twice_refuted",
    "C96_once_refuted",
    "C96_core"
   ],
   "note": "Handlers return and do not register (C58 has those that do, in one thread); printf and the allocations in the handler, which take locks of the C library, are left out. Defects: C96_deadlock_refuted, C96_interrupted_refuted, C96_early_refuted, C96_twice_refuted, C96_once_refuted."
  },
  {
   "property": "C97",
   "status": "proved",
   "theorems": [
    "C97_safe",
    "C97_alive",
    "C97_count",
    "C97_count_always",
    "C97_no_leak",
    "C97_abort",
    "C97_progress",
    "C97_ends",
    "C97_limit_refuted",
    "C97_race_refuted",
    "C97_steal_refuted"
   ],
   "note": "An assignment is a copy followed by a release and is not a step of its own (C40 has it, for one thread); messages and the count read for them are left out. Defects: C97_limit_refuted, C97_race_refuted, C97_steal_refuted."
  },
  {
   "property": "C98",
   "status": "proved",
   "theorems": [
    "C98_defined",
    "C98_syslog",
    "C98_file",
    "C98_alarms",
    "C98_last_alarms",
    "C98_copy",
    "C98_progress",
    "C98_ends",
    "C98_alone",
    "C98_mixed_refuted",
    "C98_deadlock_refuted",
    "C98_throw_refuted"
   ],
   "note": "gLogToConsole, gLogToFile and sLoggerInited do not change. Defects: C98_mixed_refuted, C98_deadlock_refuted, C98_throw_refuted."
  },
  {
   "property": "C99",
   "status": "proved",
   "theorems": [
    "C99_ends",
    "C99_ndebug",
    "C99_records",
    "C99_prescribed",
    "C99_remembered",
    "C99_alarms",
    "C99_run",
    "C99_silenced_refuted",
    "C99_throws_refuted",
    "C99_no_limit_refuted",
    "C99_again_refuted"
   ],
   "note": "One thread, no log group. Defects: C99_silenced_refuted, C99_throws_refuted, C99_no_limit_refuted, C99_again_refuted."
  },
  {
   "property": "C100",
   "status": "proved",
   "theorems": [
    "C100_fifo",
    "C100_read",
    "C100_send",
    "C100_port",
    "C100_open",
    "C100_defined",
    "C100_oneway",
    "C100_echo",
    "C100_text",
    "C100_cut_refuted",
    "C100_text_refuted",
    "C100_stolen_refuted"
   ],
   "note": "The rules of the kernel for UDP are part of the model (last socket bound to a port gets its packets, as Linux does with SO_REUSEADDR). One call at a time. Defects: C100_cut_refuted, C100_text_refuted, C100_stolen_refuted."
  },
  {
   "property": "C101",
   "status": "proved",
   "theorems": [
    "C101_disposition",
    "C101_deliver",
    "C101_not_caught",
    "C101_handle",
    "C101_new",
    "C101_defined",
    "C101_dump",
    "C101_dump_tells",
    "C101_other_refuted",
    "C101_delete_refuted",
    "C101_late_refuted",
    "C101_uninit_refuted"
   ],
   "note": "One thread; handlers return and register nothing (C58, C96 have those). Defects: C101_other_refuted, C101_delete_refuted, C101_late_refuted, C101_uninit_refuted."
  },
  {
   "property": "C102",
   "status": "proved",
   "theorems": [
    "C102_number",
    "C102_zero",
    "C102_text",
    "C102_empty",
    "C102_million_refuted",
    "C102_front",
    "C102_tells",
    "C102_average_refuted",
    "C102_sticky_refuted"
   ],
   "note": "Samples of type int and unsigned; doubles rounded to 53 bits; stream flags other than fixed and precision as at the start. Defects: C102_million_refuted, C102_average_refuted, C102_sticky_refuted."
  },
  {
   "property": "C103",
   "status": "proved",
   "theorems": [
    "C103_null",
    "C103_item",
    "C103_deadline",
    "C103_asleep",
    "C103_over",
    "C103_woken",
    "C103_goes_on",
    "C103_steps",
    "C103_short",
    "C103_long_refuted",
    "C103_spin_refuted",
    "C103_set_back_refuted",
    "C103_either_refuted",
    "C103_as_queue",
    "C103_as_map"
   ],
   "note": "One call in arbitrary surroundings. Defects: C103_long_refuted, C103_spin_refuted, C103_set_back_refuted, C103_either_refuted."
  },
  {
   "property": "C104",
   "status": "proved",
   "theorems": [
    "C104_number",
    "C104_range",
    "C104_port",
    "C104_boolean",
    "C104_tries",
    "C104_alarms",
    "C104_file",
    "C104_level",
    "C104_defaults",
    "C104_alarms_kept",
    "C104_octal_refuted",
    "C104_hex_refuted",
    "C104_names_refuted"
   ],
   "note": "Defects: C104_octal_refuted, C104_hex_refuted, C104_names_refuted."
  },
  {
   "property": "C105",
   "status": "proved",
   "theorems": [
    "C105_delivered",
    "C105_damaged",
    "C105_bytes",
    "C105_zeros",
    "C105_short_refuted",
    "C105_cut_refuted"
   ],
   "note": "Defects: C105_short_refuted, C105_cut_refuted."
  },
  {
   "property": "C106",
   "status": "proved",
   "theorems": [
    "C106_map",
    "C106_map_only",
    "C106_map_in_place",
    "C106_unmap",
    "C106_unmap_only",
    "C106_unmap_in_place",
    "C106_pack",
    "C106_unpack",
    "C106_pack_in_place",
    "C106_punctured",
    "C106_punctured_in_place",
    "C106_unpunctured",
    "C106_unpunctured_in_place_refuted",
    "C106_fill"
   ],
   "note": "Defects: C106_map_in_place, C106_unmap_in_place, C106_pack_in_place, C106_unpunctured_in_place_refuted."
  },
  {
   "property": "C107",
   "status": "proved",
   "theorems": [
    "C107_installed",
    "C107_others",
    "C107_transparent",
    "C107_builtin",
    "C107_upgrade_refuted",
    "C107_removed"
   ],
   "note": "Defect: C107_upgrade_refuted."
  },
  {
   "property": "C108",
   "status": "proved",
   "theorems": [
    "C108_sent",
    "C108_received",
    "C108_any",
    "C108_delivered",
    "C108_accepted",
    "C108_noise",
    "C108_punctured_refuted"
   ],
   "note": "Defect: C108_punctured_refuted."
  },
  {
   "property": "C109",
   "status": "proved",
   "theorems": [
    "C109_loop",
    "C109_loop_defined",
    "C109_excluded",
    "C109_assert",
    "C109_assert_refuted",
    "C109_connected_refuted",
    "C109_connect",
    "C109_chain",
    "C109_read_under_lock"
   ],
   "note": "Defects: C109_assert_refuted, C109_connected_refuted, second half of C109_chain, C109_read_under_lock."
  },
  {
   "property": "C110",
   "status": "proved",
   "theorems": [
    "C110_simulates",
    "C110_contents",
    "C110_no_lost_wakeup",
    "C110_empty",
    "C110_twice_refuted"
   ],
   "note": "Defects: C110_twice_refuted."
  },
  {
   "property": "C111",
   "status": "proved",
   "theorems": [
    "C111_choice",
    "C111_refused",
    "C111_made",
    "C111_dots",
    "C111_same",
    "C111_text",
    "C111_throws",
    "C111_callers",
    "C111_zero_refuted",
    "C111_cut_refuted",
    "C111_string_refuted"
   ],
   "note": "Overload resolution as the C++ standard has it; without nullptr, enumerations and classes with conversions. The directives are those of C91. Defects: C111_zero_refuted, C111_cut_refuted, C111_string_refuted."
  },
  {
   "property": "C112",
   "status": "proved",
   "theorems": [
    "C112_f16",
    "C112_read_back",
    "C112_tells",
    "C112_ten_refuted",
    "C112_fixed",
    "C112_fixed_refuted",
    "C112_numbers",
    "C112_f16s",
    "C112_float",
    "C112_float_refuted"
   ],
   "note": "The stream has precision 6, is fixed or not, and has no width or other flags; zero, infinities and NaN of C112_float are left out. Defects: C112_ten_refuted, C112_float_refuted, C112_fixed_refuted."
  },
  {
   "property": "C113",
   "status": "proved",
   "theorems": [
    "C113_extremes",
    "C113_sum",
    "C113_average",
    "C113_float_average",
    "C113_exact",
    "C113_text",
    "C113_nan_refuted",
    "C113_infinite_refuted",
    "C113_first_refuted",
    "C113_between_refuted",
    "C113_order_refuted",
    "C113_overflow_refuted"
   ],
   "note": "The sign of zero is left out, as is what is printed for a million samples or more, which does not depend on their type (C102). Defects: C113_nan_refuted, C113_infinite_refuted, C113_first_refuted, C113_between_refuted, C113_order_refuted, C113_overflow_refuted."
  },
  {
   "property": "C114",
   "status": "proved",
   "theorems": [
    "C114_loop",
    "C114_order",
    "C114_complete",
    "C114_snapshot",
    "C114_bound",
    "C114_defined",
    "C114_runs",
    "C114_others",
    "C114_erase_refuted",
    "C114_unlocked_refuted",
    "C114_get_refuted",
    "C114_get",
    "C114_endless_refuted"
   ],
   "note": "The bodies use write, getNoBlock and remove; get() is in the defect. Timeouts are in C103, deletions in C25. Defects: C114_erase_refuted, C114_unlocked_refuted, C114_get_refuted, C114_endless_refuted."
  },
  {
   "property": "C115",
   "status": "proved",
   "theorems": [
    "C115_moves",
    "C115_lost_refuted",
    "C115_below_refuted",
    "C115_replaced_refuted",
    "C115_leak_refuted"
   ],
   "note": "Defects: C115_lost_refuted, C115_below_refuted, C115_replaced_refuted, C115_leak_refuted."
  },
  {
   "property": "C116",
   "status": "proved",
   "theorems": [
    "C116_conserved",
    "C116_order",
    "C116_rest",
    "C116_bound",
    "C116_through",
    "C116_finishes",
    "C116_reorder_refuted",
    "C116_null_refuted"
   ],
   "note": "Defects: C116_reorder_refuted, C116_null_refuted."
  },
  {
   "property": "C117",
   "status": "proved",
   "theorems": [
    "C117_str",
    "C117_print",
    "C117_failed",
    "C117_nested",
    "C117_stream",
    "C117_silent_refuted",
    "C117_text_refuted"
   ],
   "note": "Defects: C117_silent_refuted, C117_text_refuted."
  },
  {
   "property": "C118",
   "status": "proved",
   "theorems": [
    "C118_text",
    "C118_told",
    "C118_memory",
    "C118_leak_refuted",
    "C118_throws_refuted",
    "C118_depth_refuted"
   ],
   "note": "Defects: C118_leak_refuted, C118_throws_refuted, C118_depth_refuted. That the copy of the message needs memory holds for the string class of C++11."
  },
  {
   "property": "C119",
   "status": "proved",
   "theorems": [
    "C119_held",
    "C119_released",
    "C119_progress",
    "C119_bare_refuted",
    "C119_order_refuted",
    "C119_copy_refuted"
   ],
   "note": "Defects: C119_bare_refuted, C119_order_refuted, C119_copy_refuted. Programs that only act, with the conditions free; mutexes as in C28."
  },
  {
   "property": "C120",
   "status": "proved",
   "theorems": [
    "C120_defined",
    "C120_owned",
    "C120_reverse",
    "C120_connect_refuted",
    "C120_dangling_refuted",
    "C120_copy_refuted",
    "C120_outlives_refuted",
    "C120_flush_refuted"
   ],
   "note": "Defects: C120_connect_refuted, C120_dangling_refuted, C120_copy_refuted, C120_outlives_refuted, C120_flush_refuted. One thread; C109 has the threads."
  },
  {
   "property": "C121",
   "status": "proved",
   "theorems": [
    "C121_program",
    "C121_once",
    "C121_reply",
    "C121_defined",
    "C121_returns",
    "C121_nonblocking",
    "C121_write",
    "C121_timeout_refuted",
    "C121_answer_refuted",
    "C121_mixed_refuted",
    "C121_destination_refuted",
    "C121_lookup_refuted"
   ],
   "note": "Defects: C121_timeout_refuted, C121_answer_refuted, C121_mixed_refuted, C121_destination_refuted, C121_lookup_refuted. That the kernel copies addresses in two steps is assumed where it is against the code; sendto and recvfrom do not fail."
  },
  {
   "property": "C122",
   "status": "proved",
   "theorems": [
    "C122_defined",
    "C122_least",
    "C122_peek",
    "C122_sorted",
    "C122_clear",
    "C122_once",
    "C122_null_refuted",
    "C122_change_refuted",
    "C122_order_refuted"
   ],
   "note": "Defects: C122_null_refuted, C122_change_refuted, C122_order_refuted. The heap is that of libstdc++ (push_heap, adjust_heap); one call at a time, the threads and the waiting are in C26."
  },
  {
   "property": "C123",
   "status": "proved",
   "theorems": [
    "C123_own",
    "C123_open",
    "C123_copy_refuted",
    "C123_race_refuted",
    "C123_assign_refuted",
    "C123_select_refuted"
   ],
   "note": "Defects: C123_copy_refuted, C123_assign_refuted, C123_race_refuted, C123_select_refuted. socket and bind do not fail; fd 0 to 2 are not set apart."
  },
  {
   "property": "C124",
   "status": "proved",
   "theorems": [
    "C124_safe",
    "C124_end",
    "C124_progress",
    "C124_last_refuted"
   ],
   "note": "Defect: C124_last_refuted. That a mutex may be destroyed as soon as it is unlocked is what POSIX asks of it."
  },
  {
   "property": "C125",
   "status": "proved",
   "theorems": [
    "C125_defined",
    "C125_alone",
    "C125_fifo",
    "C125_wakes",
    "C125_rest",
    "C125_sleeper_refuted",
    "C125_wait_refuted",
    "C125_writer_refuted",
    "C125_readers_refuted"
   ],
   "note": "Defects: C125_sleeper_refuted, C125_wait_refuted, C125_writer_refuted, C125_readers_refuted."
  },
  {
   "property": "C126",
   "status": "proved",
   "theorems": [
    "C126_defined",
    "C126_removed",
    "C126_only",
    "C126_kept",
    "C126_ends",
    "C126_window_refuted",
    "C126_late_refuted",
    "C126_push_refuted",
    "C126_twice_refuted",
    "C126_files_refuted"
   ],
   "note": "Defects: C126_window_refuted, C126_late_refuted, C126_push_refuted, C126_twice_refuted, C126_files_refuted. That several processes share a pid file is in C57, signals with threads are in C96."
  },
  {
   "property": "C127",
   "status": "proved",
   "theorems": [
    "C127_settled",
    "C127_guard",
    "C127_alarm_refuted",
    "C127_early_refuted",
    "C127_late_refuted",
    "C127_cache_refuted",
    "C127_file_refuted"
   ],
   "note": "Defects: C127_alarm_refuted, C127_early_refuted, C127_late_refuted, C127_cache_refuted, C127_file_refuted, each for every program of its kind. The level of a file is a fixed valid number, sLogCache is not flushed and the alarms are not cut here."
  },
  {
   "property": "C128",
   "status": "proved",
   "theorems": [
    "C128_survives",
    "C128_distinct",
    "C128_long",
    "C128_short_refuted",
    "C128_zeros_refuted",
    "C128_binary_refuted"
   ],
   "note": "Defects: C128_short_refuted, C128_zeros_refuted, C128_binary_refuted. The program that calls the functions one after the other is not in the source. Builds on C07, C33 to C35, C44 and C47."
  },
  {
   "property": "C129",
   "status": "proved",
   "theorems": [
    "C129_counts",
    "C129_defined",
    "C129_progress",
    "C129_ends",
    "C129_destroy_refuted",
    "C129_label_refuted",
    "C129_text_refuted"
   ],
   "note": "Defects: C129_destroy_refuted, C129_label_refuted, C129_text_refuted. Copies of objects and the contents of mMemMap, for one thread, are in C79."
  },
  {
   "property": "C130",
   "status": "proved",
   "theorems": [
    "C130_settled",
    "C130_iff",
    "C130_cleared_refuted"
   ],
   "note": "Defect: C130_cleared_refuted. Counters of objects in one thread after construction are in C79, with threads in C129."
  }
 ]
}