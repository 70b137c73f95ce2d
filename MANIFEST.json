{
 "claims": [
  {
   "property": "C01",
   "status": "proved",
   "theorems": [
    "C01_decimal_print_canonical",
    "C01_decimal_print_field",
    "C01_min_not_padded_refuted",
    "C01_hex_print_field",
    "C01_oct_print_field",
    "C01_bin_print_field"
   ],
   "note": "Full claim for the default format; field-width form proved for all values but the padded most negative one, for which the code is refuted (C01_min_not_padded_refuted)."
  },
  {
   "property": "C02",
   "status": "proved",
   "theorems": [
    "C02_integer_text_roundtrip"
   ],
   "note": "Direct print/parse functions for all eight types and four notations."
  },
  {
   "property": "C03",
   "status": "proved",
   "theorems": [
    "C03_integer_parse_exact",
    "C03_out_of_range_rejected",
    "C03_digitless_refuted",
    "C03_leading_zeros_refuted",
    "C03_long_tail_ignored_refuted",
    "C03_generic_destination"
   ],
   "note": "Exact characterisation (iff) of the accepted strings up to the 1000 character scan limit; three refutations record surprising accepted/rejected inputs."
  },
  {
   "property": "C04",
   "status": "partial",
   "theorems": [
    "C04_encode_is_rfc4648",
    "C04_encoded_length",
    "C04_round_trip_partial",
    "C04_round_trip_characterised",
    "C04_round_trip_refuted",
    "C04_decode_then_encode",
    "C04_decode_rejects",
    "C04_trailing_ignored_refuted"
   ],
   "note": "Encode proved equal to RFC 4648 for all inputs; round trip proved for lengths 0 and 2 mod 3 and refuted for 1 mod 3 (Decode appends a zero byte); rejection of invalid characters proved, trailing characters after the last whole group are ignored (refuted)."
  },
  {
   "property": "C05",
   "status": "proved",
   "theorems": [
    "C05_saturate_integer",
    "C05_safe_number_to_number"
   ],
   "note": "All pairs of widths and signednesses, all bit sizes within the destination."
  },
  {
   "property": "C06",
   "status": "partial",
   "theorems": [
    "C06_bit_field_read_back",
    "C06_bit_field_frame_unsigned",
    "C06_bit_field_frame_signed_partial",
    "C06_bit_field_frame_signed_refuted",
    "C06_bit_boolean_assign",
    "C06_bit_boolean_read"
   ],
   "note": "Read-back proved for all base types; frame condition proved for unsigned base types and single-bit flags. For signed base types the code violates it (C06_bit_field_frame_signed_refuted): bits above the field are overwritten."
  },
  {
   "property": "C07",
   "status": "proved",
   "theorems": [
    "C07_safe_addition",
    "C07_safe_subtraction",
    "C07_safe_multiplication",
    "C07_complete_multiply",
    "C07_success_is_exact",
    "C07_strict_addition_partial"
   ],
   "note": "Addition, subtraction, multiplication and complete multiply for all integer types, under two's complement wrap of the intermediate sum; C07_strict_addition_partial states what the strict C++ rule (signed overflow undefined) leaves."
  },
  {
   "property": "C08",
   "status": "proved",
   "theorems": [
    "C08_add",
    "C08_sub",
    "C08_compare",
    "C08_bitwise",
    "C08_shift_left",
    "C08_shift_right",
    "C08_conversion",
    "C08_signed_shift_left_refuted",
    "C08_signed_shift_right_refuted"
   ],
   "note": "Full for unsigned halves (the property); addition, subtraction, comparisons and bitwise also for signed halves. Shifts with signed halves are refuted."
  },
  {
   "property": "C09",
   "status": "proved",
   "theorems": [
    "C09_history",
    "C09_insert_chain",
    "C09_add_chain",
    "C09_add_keeps_followers_refuted"
   ],
   "note": "Holder histories over all 19 list operations, from a new holder, with fresh elements; chain insertion and chain append separately; Add of an element that has followers drops them (refuted)."
  },
  {
   "property": "C10",
   "status": "proved",
   "theorems": [
    "C10_sort",
    "C10_sort_any_comparison",
    "C10_sorted_insert"
   ],
   "note": "Bubble sort: ends, permutation, sorted, stable; sorted insertion of elements and chains."
  },
  {
   "property": "C11",
   "status": "proved",
   "theorems": [
    "C11_static_list_history",
    "C11_add_all"
   ],
   "note": "All histories at byte level, any answers of the heap. For 1-byte elements the history is bounded by 2^32 - 2g operations (32-bit capacity arithmetic wraps beyond)."
  },
  {
   "property": "C12",
   "status": "proved",
   "theorems": [
    "C12_bit_is_membership",
    "C12_set_changes_one_index",
    "C12_operators_are_bitwise",
    "C12_complement",
    "C12_shift_left",
    "C12_shift_right",
    "C12_as_numbers",
    "C12_equality",
    "C12_equality_u32",
    "C12_equality_u64",
    "C12_equality_u64_one_word_refuted",
    "C12_conversions",
    "C12_to_u64_refuted"
   ],
   "note": "All operators on all sizes; << needs 32*words+shift < 2^32 (indices are 32-bit). operator==(uint64) of a one-word set and the uint64 conversion of three-word sets are refuted separately."
  },
  {
   "property": "C13",
   "status": "proved",
   "theorems": [
    "C13_crc_is_polynomial_remainder",
    "C13_remainder_unique",
    "C13_chaining",
    "C13_inverted_is_reversed",
    "C13_burst_error_detected"
   ],
   "note": "Widths 8, 16, 32 (the class keeps its masks in 32 bits). Result proved to be the polynomial remainder; chaining, reversed reading and burst detection proved."
  },
  {
   "property": "C14",
   "status": "partial",
   "theorems": [
    "C14_map_history",
    "C14_fnv_one_byte_difference",
    "C14_never_inserted_is_found_djb_refuted",
    "C14_never_inserted_is_found_fnv_refuted"
   ],
   "note": "Proved for every history whose keys have different 64-bit hashes (C14_map_history); the statement without that hypothesis is false of the code and refuted for both hash functions."
  },
  {
   "property": "C15",
   "status": "partial",
   "theorems": [
    "C15_remaining_or_zero",
    "C15_milliseconds",
    "C15_finite_stays_finite",
    "C15_infinite_stays_infinite_refuted",
    "C15_infinite_lasts",
    "C15_milliseconds_general_refuted",
    "C15_finite_stays_finite_general_refuted",
    "C15_infinite_constants_equal_refuted"
   ],
   "note": "Remaining-or-zero proved for all histories; millisecond view and finiteness proved for millisecond timeouts. Infinite never becomes finite is false of the code and refuted with the exact bound."
  },
  {
   "property": "C16",
   "status": "partial",
   "theorems": [
    "C16_file_history_partial",
    "C16_file_history_backward_partial",
    "C16_relative_seek_back_refuted",
    "C16_relative_seek_back_out_of_bounds_refuted",
    "C16_self_append_refuted"
   ],
   "note": "All histories of 15 operations agree with an abstract file and are free of undefined behaviour, except accesses directly after a backward RelativeSeek, where the statement is false (refuted, two witnesses); fewer than 2^31 bytes written."
  },
  {
   "property": "C17",
   "status": "partial",
   "theorems": [
    "C17_get_token",
    "C17_tokens_are_runs",
    "C17_runs_unique",
    "C17_nothing_lost",
    "C17_skip_tokens",
    "C17_get_token_array",
    "C17_one_byte_array_refuted",
    "C17_stream_string"
   ],
   "note": "Any input and output stream, terminator and skip sets: one extraction, all tokens = maximal runs, nothing lost with an empty skip set, SkipTokens, arrays of two bytes or more (truncation); instantiated for StreamString. Extraction into a one-byte array writes outside it (refuted)."
  },
  {
   "property": "C18",
   "status": "partial",
   "theorems": [
    "C18_transparent_partial",
    "C18_read_at_end_refuted",
    "C18_seek_after_large_read_refuted",
    "C18_relative_seek_refuted",
    "C18_relative_seek_back_refuted",
    "C18_relative_seek_far_back_refuted",
    "C18_stream_is_source",
    "C18_stream_is_sink"
   ],
   "note": "All histories of Read, Write, Seek, Flush, Size, Position and SetBufferSize over all contents and buffer sizes, relative seeks in write mode. Excluded and refuted: the result of a Read reaching the end, Seek back into the last buffer length after a large Read, RelativeSeek in read mode. Character access shown to be a source and sink for C17."
  },
  {
   "property": "C19",
   "status": "proved",
   "theorems": [
    "C19_mutual_exclusion",
    "C19_try_lock_succeeds_iff_free",
    "C19_held_mutex_is_not_given",
    "C19_timeout_only_when_late"
   ],
   "note": "fine-grained interleaving of any number of threads over the shared flag, sequentially consistent memory"
  },
  {
   "property": "C20",
   "status": "partial",
   "theorems": [
    "C20_one_owner",
    "C20_no_wild_access",
    "C20_size_counts_free",
    "C20_take_alone",
    "C20_return_alone",
    "C20_take_fails_only_when_empty_refuted",
    "C20_created_taken_refuted",
    "C20_log_order_refuted"
   ],
   "note": "proved for pools created free: one owner, no loss at quiescence, solo Take/Return, no wild access; refuted with witnesses: Take can fail although a resource is available at every moment, a pool created taken (log entries) can hand out a resource never given, log entries are not read in order"
  },
  {
   "property": "C21",
   "status": "proved",
   "theorems": [
    "C21_in_order",
    "C21_exactly_once",
    "C21_no_lost_wakeup",
    "C21_no_deadlock",
    "C21_calls_end",
    "C21_quiescent",
    "C21_single_consumer",
    "C21_two_consumers_refuted",
    "C21_spurious_refuted"
   ],
   "note": "any number of producers; order, exactly once, no lost wake-up and progress hold for any number of consumers and with spurious wake-ups; a fatalError is impossible with one consumer and no spurious wake-ups, and refuted otherwise"
  },
  {
   "property": "C22",
   "status": "proved",
   "theorems": [
    "C22_protocol",
    "C22_silent_after_stop",
    "C22_stop_kills",
    "C22_stop_ends",
    "C22_stop_bounded",
    "C22_running_stop_succeeds",
    "C22_lost_stop_refuted",
    "C22_refused_stop_refuted",
    "C22_clean_stop_is_bad_termination"
   ],
   "note": "all callback results, all schedules of one client calling Start and Stop; BeginThread and Kill are assumed to succeed; three findings (lost Stop, refused Stop, BadTermination on a clean stop) with witnesses"
  },
  {
   "property": "C23",
   "status": "partial",
   "theorems": [
    "C23_one_arrival",
    "C23_not_before_all",
    "C23_reset_not_before_all",
    "C23_no_deadlock",
    "C23_calls_end",
    "C23_released",
    "C23_all_pass",
    "C23_early_release_refuted",
    "C23_stranded_refuted"
   ],
   "note": "all N below 2^32-1 and all schedules in which resets are made when no other call is in progress (and no spurious wake-ups for the first half); with a concurrent Reset both halves are refuted with witnesses"
  },
  {
   "property": "C24",
   "status": "partial",
   "theorems": [
    "C24_in_order_partial",
    "C24_accepted",
    "C24_no_sleep_pending_partial",
    "C24_all_delivered_partial",
    "C24_flush_partial",
    "C24_bounded_work",
    "C24_full_buffer_refuted",
    "C24_lost_for_ever_refuted",
    "C24_late_start_refuted",
    "C24_flush_refuted",
    "C24_failed_execute_refuted"
   ],
   "note": "all numbers of buffers above one, all samples, all schedules, all results of Synchronise, provided fewer than N samples are stored and not freed (N-1 before the service thread starts): order, no loss, no duplicate, no torn sample, no sleep with pending samples, bounded work; without that proviso the claim fails (full buffer taken for empty and stuck for ever, late start reorders, Flush returns before all samples are synchronised - C24_flush_partial says which are -, duplicate after a failed Execute: refuted with witnesses)"
  },
  {
   "property": "C25",
   "status": "partial",
   "theorems": [
    "C25_window_partial",
    "C25_accepted",
    "C25_no_sleep_pending_partial",
    "C25_all_delivered_partial",
    "C25_bounded_work",
    "C25_full_buffer_refuted"
   ],
   "note": "Proved for every schedule in which the real-time thread never gets closer than one free buffer to the service thread (kept_up); without it a full buffer is taken for an empty one (refuted with no pre-trigger buffers). FlushAllTriggers and resetting the buffer are not modelled."
  },
  {
   "property": "C26",
   "status": "partial",
   "theorems": [
    "C26_read_circular",
    "C26_write_circular",
    "C26_inside_exactly_when",
    "C26_whole_samples",
    "C26_ranges",
    "C26_execute_inputs",
    "C26_execute_outputs",
    "C26_more_samples_than_buffers_refuted",
    "C26_unreduced_offset_refuted"
   ],
   "note": "exact condition under which the copy stays inside the area, and circularity of both directions, for all sizes and offsets; the full claim fails when more samples than buffers are read or the offset is not reduced (refuted with witnesses)"
  },
  {
   "property": "C27",
   "status": "partial",
   "theorems": [
    "C27_order_partial",
    "C27_gapless_partial",
    "C27_progress_partial",
    "C27_overlap_flag_partial",
    "C27_offset",
    "C27_offset_refuted",
    "C27_silent_overwrite_refuted",
    "C27_overtaken_refuted",
    "C27_double_buffer_refuted",
    "C27_stale_refuted",
    "C27_same_block_refuted"
   ],
   "note": "synchronising signal, one broker; order, no gaps (GetFirst) and progress proved when the reader is not overtaken and the block it waits for fits; flag proved exact when the acquisition of a sample is not interrupted; offsets proved for at most NumberOfBuffers samples; six refutations otherwise"
  },
  {
   "property": "C28",
   "status": "partial",
   "theorems": [
    "C28_transitions_partial",
    "C28_enabled_partial",
    "C28_stale_event_refuted",
    "C28_self_error_refuted",
    "C28_enter_failure_refuted"
   ],
   "note": "Proved for every configuration accepted by Initialise and every message history in which no disabled message repeats the name of an event that already fired, ENTER messages are delivered and a self-transition does not fail; each of the three exceptions is refuted: a stale event of a left state acts, the events of the error state are not enabled, one message causes two transitions. Purge and the queue thread are not modelled."
  },
  {
   "property": "C29",
   "status": "partial",
   "theorems": [
    "C29_alive_iff_referenced",
    "C29_count",
    "C29_destroyed_once",
    "C29_defined_partial",
    "C29_assignment",
    "C29_threads_partial",
    "C29_threads_twice_refuted",
    "C29_next_refuted",
    "C29_own_pointer_refuted",
    "C29_typed_self_refuted"
   ],
   "note": "For one thread: proved for all histories with member references and cascades; operations that overwrite the reference their source depends on use freed memory (refuted: list = list->next, own pointer, typed self-assignment). For several threads: never destroyed while referenced and destroyed at the end, but not at most once (refuted: decrement and read are two actions)."
  },
  {
   "property": "C30",
   "status": "partial",
   "theorems": [
    "C30_path_names",
    "C30_find_all",
    "C30_find_nth",
    "C30_find_name",
    "C30_double_dot",
    "C30_no_dangling",
    "C30_find_sound_partial",
    "C30_find_path",
    "C30_find_two",
    "C30_insert",
    "C30_insert_fails",
    "C30_delete",
    "C30_delete_sound_partial",
    "C30_found_elsewhere_refuted",
    "C30_not_found_refuted",
    "C30_unnamed_refuted",
    "C30_insert_empty_name_refuted",
    "C30_remove_all_refuted",
    "C30_all_paths_refuted"
   ],
   "note": "With distinct sibling names the object at a path is found, insertion puts the object at its path and changes nothing else, removal removes exactly the object and what is under it, and no deleted node is used. Missing: a path at which there is nothing may be found inside an inner container (refuted), so soundness is only proved up to a prefix; repeated names and unnamed objects break longer paths (refuted)."
  },
  {
   "property": "C31",
   "status": "partial",
   "theorems": [
    "C31_history_partial",
    "C31_read_last_written_partial",
    "C31_failed_kept",
    "C31_create_through_value_refuted",
    "C31_create_failed_moves_refuted",
    "C31_hash_collision_refuted",
    "C31_dots_refuted",
    "C31_write_over_directory_refuted"
   ],
   "note": "Every history of calls answers as a tree does (paths of single-dot-separated non-empty names, names used with different hashes, no Create through a value); read returns what was last written. Refuted outside: hash collisions, Create through a value dereferences NULL, failed CreateAbsolute moves the cursor, paths with extra dots."
  },
  {
   "property": "C32",
   "status": "proved",
   "theorems": [
    "C32_dispatch",
    "C32_removed",
    "C32_kept"
   ],
   "note": "filters that install or remove filters while they consume are treated with the state machine (C28)"
  },
  {
   "property": "C33",
   "status": "partial",
   "theorems": [
    "C33_indirect_success",
    "C33_indirect_timeout",
    "C33_indirect_in_time",
    "C33_indirect_ends",
    "C33_direct_infinite_partial",
    "C33_early_timeout_refuted",
    "C33_no_timeout_refuted"
   ],
   "note": "holds for ReplyMessageCatcherMessageFilter::Wait (used by SendMessageAndWaitIndirectReply); MessageI::WaitForReply compares the wrong way round and is refuted for finite time-outs, proved for the infinite one"
  },
  {
   "property": "C34",
   "status": "partial",
   "theorems": [
    "C34_program_partial",
    "C34_value",
    "C34_deep_nesting_refuted",
    "C34_deep_nesting_refused_refuted",
    "C34_no_end_refuted",
    "C34_rest_ignored_refuted",
    "C34_logical_precedence_refuted"
   ],
   "note": "Every list of assignments of well-formed expressions (parentheses and calls nested at most 37 deep) compiles to its stack program, whose execution gives the values. Refuted beyond: deeper nesting overflows the 512-entry parser stack (wrong program or refusal), a missing semicolon after a parenthesised name never terminates, text after an unknown symbol is ignored, logical operators share one precedence."
  },
  {
   "property": "C35",
   "status": "partial",
   "theorems": [
    "C35_accepted_program_computes_its_stack_semantics_partial",
    "C35_compilation_stays_in_its_memory",
    "C35_integer_operators_are_exact",
    "C35_integer_conversions_are_exact",
    "C35_fast_mode_leaves_the_stack_after_an_error_refuted",
    "C35_internal_command_accepted_refuted",
    "C35_second_compilation_overlaps_variables_refuted",
    "C35_long_program_executes_nothing_refuted",
    "C35_negation_of_the_least_int8_refuted",
    "C35_mixed_sign_comparison_is_an_error_refuted"
   ],
   "note": "Programs of up to 32767 lines, no variable named like an internal constant, no internal command: execution equals the stack machine in safe mode, and in fast mode while no error occurs; compilation in bounds; integer operators exact. Refuted: fast mode after an error overflows the stack; RREAD accepted without operand; second Compile overlaps variables; 65536 words of code execute nothing; NEG of least int8. Floating point functions are a parameter."
  },
  {
   "property": "C36",
   "status": "partial",
   "theorems": [
    "C36_tokens_of_the_text_in_order_partial",
    "C36_plain_texts_have_tokens",
    "C36_empty_comment_swallows_the_next_line_refuted",
    "C36_peek_ahead_inserts_end_of_file_refuted",
    "C36_trailing_slash_lost_refuted",
    "C36_backslash_inserts_end_of_file_refuted",
    "C36_escape_counts_as_a_line_refuted",
    "C36_operators_not_split_refuted",
    "C36_xml_comment_missed_refuted",
    "C36_look_ahead_partial"
   ],
   "note": "Token order, token text, line numbers and end of file proved for every text of separators, comments, terminals, quoted strings and words (grammars without keywords, comment marks as in C++ or none) and every sequence of GetToken and PeekToken(0); C36_look_ahead_partial: PeekToken(n) too, if the tokens before it have been looked at. Not covered: texts outside that grammar (unterminated quote or comment), PeekToken(n) that skips tokens not yet looked at, grammars with keywords; the refutations show that there the claim is false."
  },
  {
   "property": "C37",
   "status": "partial",
   "theorems": [
    "C37_posted_nobody_sleeps",
    "C37_post_releases",
    "C37_no_deadlock",
    "C37_no_success_without_post_partial",
    "C37_no_success_without_post_refuted",
    "C37_lock_timeout_refuted"
   ],
   "note": "all schedules and numbers of threads: a post releases every sleeper, nobody sleeps while posted, no deadlock; no success without a post is proved without spurious wake-ups and mutex-lock timeouts and refuted with either"
  },
  {
   "property": "C38",
   "status": "partial",
   "theorems": [
    "C38_bounds_partial",
    "C38_no_crash_partial",
    "C38_pool_partial",
    "C38_above_maximum_refuted",
    "C38_unbounded_refuted",
    "C38_below_minimum_refuted",
    "C38_crash_refuted",
    "C38_dead_in_pool_refuted"
   ],
   "note": "bounds proved when no two threads change the pool at the same time; AddThread and the decision to leave are not synchronised: refuted without that restriction (above maximum, unbounded, below minimum, invalid reference, dead thread in the pool)"
  },
  {
   "property": "C39",
   "status": "proved",
   "theorems": [
    "C39_square_root_unsigned",
    "C39_square_root_signed"
   ],
   "note": ""
  },
  {
   "property": "C40",
   "status": "partial",
   "theorems": [
    "C40_table_size",
    "C40_plain",
    "C40_optimised",
    "C40_sort_keeps_lines",
    "C40_one_range_samples_refuted",
    "C40_sort_refuted"
   ],
   "note": "both directions, plain and optimised tables, all signals, samples, ranges and state buffers; the plain table overflows for several samples of a single range (refuted with a witness, exact condition proved) and the sort does not sort (harmless)"
  },
  {
   "property": "C41",
   "status": "proved",
   "theorems": [
    "C41_no_common_element"
   ],
   "note": "for ranges with first element not above the last, which the builder checks before"
  },
  {
   "property": "C42",
   "status": "partial",
   "theorems": [
    "C42_md5_is_rfc1321",
    "C42_same_on_every_platform",
    "C42_hmac_is_rfc2104_partial",
    "C42_hmac_of_the_first_block_of_the_key",
    "C42_hmac_long_key_refuted"
   ],
   "note": "Md5 proved equal to RFC 1321 for all messages; Md5Hmac equal to RFC 2104 for keys of at most 64 bytes; for longer keys the standard is refuted: the code truncates the key instead of hashing it."
  },
  {
   "property": "C43",
   "status": "partial",
   "theorems": [
    "C43_thread_table",
    "C43_thread_table_inside",
    "C43_cycles",
    "C43_silent_when_stopped",
    "C43_no_bad_access",
    "C43_current_state",
    "C43_results",
    "C43_calls_return",
    "C43_calls_progress",
    "C43_threads_go_on",
    "C43_start_without_stop_refuted",
    "C43_stop_after_prepare_refuted",
    "C43_prepare_twice_refuted",
    "C43_start_after_failed_prepare_refuted",
    "C43_spurious_wakeup_refuted"
   ],
   "note": "All schedules, all sets of states. Safety for clients that stop and prepare before they start; progress for clients that stop, then prepare, then start. For other orders, and with spurious wakeups of condition variables, the property is false (five refutations). Thread creation is assumed to succeed and the event semaphore is its flag and its sleepers."
  },
  {
   "property": "C44",
   "status": "partial",
   "theorems": [
    "C44_standard_partial",
    "C44_standard_sound_partial",
    "C44_xml_partial",
    "C44_json_partial",
    "C44_xml_sound_partial",
    "C44_json_sound_partial",
    "C44_end_tag_refuted",
    "C44_look_ahead_refuted",
    "C44_depth_refuted",
    "C44_depth_name_refuted",
    "C44_dotted_block_refuted",
    "C44_block_through_value_refuted",
    "C44_variable_refuted",
    "C44_rest_refuted",
    "C44_empty_refuted",
    "C44_cursor_refuted",
    "C44_json_idx_refuted",
    "C44_standard_text_partial",
    "C44_json_text_partial"
   ],
   "note": "Standard, XML and JSON, for blocks nested at most 249, 99 and 124 deep, with undotted block names and different hashes; conversion of texts and evaluation of expressions are parameters. The _text_ theorems (Standard, JSON) are about texts, through the lexical analyser. The _sound_ theorems: whenever Parse returns true the tokens are a configuration up to the end of the input or to a character that is no terminal, with at most 220 (Standard), 85 (XML), 220 (JSON) brackets or tags open."
  },
  {
   "property": "C45",
   "status": "partial",
   "theorems": [
    "C45_agreement_partial",
    "C45_function_memory_partial",
    "C45_memory_data_source",
    "C45_gam_data_source",
    "C45_broker_partial",
    "C45_type_mismatch_accepted_refuted",
    "C45_locked_data_source_refuted",
    "C45_order_refuted",
    "C45_size_wrap_refuted",
    "C45_no_buffers_refuted",
    "C45_samples_of_first_function_refuted"
   ],
   "note": "Proved when every GAM signal states NumberOfElements (or states nothing and the data source does), sizes fit 32 bits, and samples do not exceed the buffers; six refutations show what happens otherwise. Structured types, default values and states are not modelled."
  },
  {
   "property": "C46",
   "status": "partial",
   "theorems": [
    "C46_printf_partial",
    "C46_bad_conversion_partial",
    "C46_percent_refuted",
    "C46_quotes_cut_refuted",
    "C46_quotes_overrun_refuted",
    "C46_big_stream_refuted",
    "C46_bool_hex_refuted",
    "C46_missing_argument_refuted"
   ],
   "note": "Floats, bit ranges, objects and structured data are not modelled; a quoted string in a wider field without padding, streams of more than 10000 characters and booleans in hexadecimal are excluded, and refuted."
  },
  {
   "property": "C47",
   "status": "partial",
   "theorems": [
    "C47_standard_partial",
    "C47_json_partial",
    "C47_empty_directory_refuted",
    "C47_quote_refuted",
    "C47_space_refuted",
    "C47_number_name_refuted",
    "C47_json_vector_refuted"
   ],
   "note": "Both theorems compose the print (over C31 and C46) with the parsers of C44 on texts (C36). Missing: XML (%X!), streams and pointers as values, floating point values; the class PrinterI and its subclasses. Refuted: empty directories, quotes in strings, names with spaces or that are numbers, vectors in JSON."
  },
  {
   "property": "C48",
   "status": "partial",
   "theorems": [
    "C48_configure",
    "C48_history_partial",
    "C48_reload_partial",
    "C48_refused_text_changes_nothing",
    "C48_default_refuted",
    "C48_pre_message_refuted",
    "C48_kept_emptied_refuted",
    "C48_post_message_refuted",
    "C48_post_message_sent_refuted",
    "C48_stale_applications_refuted",
    "C48_kept_application_refuted",
    "C48_reload_value_refuted",
    "C48_hash_refuted",
    "C48_kept_domain_refuted"
   ],
   "note": "All histories after a successful Configure whose remaining configuration can be loaded again; copying a database is assumed to succeed, the classes, parsers and receivers of messages are parameters, and what is under the objects of the root is not represented. Refuted: the documented default of ReloadLast, the effects of a failing PreConfiguration message, kept objects are emptied, error answers and messages after an applied configuration, applications that were replaced are still started, hashes can be used again."
  },
  {
   "property": "C49",
   "status": "partial",
   "theorems": [
    "C49_defined_partial",
    "C49_sent_partial",
    "C49_failure_partial",
    "C49_reply_partial",
    "C49_read_partial",
    "C49_partial_send_refuted",
    "C49_retry_refuted",
    "C49_final_refuted",
    "C49_mode_refuted",
    "C49_large_write_refuted",
    "C49_read_failure_refuted"
   ],
   "note": "For sends that take all the bytes or fail, and histories without a change of the calibration parameter. Refuted: a send that takes a part of the bytes loses the rest, a repeated Flush after a failure, FinalChunk before Flush, a change of mode with data in the buffer, large writes in chunk mode with the default parameter, and a Read that fails in the middle loses what it stored. Timeouts and the read half of SetBufferSize are not modelled."
  },
  {
   "property": "C50",
   "status": "partial",
   "theorems": [
    "C50_round_trip_partial",
    "C50_encode_partial",
    "C50_decode_partial",
    "C50_request_partial",
    "C50_no_query_partial",
    "C50_form_partial",
    "C50_any_input_partial",
    "C50_any_options_partial",
    "C50_short_command_refuted",
    "C50_empty_query_refuted",
    "C50_stale_commands_refuted",
    "C50_encoded_slash_refuted",
    "C50_last_slash_refuted",
    "C50_newline_refuted",
    "C50_semicolon_refuted",
    "C50_plus_refuted",
    "C50_bad_escape_refuted",
    "C50_short_version_refuted"
   ],
   "note": "Proved for every percent encoding of paths whose parts are not empty and have no slash or backslash, of queries whose commands are longer than three characters, and any options; the stale commands, the short commands, the empty query, the encoded slash, the last slash, the plus sign, the semicolon, the bad escapes and the short version are refuted. Not modelled: replies, the value of the version, the body."
  },
  {
   "property": "C51",
   "status": "partial",
   "theorems": [
    "C51_rules",
    "C51_one_writer",
    "C51_one_wait",
    "C51_accepts_partial",
    "C51_before_partial",
    "C51_threads_far_refuted",
    "C51_before_writers_refuted",
    "C51_before_flag_refuted"
   ],
   "note": "Proved for the configuration after initialisation: acceptance implies the rules (C51_rules, C51_one_writer, C51_one_wait), and the rules imply acceptance when the container Threads is among the first objects of a state (refuted otherwise). The configuration before initialisation gives the same answer when the threads list GAMs; with containers of GAMs it accepts two writers of one element and ignores CheckSameGamInMoreThreads (both refuted). Structured types are not modelled."
  },
  {
   "property": "C52",
   "status": "partial",
   "theorems": [
    "C52_works_partial",
    "C52_pinned_partial",
    "C52_two_states",
    "C52_smallest",
    "C52_three_states_refuted",
    "C52_no_thread_refuted",
    "C52_all_cpus_refuted"
   ],
   "note": "for every application whose setup does not fail each configured thread has its own pool thread and the pool is the smallest possible; for applications of one or two states, and for longer ones whose states but the last need more and more threads of each mask, the setup succeeds and the pool threads have the configured masks. Refuted: three states with three masks (wrong CPUs), four states (cell outside of the map written), two threads with the mask of all 64 CPUs (one is lost)"
  },
  {
   "property": "C53",
   "status": "partial",
   "theorems": [
    "C53_begin_partial",
    "C53_cycle_partial",
    "C53_safe_partial",
    "C53_runs_partial",
    "C53_overlap_refuted",
    "C53_stuck_refuted",
    "C53_torn_refuted",
    "C53_nowait_refuted"
   ],
   "note": "proved for a client that starts a state only after it was prepared, the current one was stopped and each thread has come to rest or is in a cycle: what is executed, no overlap of the states, no invalid record, a started state can always go on. A client that only makes the calls in the documented order is refuted: StopCurrentStateExecution does not wait, so the states may overlap (C53_overlap_refuted), a started state may never begin (C53_stuck_refuted) and a thread may use a record that is being rewritten (C53_torn_refuted). NoWait=1: C53_nowait_refuted. Missing: the end of the threads (Purge), the measured times"
  },
  {
   "property": "C54",
   "status": "partial",
   "theorems": [
    "C54_value_partial",
    "C54_frame_partial",
    "C54_long_partial",
    "C54_integers",
    "C54_extract_partial",
    "C54_back_partial",
    "C54_frame_refuted",
    "C54_long_refuted"
   ],
   "note": "Value, in/out parameters and frame proved for all ranges of at most 128 bits including the bits before them in the first byte; the frame does not hold for the bits that follow in the last byte when a negative number fits in a narrower signed range (C54_frame_refuted); sizes whose end wraps a uint8 are undefined (C54_long_refuted). Whole integers (C54_integers) are unconditional."
  },
  {
   "property": "C55",
   "status": "partial",
   "theorems": [
    "C55_elements_partial",
    "C55_refused",
    "C55_integers_partial",
    "C55_strings_partial",
    "C55_text_back_partial",
    "C55_overflow_refuted",
    "C55_matrix_refuted",
    "C55_three_dimensions_refuted",
    "C55_boolean_refuted",
    "C55_terminator_refuted"
   ],
   "note": "Scalars, vectors and matrices, static and heap, proved for every element, the result and the frame, but for matrices of strings from the heap to static memory, strings longer than their destination and three dimensions, where the code is wrong (refuted). StreamString, char8 pointers, structures not modelled; conversions of floating point numbers are parameters."
  },
  {
   "property": "C56",
   "status": "partial",
   "theorems": [
    "C56_first",
    "C56_line_partial",
    "C56_neighbours_partial",
    "C56_between",
    "C56_stop",
    "C56_elements_refuted",
    "C56_decrease_refuted",
    "C56_skip_refuted"
   ],
   "note": "All numbers of calls, times and values for signals whose elements change alike (in particular one element) and whose differences do not wrap; floating point numbers are exact rationals. The three exceptions are refuted."
  },
  {
   "property": "C57",
   "status": "partial",
   "theorems": [
    "C57_layout",
    "C57_refused",
    "C57_change_partial",
    "C57_accepted",
    "C57_history_partial",
    "C57_history_runs",
    "C57_samples_refuted",
    "C57_overflow_refuted"
   ],
   "note": "Proved for the first sample of every signal and for declarations that need less than 2^32 bytes; the code leaves later samples unreset (C57_samples_refuted) and wraps the size of the block (C57_overflow_refuted). The conversion of the Default is taken as given (C55 proves it), the memory after a call that returns false is not described."
  },
  {
   "property": "C58",
   "status": "partial",
   "theorems": [
    "C58_addresses",
    "C58_product",
    "C58_sum",
    "C58_copy",
    "C58_submatrix",
    "C58_transpose",
    "C58_determinant_partial",
    "C58_inverse_partial",
    "C58_inverse_refuted",
    "C58_inverse_one",
    "C58_in_place_product_refuted",
    "C58_in_place_transpose_refuted"
   ],
   "note": "Proved for every ring or field with exact arithmetic and for results apart from the operands (cell-for-cell overlap allowed for Sum and Copy). The code stores 0 as the inverse of a matrix with one row (C58_inverse_refuted) and does not support products and transpositions in place (C58_in_place_product_refuted, C58_in_place_transpose_refuted). Floating point rounding and the ownership of copied matrices are not modelled."
  },
  {
   "property": "C59",
   "status": "partial",
   "theorems": [
    "C59_always_dispatched",
    "C59_forward_partial",
    "C59_values",
    "C59_not_found_partial",
    "C59_index",
    "C59_own_pages",
    "C59_no_own_page",
    "C59_file_partial",
    "C59_one_type",
    "C59_missing_partial",
    "C59_inside_partial",
    "C59_listing",
    "C59_listing_inside_partial",
    "C59_realm",
    "C59_history",
    "C59_outside_refuted",
    "C59_realm_refuted",
    "C59_directory_refuted",
    "C59_missing_refuted",
    "C59_large_refuted",
    "C59_head_refuted"
   ],
   "note": "refuted in full: a path with .. leaves BaseDir, the objects of a nested browser with a realm are read through the outer one, a directory name loops for ever, 404 turns into silence; forwarding is proved when no other object ends in the longer part (the search of C30 can find it elsewhere)"
  },
  {
   "property": "C60",
   "status": "proved",
   "theorems": [
    "C60_to_integer",
    "C60_one_nearest",
    "C60_range",
    "C60_infinity",
    "C60_nan_unsigned",
    "C60_nan_refuted",
    "C60_order",
    "C60_to_float",
    "C60_round_trip",
    "C60_round_trip_32",
    "C60_round_trip_16",
    "C60_round_trip_refuted",
    "C60_to_float32",
    "C60_to_float64",
    "C60_refused",
    "C60_whole",
    "C60_whole_source",
    "C60_bit_range_refuted",
    "C60_neighbours_refuted",
    "C60_bit_source_refuted"
   ],
   "note": "for finite and infinite numbers and whole integer variables. Refuted beyond that: NaN to a signed integer reaches the undefined cast (C60_nan_refuted), bit ranges are neither aligned nor limited (C60_bit_range_refuted, C60_neighbours_refuted, C60_bit_source_refuted)"
  },
  {
   "property": "C61",
   "status": "partial",
   "theorems": [
    "C61_accepted_partial",
    "C61_integer_exact",
    "C61_accuracy_partial",
    "C61_exponent_partial",
    "C61_syntax_partial",
    "C61_based",
    "C61_sign",
    "C61_no_digit_refuted",
    "C61_rest_ignored_refuted",
    "C61_exponent_ignored_refuted",
    "C61_exponent_64_refuted",
    "C61_long_refuted"
   ],
   "note": "the error bound covers up to 22 (float64) or 10 (float32) decimals; the error of an exponent is bounded for exponents below 64 in a float32 and results that are not subnormal. Refuted: texts without digits are accepted, what follows too many decimals and what follows 1000 characters is ignored, exponents above 63 are wrong in a float32"
  },
  {
   "property": "C62",
   "status": "proved",
   "theorems": [
    "C62_text",
    "C62_readable",
    "C62_zero_refuted"
   ],
   "note": "Printing of float32 and float64 in all six notations. The error bound (250 parts in 2^prec of the value beside half a unit of the last digit) covers the accumulated rounding errors of the algorithm; it is not the smallest possible bound. C62_zero_refuted: with precision 0 every notation but fixed point prints every number as 0."
  },
  {
   "property": "C63",
   "status": "partial",
   "theorems": [
    "C63_registry_partial",
    "C63_enumeration",
    "C63_refused_forever",
    "C63_registered_refuted",
    "C63_no_memory_refuted",
    "C63_largest_index_refuted"
   ],
   "note": "The calls are one at a time, as under the lock of Threads.cpp. Refuted in full: with 63 of 64 places taken the free place can be the one that is never looked at, and every start is refused until another thread ends (C63_registered_refuted, C63_refused_forever); a failed reallocation loses the table (C63_no_memory_refuted); index 2^32-1 reads out of the table (C63_largest_index_refuted)"
  },
  {
   "property": "C64",
   "status": "partial",
   "theorems": [
    "C64_length",
    "C64_compare",
    "C64_compare_n",
    "C64_compare_nocase",
    "C64_search_char",
    "C64_search_any",
    "C64_search_last",
    "C64_search_string",
    "C64_concatenate",
    "C64_concatenate_n",
    "C64_tokenize_chars",
    "C64_tokenize_string",
    "C64_substr_partial",
    "C64_substr_refuted",
    "C64_substr_reversed",
    "C64_copy_partial",
    "C64_append_partial",
    "C64_copy_n_partial",
    "C64_append_n_partial",
    "C64_copy_refuted",
    "C64_tokenize_string_refuted",
    "C64_order_refuted"
   ],
   "note": "Partial: the portable Copy and Concatenate write no terminator (C64_copy_refuted; exact effect in C64_copy_partial, C64_append_partial and the variants with a size) and Substr reads behind the text or returns true with nothing (C64_substr_refuted; C64_substr_partial is for a beginning inside of the text). All the other functions of the statement are proved in full."
  },
  {
   "property": "C65",
   "status": "partial",
   "theorems": [
    "C65_registry",
    "C65_find",
    "C65_standard_block",
    "C65_registered_block",
    "C65_name",
    "C65_default",
    "C65_duplicate_name",
    "C65_realloc_null",
    "C65_free_refused",
    "C65_unknown_name_refuted",
    "C65_remove_null_refuted",
    "C65_foreign_refuted",
    "C65_free_null_refuted"
   ],
   "note": "Partial: an unknown name is not served by the standard heap (C65_unknown_name_refuted), RemoveHeap of NULL succeeds (C65_remove_null_refuted), and Free accepts addresses that no heap gave (C65_foreign_refuted, C65_free_null_refuted). The registry and the dispatch of the blocks that were given are proved in full."
  },
  {
   "property": "C66",
   "status": "partial",
   "theorems": [
    "C66_history_partial",
    "C66_search",
    "C66_collision_refuted",
    "C66_memory_refuted",
    "C66_empty_refuted"
   ],
   "note": "Partial: for identifiers whose hashes differ, with memory, and no position of an empty tree. Without these the statement is false: C66_collision_refuted, C66_memory_refuted, C66_empty_refuted. The search by halves (C66_search) is proved in full."
  },
  {
   "property": "C67",
   "status": "partial",
   "theorems": [
    "C67_modifiers",
    "C67_layout_partial",
    "C67_history_partial",
    "C67_defined",
    "C67_verdict",
    "C67_native",
    "C67_unknown_type_refuted",
    "C67_recursive_refuted",
    "C67_update_refuted",
    "C67_four_dimensions_refuted",
    "C67_no_elements_refuted",
    "C67_large_refuted",
    "C67_unclosed_refuted"
   ],
   "note": "the layout and the history are proved for known types, at most three dimensions of at least one element, sizes below 2^32 and names configured once; outside these the code accepts layouts that overlap (refuted). Not modelled: a second Initialise of the same object, the destructor, dynamic libraries, memory running out."
  },
  {
   "property": "C68",
   "status": "partial",
   "theorems": [
    "C68_tree_partial",
    "C68_native",
    "C68_following_member_refuted",
    "C68_documented_refuted",
    "C68_same_name_refuted",
    "C68_atomic_refuted"
   ],
   "note": "proved for trees of any depth whose structured children come last, with distinct type names; the child that follows a structured child is lost by the code (refuted), so the statement is false for the other trees. Not modelled: leaves of a name already used in the type, names with dots."
  },
  {
   "property": "C69",
   "status": "partial",
   "theorems": [
    "C69_stored_partial",
    "C69_type_partial",
    "C69_defined_partial",
    "C69_no_leak_partial",
    "C69_client_partial",
    "C69_null_string_refuted",
    "C69_pointers_refuted",
    "C69_own_value_refuted",
    "C69_atomic_refuted"
   ],
   "note": "every form of value, every history of stores, cleanings and actions of the program; the sizes do not wrap, allocations succeed, CArray on the heap is not modelled; tables of strings with NULL, vectors of pointers, the own value of the object and refused values are refuted separately"
  },
  {
   "property": "C70",
   "status": "partial",
   "theorems": [
    "C70_validate_partial",
    "C70_written",
    "C70_uint32_refuted",
    "C70_matrix_refuted",
    "C70_rows_refuted",
    "C70_accepted_refuted"
   ],
   "note": "scalars, vectors and square matrices of every integer type, characters and strings; floating point values and the reading of the attributes from the text are not modelled; uint32 vectors, matrices that are not square and values that are not looked at are refuted"
  },
  {
   "property": "C71",
   "status": "partial",
   "theorems": [
    "C71_kept_partial",
    "C71_serves_partial",
    "C71_refused_growth_refuted",
    "C71_silent_loss_refuted",
    "C71_overflow_refuted",
    "C71_zero_refuted",
    "C71_null_source_refuted"
   ],
   "note": "Proved for every history in which the heap grants each growth and the size stays under 2^32. Refuted otherwise: a refused growth loses the earlier blocks while the size stays, a later request then succeeds with the data gone, a request over 2^32 shrinks the area, a copy from NULL fails but takes its bytes. InitMemory and named heaps are not modelled."
  },
  {
   "property": "C72",
   "status": "partial",
   "theorems": [
    "C72_history_partial",
    "C72_delay_partial",
    "C72_refused_refuted",
    "C72_before_push_refuted"
   ],
   "note": "Proved for every history of pushes and queries when the constructor is given its memory. Refuted: a constructor whose memory is refused gives a shorter list without a sign, and the last value before any push is uninitialised. The inherited calls that change the number of elements are not in the histories."
  },
  {
   "property": "C73",
   "status": "partial",
   "theorems": [
    "C73_identifiers",
    "C73_stable",
    "C73_registered",
    "C73_loaded_partial",
    "C73_names",
    "C73_library_ignored_refuted",
    "C73_failed_search_refuted",
    "C73_long_name_refuted"
   ],
   "note": "Proved for every history of sequential registrations and searches and libraries of at most 128 characters. Refuted: the library in the name is ignored when a class of that name is registered, a failed search leaves the library opened, a long library name is cut and another library opened. Lock, FindTypeIdName and CleanUp are not modelled."
  },
  {
   "property": "C74",
   "status": "proved",
   "theorems": [
    "C74_history",
    "C74_reverse",
    "C74_top_pointer_refuted"
   ],
   "note": "For every history of the calls, sizes and answers of the heap (with elements of one byte: fewer than 2^32 calls). Finding: GetAllocatedMemoryConst of an emptied stack points before its block."
  },
  {
   "property": "C75",
   "status": "partial",
   "theorems": [
    "C75_released_partial",
    "C75_timeout_partial",
    "C75_prompt_partial",
    "C75_never_stuck",
    "C75_late_refuted",
    "C75_pulse_refuted"
   ],
   "note": "Every interleaving of any number of threads, sequentially consistent, with a counter that does not wrap. Refuted: a wait never reports Timeout when the event was opened in time (it can), and a post followed by a reset releases the waiters (it may not)."
  },
  {
   "property": "C76",
   "status": "partial",
   "theorems": [
    "C76_partial",
    "C76_read_only_partial",
    "C76_read_back",
    "C76_relative_back_refuted",
    "C76_relative_back_outside_refuted",
    "C76_shrink_refuted",
    "C76_size_refuted"
   ],
   "note": "Every block below 2^32 bytes and every history in which a relative move backwards is followed by Seek before a read or write, a size is not below the cursor and fits 32 bits. Refuted with witnesses: after RelativeSeek backwards the next read or write is at the wrong byte or outside the block; SetSize below the cursor lets the next read leave the block; SetSize takes the size modulo 2^32. Not modelled: GetC, PutC, printing, the default constructor."
  },
  {
   "property": "C77",
   "status": "proved",
   "theorems": [
    "C77_build",
    "C77_build_class",
    "C77_read",
    "C77_read_class",
    "C77_equal",
    "C77_equal_basic",
    "C77_equal_class",
    "C77_from_name",
    "C77_to_name",
    "C77_round_trip",
    "C77_numeric"
   ],
   "note": "Every argument, word and text; pointers of 64 bits, bool of 8. GetTypeDescriptorFromStaticTable and GetTypeNameFromStaticTable (an index into the table, not checked) are not modelled."
  }
 ]
}