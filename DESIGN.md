# Formal model of aneto0/MARTe2 in Rocq (Coq 8.16.1)

## Layout

`rocq/theories/` holds, for each modelled area `X`:

* `X_Model.v` - executable Gallina functions, one per C++ function; each definition cites file and lines of `/repo`.
* `X_Spec.v` - the small independent specification (plain mathematics: lists, integers, boolean functions) in which the property is stated.
* `X_Proofs.v` - lemmas, invariants, refinement proofs.
* `X_Props.v` - only the property theorems (`exact lemma`), `Print Assumptions`, and non-vacuity `Example`s.

`Base.v` holds shared arithmetic lemmas. `MANIFEST.json` maps properties to theorem names. `seeded/LOG.jsonl` logs
every wrong-program experiment. Theorems whose name ends in `_partial` prove part of a property; theorems whose name
ends in `_refuted` exhibit a concrete run of the faithful model that violates the stated property (a finding).

## Modelling conventions

* Fixed-width integers are `Z` with the wrap written explicitly (`mod 2^w`) where the C++ code can wrap.
* Bytes/characters are `Z` in `[0,256)` (or `N`), memory blocks are lists with explicit bounds; an access outside its
  block, a use after free or a division by zero is a distinct outcome (`None`, `Err`, `UB`) and never a default value.
* Loops are structural recursion or recursion on fuel; running out of fuel is a distinct outcome that theorems exclude.
* Threads are transition systems whose atomic steps are the code's accesses to shared memory (or the critical sections
  when these are protected by a lock that is itself proved/assumed to exclude); a schedule is an arbitrary list of
  (thread, step) choices, and theorems quantify over all of them. Sequentially consistent memory is assumed.
* OS services (pthread mutex/condition, timers) are modelled by their POSIX contract.

## Trusted base

* Coq's kernel (and the VM for `vm_compute` witnesses), no plugin, no axiom of our own.
* `Print Assumptions` of each property theorem is printed at build time beneath it; see "Axioms" at the end.
* The Coq standard library. mathcomp is used for C58 only (the matrices that state the property, and its theorems about
  determinants); the theorems that use it print no assumption. std++, Iris and the other installed libraries are not used.
* The faithfulness of the model to the C++ text (cited lines). Nothing was compiled or run from `/repo`.

## Assumptions that hold for all models

* Signed overflow of intermediate results wraps (two's complement); where the strict C++ rule makes a difference there is
  a theorem about it (C07). `char8` is a byte, pointers are compared by identity, `uint32` and `int32` sizes as on the
  targets of the code.
* Memory is never exhausted unless the model says so (StaticList models any answer of the heap).
* Devices of streams do not fail; clocks are arbitrary unless the model says so.
* Memory is sequentially consistent; compiler reordering is not modelled.
* Thread creation and killing succeed, as the headers of the thread models say.
* Templates are modelled at the types the theorem quantifies over.


## Per property: what is modelled, how it is proved, what is missing

### C01 Decimal integer printing is canonical

* Files: `IntText_Props.v` and the `_Model`, `_Spec`, `_Proofs` files of the same name.
* Model and proof: Order of magnitude, 4-digit groups and the decimal, hexadecimal, octal and binary printers of IOBufferIntegerPrint.cpp over integers with explicit wraps. The printed text is the positional numeral of the value (induction on digits).
* Status: **proved**. Full claim for the default format; field-width form proved for all values but the padded most negative one, for which the code is refuted (C01_min_not_padded_refuted).
* Theorems: `C01_decimal_print_canonical`, `C01_decimal_print_field`, `C01_min_not_padded_refuted`, `C01_hex_print_field`, `C01_oct_print_field`, `C01_bin_print_field`.

### C02 Integer text round trip

* Files: `IntText_Props.v` and the `_Model`, `_Spec`, `_Proofs` files of the same name.
* Model and proof: The printers of C01 composed with the reader of C03; round trip by the two characterisations.
* Status: **proved**. Direct print/parse functions for all eight types and four notations.
* Theorems: `C02_integer_text_roundtrip`.

### C03 Integer parsing is exact and never wraps

* Files: `IntText_Props.v` and the `_Model`, `_Spec`, `_Proofs` files of the same name.
* Model and proof: The loops of StringToInteger with the wrap of the accumulator and the max/last-digit guards. Loop invariant: the accumulator is the value of the prefix. Success iff grammar and range.
* Status: **proved**. Exact characterisation (iff) of the accepted strings up to the 1000 character scan limit; three refutations record surprising accepted/rejected inputs.
* Theorems: `C03_integer_parse_exact`, `C03_out_of_range_rejected`, `C03_digitless_refuted`, `C03_leading_zeros_refuted`, `C03_long_tail_ignored_refuted`, `C03_generic_destination`.

### C04 Base64 encoding round trip

* Files: `Base64_Props.v` and the `_Model`, `_Spec`, `_Proofs` files of the same name.
* Model and proof: Encode and Decode loops byte by byte; equality with RFC 4648 by 3-byte induction; the tail separately.
* Status: **partial**. Encode proved equal to RFC 4648 for all inputs; round trip proved for lengths 0 and 2 mod 3 and refuted for 1 mod 3 (Decode appends a zero byte); rejection of invalid characters proved, trailing characters after the last whole group are ignored (refuted).
* Theorems: `C04_encode_is_rfc4648`, `C04_encoded_length`, `C04_round_trip_partial`, `C04_round_trip_characterised`, `C04_round_trip_refuted`, `C04_decode_then_encode`, `C04_decode_rejects`, `C04_trailing_ignored_refuted`.

### C05 Integer narrowing saturates

* Files: `IntArith_Props.v` and the `_Model`, `_Spec`, `_Proofs` files of the same name.
* Model and proof: SaturateInteger for every pair of source and destination types, over Z; case analysis.
* Status: **proved**. All pairs of widths and signednesses, all bit sizes within the destination.
* Theorems: `C05_saturate_integer`, `C05_safe_number_to_number`.

### C06 Bit-field writes are confined

* Files: `IntArith_Props.v` and the `_Model`, `_Spec`, `_Proofs` files of the same name.
* Model and proof: BitRange assignment and read over Z with wraps; extensionality in the bits.
* Status: **partial**. Read-back proved for all base types; frame condition proved for unsigned base types and single-bit flags. For signed base types the code violates it (C06_bit_field_frame_signed_refuted): bits above the field are overwritten.
* Theorems: `C06_bit_field_read_back`, `C06_bit_field_frame_unsigned`, `C06_bit_field_frame_signed_partial`, `C06_bit_field_frame_signed_refuted`, `C06_bit_boolean_assign`, `C06_bit_boolean_read`.

### C07 Overflow-checking arithmetic is exact

* Files: `IntArith_Props.v` and the `_Model`, `_Spec`, `_Proofs` files of the same name.
* Model and proof: SafeMath's guards and operations over Z with two's complement wraps; arithmetic.
* Status: **proved**. Addition, subtraction, multiplication and complete multiply for all integer types, under two's complement wrap of the intermediate sum; C07_strict_addition_partial states what the strict C++ rule (signed overflow undefined) leaves.
* Theorems: `C07_safe_addition`, `C07_safe_subtraction`, `C07_safe_multiplication`, `C07_complete_multiply`, `C07_success_is_exact`, `C07_strict_addition_partial`.

### C08 Double-width integers implement wide arithmetic

* Files: `IntArith_Props.v` and the `_Model`, `_Spec`, `_Proofs` files of the same name.
* Model and proof: DoubleInteger as a pair of halves of any width; abstraction to Z modulo 2^(2w).
* Status: **proved**. Full for unsigned halves (the property); addition, subtraction, comparisons and bitwise also for signed halves. Shifts with signed halves are refuted.
* Theorems: `C08_add`, `C08_sub`, `C08_compare`, `C08_bitwise`, `C08_shift_left`, `C08_shift_right`, `C08_conversion`, `C08_signed_shift_left_refuted`, `C08_signed_shift_right_refuted`.

### C09 Linked lists behave as sequences

* Files: `LinkedList_Props.v` and the `_Model`, `_Spec`, `_Proofs` files of the same name.
* Model and proof: A heap of next pointers (finite map) and the pointer surgery as written; a heap segment represents a list; induction over histories.
* Status: **proved**. Holder histories over all 19 list operations, from a new holder, with fresh elements; chain insertion and chain append separately; Add of an element that has followers drops them (refuted).
* Theorems: `C09_history`, `C09_insert_chain`, `C09_add_chain`, `C09_add_keeps_followers_refuted`.

### C10 List sort sorts and preserves the elements

* Files: `LinkedList_Props.v` and the `_Model`, `_Spec`, `_Proofs` files of the same name.
* Model and proof: Bubble sort and sorted insertion on the same heap; permutation, sortedness, stability by measures on inversions.
* Status: **proved**. Bubble sort: ends, permutation, sorted, stable; sorted insertion of elements and chains.
* Theorems: `C10_sort`, `C10_sort_any_comparison`, `C10_sorted_insert`.

### C11 Static list behaves as a growable array

* Files: `StaticList_Props.v` and the `_Model`, `_Spec`, `_Proofs` files of the same name.
* Model and proof: The array with its capacity and its shifting loops at byte level; refinement to a list.
* Status: **proved**. All histories at byte level, any answers of the heap. For 1-byte elements the history is bounded by 2^32 - 2g operations (32-bit capacity arithmetic wraps beyond).
* Theorems: `C11_static_list_history`, `C11_add_all`.

### C12 BitSet operators are bitwise

* Files: `BitSet_Props.v` and the `_Model`, `_Spec`, `_Proofs` files of the same name.
* Model and proof: An array of 32-bit words; extensional in the bit index.
* Status: **proved**. All operators on all sizes; << needs 32*words+shift < 2^32 (indices are 32-bit). operator==(uint64) of a one-word set and the uint64 conversion of three-word sets are refuted separately.
* Theorems: `C12_bit_is_membership`, `C12_set_changes_one_index`, `C12_operators_are_bitwise`, `C12_complement`, `C12_shift_left`, `C12_shift_right`, `C12_as_numbers`, `C12_equality`, `C12_equality_u32`, `C12_equality_u64`, `C12_equality_u64_one_word_refuted`, `C12_conversions`, `C12_to_u64_refuted`.

### C13 Table-driven CRC equals polynomial division

* Files: `CRC_Props.v` and the `_Model`, `_Spec`, `_Proofs` files of the same name.
* Model and proof: The table, and the forward and reversed loops; linearity over xor; remainder in GF(2)[x].
* Status: **proved**. Widths 8, 16, 32 (the class keeps its masks in 32 bits). Result proved to be the polynomial remainder; chaining, reversed reading and burst detection proved.
* Theorems: `C13_crc_is_polynomial_remainder`, `C13_remainder_unique`, `C13_chaining`, `C13_inverted_is_reversed`, `C13_burst_error_detected`.

### C14 UnorderedMap is a finite map

* Files: `Map_Props.v` and the `_Model`, `_Spec`, `_Proofs` files of the same name.
* Model and proof: Buckets and 64-bit hashes; refinement to a partial map over hashes.
* Status: **partial**. Proved for every history whose keys have different 64-bit hashes (C14_map_history); the statement without that hypothesis is false of the code and refuted for both hash functions.
* Theorems: `C14_map_history`, `C14_fnv_one_byte_difference`, `C14_never_inserted_is_found_djb_refuted`, `C14_never_inserted_is_found_fnv_refuted`.

### C15 Timeout arithmetic saturates at infinity

* Files: `Timeout_Props.v` and the `_Model`, `_Spec`, `_Proofs` files of the same name.
* Model and proof: Arithmetic of tick counters with explicit wraps, over all histories of operations.
* Status: **partial**. Remaining-or-zero proved for all histories; millisecond view and finiteness proved for millisecond timeouts. Infinite never becomes finite is false of the code and refuted with the exact bound.
* Theorems: `C15_remaining_or_zero`, `C15_milliseconds`, `C15_finite_stays_finite`, `C15_infinite_stays_infinite_refuted`, `C15_infinite_lasts`, `C15_milliseconds_general_refuted`, `C15_finite_stays_finite_general_refuted`, `C15_infinite_constants_equal_refuted`.

### C16 StreamString is a seekable growing byte file

* Files: `StrStream_Props.v` and the `_Model`, `_Spec`, `_Proofs` files of the same name.
* Model and proof: IOBuffer and StreamString with amountLeft, fillLeft, maxUsable and growth; refinement to bytes and a cursor.
* Status: **partial**. All histories of 15 operations agree with an abstract file and are free of undefined behaviour, except accesses directly after a backward RelativeSeek, where the statement is false (refuted, two witnesses); fewer than 2^31 bytes written.
* Theorems: `C16_file_history_partial`, `C16_file_history_backward_partial`, `C16_relative_seek_back_refuted`, `C16_relative_seek_back_out_of_bounds_refuted`, `C16_self_append_refuted`.

### C17 Tokenisation is faithful

* Files: `Token_Props.v` and the `_Model`, `_Spec`, `_Proofs` files of the same name.
* Model and proof: The loops of GetToken and SkipTokens over an abstract character source; induction on the source against a list specification.
* Status: **partial**. Any input and output stream, terminator and skip sets: one extraction, all tokens = maximal runs, nothing lost with an empty skip set, SkipTokens, arrays of two bytes or more (truncation); instantiated for StreamString. Extraction into a one-byte array writes outside it (refuted).
* Theorems: `C17_get_token`, `C17_tokens_are_runs`, `C17_runs_unique`, `C17_nothing_lost`, `C17_skip_tokens`, `C17_get_token_array`, `C17_one_byte_array_refuted`, `C17_stream_string`.

### C18 Buffered streams are transparent

* Files: `BufStream_Props.v` and the `_Model`, `_Spec`, `_Proofs` files of the same name.
* Model and proof: The buffered stream over a device; refinement to direct operations on the device.
* Status: **partial**. All histories of Read, Write, Seek, Flush, Size, Position and SetBufferSize over all contents and buffer sizes, relative seeks in write mode. Excluded and refuted: the result of a Read reaching the end, Seek back into the last buffer length after a large Read, RelativeSeek in read mode. Character access shown to be a source and sink for C17.
* Theorems: `C18_transparent_partial`, `C18_read_at_end_refuted`, `C18_seek_after_large_read_refuted`, `C18_relative_seek_refuted`, `C18_relative_seek_back_refuted`, `C18_relative_seek_far_back_refuted`, `C18_stream_is_source`, `C18_stream_is_sink`.

### C19 Polling mutex gives mutual exclusion

* Files: `PollMutex_Props.v` and the `_Model`, `_Spec`, `_Proofs` files of the same name.
* Model and proof: Spin lock, one action per access to the flag; invariant over all schedules and any number of threads.
* Status: **proved**. fine-grained interleaving of any number of threads over the shared flag, sequentially consistent memory
* Theorems: `C19_mutual_exclusion`, `C19_try_lock_succeeds_iff_free`, `C19_held_mutex_is_not_given`, `C19_timeout_only_when_late`.

### C20 Resource pool never hands a resource to two owners

* Files: `Pool_Props.v` and the `_Model`, `_Spec`, `_Proofs` files of the same name.
* Model and proof: Pool with its flags and lock; invariants over all schedules.
* Status: **partial**. proved for pools created free: one owner, no loss at quiescence, solo Take/Return, no wild access; refuted with witnesses: Take can fail although a resource is available at every moment, a pool created taken (log entries) can hand out a resource never given, log entries are not read in order
* Theorems: `C20_one_owner`, `C20_no_wild_access`, `C20_size_counts_free`, `C20_take_alone`, `C20_return_alone`, `C20_take_fails_only_when_empty_refuted`, `C20_created_taken_refuted`, `C20_log_order_refuted`.

### C21 Queued messages are delivered once, in order, without lost wake-ups

* Files: `QueueFilter_Props.v` and the `_Model`, `_Spec`, `_Proofs` files of the same name.
* Model and proof: Producers, the queue, its semaphores and the consumer; invariants over all schedules; absence of lost wake-ups and progress measure.
* Status: **proved**. any number of producers; order, exactly once, no lost wake-up and progress hold for any number of consumers and with spurious wake-ups; a fatalError is impossible with one consumer and no spurious wake-ups, and refuted otherwise
* Theorems: `C21_in_order`, `C21_exactly_once`, `C21_no_lost_wakeup`, `C21_no_deadlock`, `C21_calls_end`, `C21_quiescent`, `C21_single_consumer`, `C21_two_consumers_refuted`, `C21_spurious_refuted`.

### C22 Service threads follow the Startup/Main/Termination protocol

* Files: `EmbThread_Props.v` and the `_Model`, `_Spec`, `_Proofs` files of the same name.
* Model and proof: ThreadLoop as an automaton with arbitrary callback results and a client; language of traces.
* Status: **proved**. all callback results, all schedules of one client calling Start and Stop; BeginThread and Kill are assumed to succeed; three findings (lost Stop, refused Stop, BadTermination on a clean stop) with witnesses
* Theorems: `C22_protocol`, `C22_silent_after_stop`, `C22_stop_kills`, `C22_stop_ends`, `C22_stop_bounded`, `C22_running_stop_succeeds`, `C22_lost_stop_refuted`, `C22_refused_stop_refuted`, `C22_clean_stop_is_bad_termination`.

### C23 Counting semaphore is a barrier

* Files: `CountSem_Props.v` and the `_Model`, `_Spec`, `_Proofs` files of the same name.
* Model and proof: Counting barrier with its spin lock and event; invariants over all schedules.
* Status: **partial**. all N below 2^32-1 and all schedules in which resets are made when no other call is in progress (and no spurious wake-ups for the first half); with a concurrent Reset both halves are refuted with witnesses
* Theorems: `C23_one_arrival`, `C23_not_before_all`, `C23_reset_not_before_all`, `C23_no_deadlock`, `C23_calls_end`, `C23_released`, `C23_all_pass`, `C23_early_release_refuted`, `C23_stranded_refuted`.

### C24 Asynchronous output broker delivers every accepted sample once, in order

* Files: `AsyncBroker_Props.v` and the `_Model`, `_Spec`, `_Proofs` files of the same name.
* Model and proof: Real-time thread and service thread, one action per access to shared memory, samples copied cell by cell; ghost history invariants.
* Status: **partial**. all numbers of buffers above one, all samples, all schedules, all results of Synchronise, provided fewer than N samples are stored and not freed (N-1 before the service thread starts): order, no loss, no duplicate, no torn sample, no sleep with pending samples, bounded work; without that proviso the claim fails (full buffer taken for empty and stuck for ever, late start reorders, Flush returns before all samples are synchronised - C24_flush_partial says which are -, duplicate after a failed Execute: refuted with witnesses)
* Theorems: `C24_in_order_partial`, `C24_accepted`, `C24_no_sleep_pending_partial`, `C24_all_delivered_partial`, `C24_flush_partial`, `C24_bounded_work`, `C24_full_buffer_refuted`, `C24_lost_for_ever_refuted`, `C24_late_start_refuted`, `C24_flush_refuted`, `C24_failed_execute_refuted`.

### C25 Asynchronous triggered broker stores exactly the pre/post window

* Files: `TrigBroker_Props.v` and the `_Model`, `_Spec`, `_Proofs` files of the same name.
* Model and proof: As C24 for the broker with triggers.
* Status: **partial**. Proved for every schedule in which the real-time thread never gets closer than one free buffer to the service thread (kept_up); without it a full buffer is taken for an empty one (refuted with no pre-trigger buffers). FlushAllTriggers and resetting the buffer are not modelled.
* Theorems: `C25_window_partial`, `C25_accepted`, `C25_no_sleep_pending_partial`, `C25_all_delivered_partial`, `C25_bounded_work`, `C25_full_buffer_refuted`.

### C26 Multi-buffer brokers copy circularly

* Files: `MultiBuf_Props.v` and the `_Model`, `_Spec`, `_Proofs` files of the same name.
* Model and proof: Byte-copy loops with bounds and offsets; the copy is a circular read.
* Status: **partial**. exact condition under which the copy stays inside the area, and circularity of both directions, for all sizes and offsets; the full claim fails when more samples than buffers are read or the offset is not reduced (refuted with witnesses)
* Theorems: `C26_read_circular`, `C26_write_circular`, `C26_inside_exactly_when`, `C26_whole_samples`, `C26_ranges`, `C26_execute_inputs`, `C26_execute_outputs`, `C26_more_samples_than_buffers_refuted`, `C26_unreduced_offset_refuted`.

### C27 Circular-buffer input source never skips fresh data silently

* Files: `CircBuf_Props.v` and the `_Model`, `_Spec`, `_Proofs` files of the same name.
* Model and proof: Acquisition thread and reader of the circular buffer; invariants over interleavings.
* Status: **partial**. synchronising signal, one broker; order, no gaps (GetFirst) and progress proved when the reader is not overtaken and the block it waits for fits; flag proved exact when the acquisition of a sample is not interrupted; offsets proved for at most NumberOfBuffers samples; six refutations otherwise
* Theorems: `C27_order_partial`, `C27_gapless_partial`, `C27_progress_partial`, `C27_overlap_flag_partial`, `C27_offset`, `C27_offset_refuted`, `C27_silent_overwrite_refuted`, `C27_overtaken_refuted`, `C27_double_buffer_refuted`, `C27_stale_refuted`, `C27_same_block_refuted`.

### C28 State machine transitions are the configured ones

* Files: `StateMach_Props.v` and the `_Model`, `_Spec`, `_Proofs` files of the same name.
* Model and proof: Filters, events, states and messages; simulation by the automaton of the configuration.
* Status: **partial**. Proved for every configuration accepted by Initialise and every message history in which no disabled message repeats the name of an event that already fired, ENTER messages are delivered and a self-transition does not fail; each of the three exceptions is refuted: a stale event of a left state acts, the events of the error state are not enabled, one message causes two transitions. Purge and the queue thread are not modelled.
* Theorems: `C28_transitions_partial`, `C28_enabled_partial`, `C28_stale_event_refuted`, `C28_self_error_refuted`, `C28_enter_failure_refuted`.

### C29 References keep objects alive exactly while referenced

* Files: `Ref_Props.v` and the `_Model`, `_Spec`, `_Proofs` files of the same name.
* Model and proof: Heap of objects and handles; invariant over histories; interleavings for several threads.
* Status: **partial**. For one thread: proved for all histories with member references and cascades; operations that overwrite the reference their source depends on use freed memory (refuted: list = list->next, own pointer, typed self-assignment). For several threads: never destroyed while referenced and destroyed at the end, but not at most once (refuted: decrement and read are two actions).
* Theorems: `C29_alive_iff_referenced`, `C29_count`, `C29_destroyed_once`, `C29_defined_partial`, `C29_assignment`, `C29_threads_partial`, `C29_threads_twice_refuted`, `C29_next_refuted`, `C29_own_pointer_refuted`, `C29_typed_self_refuted`.

### C30 Container path search

* Files: `Container_Props.v` and the `_Model`, `_Spec`, `_Proofs` files of the same name.
* Model and proof: Trees of references with the filter search loops; refinement to path lookup on rose trees.
* Status: **partial**. With distinct sibling names the object at a path is found, insertion puts the object at its path and changes nothing else, removal removes exactly the object and what is under it, and no deleted node is used. Missing: a path at which there is nothing may be found inside an inner container (refuted), so soundness is only proved up to a prefix; repeated names and unnamed objects break longer paths (refuted).
* Theorems: `C30_path_names`, `C30_find_all`, `C30_find_nth`, `C30_find_name`, `C30_double_dot`, `C30_no_dangling`, `C30_find_sound_partial`, `C30_find_path`, `C30_find_two`, `C30_insert`, `C30_insert_fails`, `C30_delete`, `C30_delete_sound_partial`, `C30_found_elsewhere_refuted`, `C30_not_found_refuted`, `C30_unnamed_refuted`, `C30_insert_empty_name_refuted`, `C30_remove_all_refuted`, `C30_all_paths_refuted`.

### C31 Configuration database is a tree of named values

* Files: `ConfigDB_Props.v` and the `_Model`, `_Spec`, `_Proofs` files of the same name.
* Model and proof: Tree of nodes with hashed names and a cursor; refinement to a tree of named values over all histories.
* Status: **partial**. Every history of calls answers as a tree does (paths of single-dot-separated non-empty names, names used with different hashes, no Create through a value); read returns what was last written. Refuted outside: hash collisions, Create through a value dereferences NULL, failed CreateAbsolute moves the cursor, paths with extra dots.
* Theorems: `C31_history_partial`, `C31_read_last_written_partial`, `C31_failed_kept`, `C31_create_through_value_refuted`, `C31_create_failed_moves_refuted`, `C31_hash_collision_refuted`, `C31_dots_refuted`, `C31_write_over_directory_refuted`.

### C32 Message filter chain dispatch

* Files: `Msg_Props.v` and the `_Model`, `_Spec`, `_Proofs` files of the same name.
* Model and proof: Filters in a list; induction.
* Status: **proved**. filters that install or remove filters while they consume are treated with the state machine (C28)
* Theorems: `C32_dispatch`, `C32_removed`, `C32_kept`.

### C33 Waiting for a reply honours its timeout

* Files: `Msg_Props.v` and the `_Model`, `_Spec`, `_Proofs` files of the same name.
* Model and proof: The waiting loops over an arbitrary clock.
* Status: **partial**. holds for ReplyMessageCatcherMessageFilter::Wait (used by SendMessageAndWaitIndirectReply); MessageI::WaitForReply compares the wrong way round and is refuted for finite time-outs, proved for the infinite one
* Theorems: `C33_indirect_success`, `C33_indirect_timeout`, `C33_indirect_in_time`, `C33_indirect_ends`, `C33_direct_infinite_partial`, `C33_early_timeout_refuted`, `C33_no_timeout_refuted`.

### C34 Mathematical expressions compile to the right postfix program

* Files: `MathParser_Props.v` and the `_Model`, `_Spec`, `_Proofs` files of the same name.
* Model and proof: The SLK tables and the ParserI engine; simulation by structural induction on expressions.
* Status: **partial**. Every list of assignments of well-formed expressions (parentheses and calls nested at most 37 deep) compiles to its stack program, whose execution gives the values. Refuted beyond: deeper nesting overflows the 512-entry parser stack (wrong program or refusal), a missing semicolon after a parenthesised name never terminates, text after an unknown symbol is ignored, logical operators share one precedence.
* Theorems: `C34_program_partial`, `C34_value`, `C34_deep_nesting_refuted`, `C34_deep_nesting_refused_refuted`, `C34_no_end_refuted`, `C34_rest_ignored_refuted`, `C34_logical_precedence_refuted`.

### C35 The runtime evaluator never over- or underflows its stack

* Files: `RuntimeEval_Props.v` and the `_Model`, `_Spec`, `_Proofs` files of the same name.
* Model and proof: Compilation and execution loops of RuntimeEvaluator; stack-depth typing and a stack machine.
* Status: **partial**. Programs of up to 32767 lines, no variable named like an internal constant, no internal command: execution equals the stack machine in safe mode, and in fast mode while no error occurs; compilation in bounds; integer operators exact. Refuted: fast mode after an error overflows the stack; RREAD accepted without operand; second Compile overlaps variables; 65536 words of code execute nothing; NEG of least int8. Floating point functions are a parameter.
* Theorems: `C35_accepted_program_computes_its_stack_semantics_partial`, `C35_compilation_stays_in_its_memory`, `C35_integer_operators_are_exact`, `C35_integer_conversions_are_exact`, `C35_fast_mode_leaves_the_stack_after_an_error_refuted`, `C35_internal_command_accepted_refuted`, `C35_second_compilation_overlaps_variables_refuted`, `C35_long_program_executes_nothing_refuted`, `C35_negation_of_the_least_int8_refuted`, `C35_mixed_sign_comparison_is_an_error_refuted`.

### C36 Lexical analysis splits the input faithfully

* Files: `Lex_Props.v`, `Txt_Props.v` and the `_Model`, `_Spec`, `_Proofs` files of the same name.
* Model and proof: The automaton of LexicalAnalyzer; induction on the text.
* Status: **partial**. Token order, token text, line numbers and end of file proved for every text of separators, comments, terminals, quoted strings and words (grammars without keywords, comment marks as in C++ or none) and every sequence of GetToken and PeekToken(0); C36_look_ahead_partial: PeekToken(n) too, if the tokens before it have been looked at. Not covered: texts outside that grammar (unterminated quote or comment), PeekToken(n) that skips tokens not yet looked at, grammars with keywords; the refutations show that there the claim is false.
* Theorems: `C36_tokens_of_the_text_in_order_partial`, `C36_plain_texts_have_tokens`, `C36_empty_comment_swallows_the_next_line_refuted`, `C36_peek_ahead_inserts_end_of_file_refuted`, `C36_trailing_slash_lost_refuted`, `C36_backslash_inserts_end_of_file_refuted`, `C36_escape_counts_as_a_line_refuted`, `C36_operators_not_split_refuted`, `C36_xml_comment_missed_refuted`, `C36_look_ahead_partial`.

### C37 Event semaphore releases waiters

* Files: `EventSem_Props.v` and the `_Model`, `_Spec`, `_Proofs` files of the same name.
* Model and proof: Event semaphore over the POSIX contract of mutexes and conditions; invariants over all schedules.
* Status: **partial**. all schedules and numbers of threads: a post releases every sleeper, nobody sleeps while posted, no deadlock; no success without a post is proved without spurious wake-ups and mutex-lock timeouts and refuted with either
* Theorems: `C37_posted_nobody_sleeps`, `C37_post_releases`, `C37_no_deadlock`, `C37_no_success_without_post_partial`, `C37_no_success_without_post_refuted`, `C37_lock_timeout_refuted`.

### C38 Thread pools respect their bounds

* Files: `ThreadPool_Props.v` and the `_Model`, `_Spec`, `_Proofs` files of the same name.
* Model and proof: Pool of threads; invariant over all schedules.
* Status: **partial**. bounds proved when no two threads change the pool at the same time; AddThread and the decision to leave are not synchronised: refuted without that restriction (above maximum, unbounded, below minimum, invalid reference, dead thread in the pool)
* Theorems: `C38_bounds_partial`, `C38_no_crash_partial`, `C38_pool_partial`, `C38_above_maximum_refuted`, `C38_unbounded_refuted`, `C38_below_minimum_refuted`, `C38_crash_refuted`, `C38_dead_in_pool_refuted`.

### C39 Integer square root is exact

* Files: `IntArith_Props.v` and the `_Model`, `_Spec`, `_Proofs` files of the same name.
* Model and proof: FastMath/IntegerMath functions over Z with wraps.
* Status: **proved**. 
* Theorems: `C39_square_root_unsigned`, `C39_square_root_signed`.

### C40 Memory brokers copy exactly the configured bytes

* Files: `Broker_Props.v` and the `_Model`, `_Spec`, `_Proofs` files of the same name.
* Model and proof: The copy table of the broker (plain and optimised) and its execution byte by byte; extensional in the addresses.
* Status: **partial**. both directions, plain and optimised tables, all signals, samples, ranges and state buffers; the plain table overflows for several samples of a single range (refuted with a witness, exact condition proved) and the sort does not sort (harmless)
* Theorems: `C40_table_size`, `C40_plain`, `C40_optimised`, `C40_sort_keeps_lines`, `C40_one_range_samples_refuted`, `C40_sort_refuted`.

### C41 Overlapping producers are refused

* Files: `Broker_Props.v` and the `_Model`, `_Spec`, `_Proofs` files of the same name.
* Model and proof: The range arithmetic; induction on the ranges.
* Status: **proved**. for ranges with first element not above the last, which the builder checks before
* Theorems: `C41_no_common_element`.

### C42 MD5 digests and keyed codes are the standard ones

* Files: `Md5_Props.v` and the `_Model`, `_Spec`, `_Proofs` files of the same name.
* Model and proof: Md5 block transform, padding and Md5Hmac over 32-bit words; equality with a transcription of RFC 1321 and RFC 2104, induction on blocks.
* Status: **partial**. Md5 proved equal to RFC 1321 for all messages; Md5Hmac equal to RFC 2104 for keys of at most 64 bytes; for longer keys the standard is refuted: the code truncates the key instead of hashing it.
* Theorems: `C42_md5_is_rfc1321`, `C42_same_on_every_platform`, `C42_hmac_is_rfc2104_partial`, `C42_hmac_of_the_first_block_of_the_key`, `C42_hmac_long_key_refuted`.

### C43 The real-time scheduler runs the state that was started, and only that

* Files: `Sched_Props.v` and the `_Model`, `_Spec`, `_Proofs` files of the same name.
* Model and proof: Scheduler threads, state index, events and clients; invariants over all schedules and a progress measure.
* Status: **partial**. All schedules, all sets of states. Safety for clients that stop and prepare before they start; progress for clients that stop, then prepare, then start. For other orders, and with spurious wakeups of condition variables, the property is false (five refutations). Thread creation is assumed to succeed and the event semaphore is its flag and its sleepers.
* Theorems: `C43_thread_table`, `C43_thread_table_inside`, `C43_cycles`, `C43_silent_when_stopped`, `C43_no_bad_access`, `C43_current_state`, `C43_results`, `C43_calls_return`, `C43_calls_progress`, `C43_threads_go_on`, `C43_start_without_stop_refuted`, `C43_stop_after_prepare_refuted`, `C43_prepare_twice_refuted`, `C43_start_after_failed_prepare_refuted`, `C43_spurious_wakeup_refuted`.

### C44 Configuration parsers build the tree that the text describes

* Files: `Cfg_Props.v`, `Txt_Props.v` and the `_Model`, `_Spec`, `_Proofs` files of the same name.
* Model and proof: The generic ParserI engine with its bounded stack and look-ahead, the tables of the three parsers, the actions on the database of C31. Simulation of the engine by structural induction on the configuration; refinement of the database to the tree of C31. Conversely, by induction on the tokens: a run of the engine that ends without an error has read a configuration.
* Status: **partial**. Standard, XML and JSON, for blocks nested at most 249, 99 and 124 deep, with undotted block names and different hashes; conversion of texts and evaluation of expressions are parameters. The _text_ theorems (Standard, JSON) are about texts, through the lexical analyser. The _sound_ theorems: whenever Parse returns true the tokens are a configuration up to the end of the input or to a character that is no terminal, with at most 220 (Standard), 85 (XML), 220 (JSON) brackets or tags open.
* Theorems: `C44_standard_partial`, `C44_standard_sound_partial`, `C44_xml_partial`, `C44_json_partial`, `C44_xml_sound_partial`, `C44_json_sound_partial`, `C44_end_tag_refuted`, `C44_look_ahead_refuted`, `C44_depth_refuted`, `C44_depth_name_refuted`, `C44_dotted_block_refuted`, `C44_block_through_value_refuted`, `C44_variable_refuted`, `C44_rest_refuted`, `C44_empty_refuted`, `C44_cursor_refuted`, `C44_json_idx_refuted`, `C44_standard_text_partial`, `C44_json_text_partial`.

### C45 Signals of an accepted application have the memory their declarations ask for

* Files: `SigMem_Props.v` and the `_Model`, `_Spec`, `_Proofs` files of the same name.
* Model and proof: The merge of the declarations, sizes, offsets and allocations; monotonicity of the declarations over all functions, exactness of the 32-bit sums, composition with the copy table of C40.
* Status: **partial**. Proved when every GAM signal states NumberOfElements (or states nothing and the data source does), sizes fit 32 bits, and samples do not exceed the buffers; six refutations show what happens otherwise. Structured types, default values and states are not modelled.
* Theorems: `C45_agreement_partial`, `C45_function_memory_partial`, `C45_memory_data_source`, `C45_gam_data_source`, `C45_broker_partial`, `C45_type_mismatch_accepted_refuted`, `C45_locked_data_source_refuted`, `C45_order_refuted`, `C45_size_wrap_refuted`, `C45_no_buffers_refuted`, `C45_samples_of_first_function_refuted`.

### C46 Formatted printing

* Files: `Fmt_Props.v` and the `_Model`, `_Spec`, `_Proofs` files of the same name.
* Model and proof: FormatDescriptor and the print functions of IOBuffer, over the integer print of C01; induction on the pieces of the format.
* Status: **partial**. Floats, bit ranges, objects and structured data are not modelled; a quoted string in a wider field without padding, streams of more than 10000 characters and booleans in hexadecimal are excluded, and refuted.
* Theorems: `C46_printf_partial`, `C46_bad_conversion_partial`, `C46_percent_refuted`, `C46_quotes_cut_refuted`, `C46_quotes_overrun_refuted`, `C46_big_stream_refuted`, `C46_bool_hex_refuted`, `C46_missing_argument_refuted`.

### C47 A printed configuration can be parsed back

* Files: `Prt_Props.v` and the `_Model`, `_Spec`, `_Proofs` files of the same name.
* Model and proof: PrintStructuredDataInterface over the database of C31 and the print of C46; induction on the tree, whose text is shown to consist of the tokens of a configuration, composition with C44.
* Status: **partial**. Both theorems compose the print (over C31 and C46) with the parsers of C44 on texts (C36). Missing: XML (%X!), streams and pointers as values, floating point values; the class PrinterI and its subclasses. Refuted: empty directories, quotes in strings, names with spaces or that are numbers, vectors in JSON.
* Theorems: `C47_standard_partial`, `C47_json_partial`, `C47_empty_directory_refuted`, `C47_quote_refuted`, `C47_space_refuted`, `C47_number_name_refuted`, `C47_json_vector_refuted`.

### C48 A loader replaces a configuration completely or goes back to the last valid one

* Files: `Loader_Props.v` and the `_Model`, `_Spec`, `_Proofs` files of the same name.
* Model and proof: Loader and RealTimeLoader as functions of a state (registry, current configuration, kept objects, messages), classes and parsers as parameters; the calls are shown to simulate a small request machine, induction over the sequence of calls; the hash through C13.
* Status: **partial**. All histories after a successful Configure whose remaining configuration can be loaded again; copying a database is assumed to succeed, the classes, parsers and receivers of messages are parameters, and what is under the objects of the root is not represented. Refuted: the documented default of ReloadLast, the effects of a failing PreConfiguration message, kept objects are emptied, error answers and messages after an applied configuration, applications that were replaced are still started, hashes can be used again.
* Theorems: `C48_configure`, `C48_history_partial`, `C48_reload_partial`, `C48_refused_text_changes_nothing`, `C48_default_refuted`, `C48_pre_message_refuted`, `C48_kept_emptied_refuted`, `C48_post_message_refuted`, `C48_post_message_sent_refuted`, `C48_stale_applications_refuted`, `C48_kept_application_refuted`, `C48_reload_value_refuted`, `C48_hash_refuted`, `C48_kept_domain_refuted`.

### C49 A reply written to the HTTP stream is the reply the client decodes

* Files: `Chunk_Props.v` and the `_Model`, `_Spec`, `_Proofs` files of the same name.
* Model and proof: Both directions of DoubleBufferedStream with the chunked Flush, over the IOBuffer of C16/C18, the print of C46 for the size of a chunk, and a socket whose calls are an arbitrary script; every call appends framed data, induction over the calls; the client is a decoder written from RFC 9112.
* Status: **partial**. For sends that take all the bytes or fail, and histories without a change of the calibration parameter. Refuted: a send that takes a part of the bytes loses the rest, a repeated Flush after a failure, FinalChunk before Flush, a change of mode with data in the buffer, large writes in chunk mode with the default parameter, and a Read that fails in the middle loses what it stored. Timeouts and the read half of SetBufferSize are not modelled.
* Theorems: `C49_defined_partial`, `C49_sent_partial`, `C49_failure_partial`, `C49_reply_partial`, `C49_read_partial`, `C49_partial_send_refuted`, `C49_retry_refuted`, `C49_final_refuted`, `C49_mode_refuted`, `C49_large_write_refuted`, `C49_read_failure_refuted`.

### C50 An HTTP request is seen by the pages as the client wrote it

* Files: `Http_Props.v` and the `_Model`, `_Spec`, `_Proofs` files of the same name.
* Model and proof: Http_Model.v: HttpEncode (over the Printf model of C46), HttpDecode, the request part of ReadHeader (command, BuildUrl, StoreCommands, StoreInputOptions) and HandlePostApplicationForm over the GetToken model of C17. Http_Spec.v: percent encoding as a relation and the text of a request. Proofs: lemmas that compute GetToken on a kept run followed by a terminator, then induction on the parts, the commands and the options; induction on the text for the encoding.
* Status: **partial**. Proved for every percent encoding of paths whose parts are not empty and have no slash or backslash, of queries whose commands are longer than three characters, and any options; the stale commands, the short commands, the empty query, the encoded slash, the last slash, the plus sign, the semicolon, the bad escapes and the short version are refuted. Not modelled: replies, the value of the version, the body.
* Theorems: `C50_round_trip_partial`, `C50_encode_partial`, `C50_decode_partial`, `C50_request_partial`, `C50_no_query_partial`, `C50_form_partial`, `C50_any_input_partial`, `C50_any_options_partial`, `C50_short_command_refuted`, `C50_empty_query_refuted`, `C50_stale_commands_refuted`, `C50_encoded_slash_refuted`, `C50_last_slash_refuted`, `C50_newline_refuted`, `C50_semicolon_refuted`, `C50_plus_refuted`, `C50_bad_escape_refuted`, `C50_short_version_refuted`.

### C51 A configured application has one writer per element and one thread per function

* Files: `Prod_Props.v` and the `_Model`, `_Spec`, `_Proofs` files of the same name.
* Model and proof: Prod_Model.v: the functions, states and threads of an application; ResolveStates, AddStateToFunction, ResolveConsumersAndProducers and VerifyConsumersAndProducers over the signal model of C45 and the range check of C41. Prod_Spec.v: who runs where, which element an output signal writes, the rules. Proofs: an invariant that the nodes of the functions tell exactly the runs so far, by induction over states, threads and functions; the table of producers is read off the application; both directions of the verdict.
* Status: **partial**. Proved for the configuration after initialisation: acceptance implies the rules (C51_rules, C51_one_writer, C51_one_wait), and the rules imply acceptance when the container Threads is among the first objects of a state (refuted otherwise). The configuration before initialisation gives the same answer when the threads list GAMs; with containers of GAMs it accepts two writers of one element and ignores CheckSameGamInMoreThreads (both refuted). Structured types are not modelled.
* Theorems: `C51_rules`, `C51_one_writer`, `C51_one_wait`, `C51_accepts_partial`, `C51_before_partial`, `C51_threads_far_refuted`, `C51_before_writers_refuted`, `C51_before_flag_refuted`.

### C52 The fast scheduler runs each configured thread in its own pool thread on its CPUs

* Files: `Fmap_Props.v` and the `_Model`, `_Spec`, `_Proofs` files of the same name.
* Model and proof: Fmap_Model.v: ComputeMaxNThreads, CreateThreadMap, SetupThreadMap and CustomPrepareNextState as functions of the CPU masks of the states. Fmap_Spec.v: each thread of a state has its own pool thread with its work and its mask. Proof: the rows of the map are subsets of one list of owners, kept by every call of CreateThreadMap; the pool size by counting masks.
* Status: **partial**. for every application whose setup does not fail each configured thread has its own pool thread and the pool is the smallest possible; for applications of one or two states, and for longer ones whose states but the last need more and more threads of each mask, the setup succeeds and the pool threads have the configured masks. Refuted: three states with three masks (wrong CPUs), four states (cell outside of the map written), two threads with the mask of all 64 CPUs (one is lost)
* Theorems: `C52_works_partial`, `C52_pinned_partial`, `C52_two_states`, `C52_smallest`, `C52_three_states_refuted`, `C52_no_thread_refuted`, `C52_all_cpus_refuted`.

### C53 Changing the state of the fast scheduler is clean

* Files: `Fast_Props.v` and the `_Model`, `_Spec`, `_Proofs` files of the same name.
* Model and proof: Model: the client with one action per shared access (the two loops of CustomPrepareNextState on the buffer of the other index, the flip of the index, the start of the pool, the resets and posts of the three semaphores) and the pool threads of Execute (wait, count, post, broadcast, read of the index, of the number and of the array, each executable with its outcome). The semaphores are flag and sleepers (EventSem_Model has the full one). Specification: the log only (which state is in force, which cycle a thread is in, which is overdue). Proof: one inductive invariant over all schedules of a patient client; progress by two rankings (everybody comes to the barrier, then a thread goes through). Refutations with concrete schedules for an impatient client.
* Status: **partial**. proved for a client that starts a state only after it was prepared, the current one was stopped and each thread has come to rest or is in a cycle: what is executed, no overlap of the states, no invalid record, a started state can always go on. A client that only makes the calls in the documented order is refuted: StopCurrentStateExecution does not wait, so the states may overlap (C53_overlap_refuted), a started state may never begin (C53_stuck_refuted) and a thread may use a record that is being rewritten (C53_torn_refuted). NoWait=1: C53_nowait_refuted. Missing: the end of the threads (Purge), the measured times
* Theorems: `C53_begin_partial`, `C53_cycle_partial`, `C53_safe_partial`, `C53_runs_partial`, `C53_overlap_refuted`, `C53_stuck_refuted`, `C53_torn_refuted`, `C53_nowait_refuted`.

### C54 Conversion of bit ranges saturates and touches nothing else

* Files: `Bsb_Props.v` and the `_Model`, `_Spec`, `_Proofs` files of the same name.
* Model and proof: Bsb_Model.v: BSToBS, BitSetToBitSet (T = uint8), BitSetToInteger and IntegerToBitSet over memory as a list of bytes, words of 8 to 128 bits with wrap-around and the safe shifts; an access outside the memory or the local word is undefined. Bsb_Spec.v: the number in a range of bits, the nearest number, memory that is the same but for a range. Proved bit by bit for all memories, positions and sizes up to 128 bits; refuted: negative numbers that fit in a narrower range spill ones after it; ends that wrap a uint8.
* Status: **partial**. Value, in/out parameters and frame proved for all ranges of at most 128 bits including the bits before them in the first byte; the frame does not hold for the bits that follow in the last byte when a negative number fits in a narrower signed range (C54_frame_refuted); sizes whose end wraps a uint8 are undefined (C54_long_refuted). Whole integers (C54_integers) are unconditional.
* Theorems: `C54_value_partial`, `C54_frame_partial`, `C54_long_partial`, `C54_integers`, `C54_extract_partial`, `C54_back_partial`, `C54_frame_refuted`, `C54_long_refuted`.

### C55 Conversion of values, vectors and matrices between types

* Files: `Tcv_Props.v` and the `_Model`, `_Spec`, `_Proofs` files of the same name.
* Model and proof: Tcv_Model.v: TypeConvert with ScalarBasicTypeConvert, VectorBasicTypeConvert, the four matrix functions and IntegerToType, BooleanToType, FloatToType and StringToType over one memory of bytes with stored 8-byte pointers; conversions of floating point numbers are parameters. Tcv_Spec.v: where the elements are, what one converted element is. Proved by an invariant of the loops (only elements of the destination differ); refuted: longer strings overflow, matrices of strings from the heap to static memory, three dimensions, integers other than 1 to bool, missing terminators.
* Status: **partial**. Scalars, vectors and matrices, static and heap, proved for every element, the result and the frame, but for matrices of strings from the heap to static memory, strings longer than their destination and three dimensions, where the code is wrong (refuted). StreamString, char8 pointers, structures not modelled; conversions of floating point numbers are parameters.
* Theorems: `C55_elements_partial`, `C55_refused`, `C55_integers_partial`, `C55_strings_partial`, `C55_text_back_partial`, `C55_overflow_refuted`, `C55_matrix_refuted`, `C55_three_dimensions_refuted`, `C55_boolean_refuted`, `C55_terminator_refuted`.

### C56 Interpolated inputs lie on the line between the samples

* Files: `Itp_Props.v` and the `_Model`, `_Spec`, `_Proofs` files of the same name.
* Model and proof: Itp_Model.v: ChangeInterpolationSegment(s), Interpolate, Reset and Execute with exact rationals for floating point numbers, wrap-around of unsigned differences, undefined casts; the data source is a sequence of samples. Itp_Spec.v: the line between two points, the needed sample. Proved by induction over the calls after a reset; refuted: signals of several elements (one slope for all), unsigned 32 and 64-bit signals that decrease, samples closer than the period.
* Status: **partial**. All numbers of calls, times and values for signals whose elements change alike (in particular one element) and whose differences do not wrap; floating point numbers are exact rationals. The three exceptions are refuted.
* Theorems: `C56_first`, `C56_line_partial`, `C56_neighbours_partial`, `C56_between`, `C56_stop`, `C56_elements_refuted`, `C56_decrease_refuted`, `C56_skip_refuted`.

### C57 A signal shared by functions starts a state from its default unless the previous state produced it

* Files: `Gds_Props.v` and the `_Model`, `_Spec`, `_Proofs` files of the same name.
* Model and proof: Model AllocateMemory, GetSignalMemoryBuffer and PrepareNextState over a memory of bytes with 32-bit offsets, writes outside the block being a distinct outcome. Prove the layout by induction over the signals, the exact effect of PrepareNextState by induction over functions and inputs, and the refinement of histories of writes, preparations and changes to a plain store in which the reset happens at the change of state.
* Status: **partial**. Proved for the first sample of every signal and for declarations that need less than 2^32 bytes; the code leaves later samples unreset (C57_samples_refuted) and wraps the size of the block (C57_overflow_refuted). The conversion of the Default is taken as given (C55 proves it), the memory after a call that returns false is not described.
* Theorems: `C57_layout`, `C57_refused`, `C57_change_partial`, `C57_accepted`, `C57_history_partial`, `C57_history_runs`, `C57_samples_refuted`, `C57_overflow_refuted`.

### C58 Matrix operations are those of linear algebra

* Files: `Mtx_Props.v` and the `_Model`, `_Spec`, `_Proofs` files of the same name.
* Model and proof: Model the loops of Matrix.h over a memory of elements with views (one block with a 32-bit index, or an array of row pointers). Prove by loop invariants what each operation writes, under non-overlap hypotheses, and relate the result to the matrices of mathcomp: product, sum, transpose, the Laplace expansion of the determinant, and the adjugate for the inverse.
* Status: **partial**. Proved for every ring or field with exact arithmetic and for results apart from the operands (cell-for-cell overlap allowed for Sum and Copy). The code stores 0 as the inverse of a matrix with one row (C58_inverse_refuted) and does not support products and transpositions in place (C58_in_place_product_refuted, C58_in_place_transpose_refuted). Floating point rounding and the ownership of copied matrices are not modelled.
* Theorems: `C58_addresses`, `C58_product`, `C58_sum`, `C58_copy`, `C58_submatrix`, `C58_transpose`, `C58_determinant_partial`, `C58_inverse_partial`, `C58_inverse_refuted`, `C58_inverse_one`, `C58_in_place_product_refuted`, `C58_in_place_transpose_refuted`.

### C59 Web requests reach the object they name and only the files of the configured directories

* Files: `Web_Props.v` and the `_Model`, `_Spec`, `_Proofs` files of the same name.
* Model and proof: Model (Web_Model.v): FindTarget over the search of C30, CheckSecurity, the choice between pages, values, own directories and 404; ServeFile with POSIX path resolution over a tree of files, the extension table and the body loop; the replyNotFound flags across requests. Spec (Web_Spec.v): names of files, texts that go up, the table of types, objects in a root, accepted credentials. Proved: every request is dispatched; longest-part forwarding; values, index, own pages, 404, 401; the whole file with its type; nothing outside unless the path goes up; earlier requests only turn 404 into silence. Refuted: .. leaves the directory, nested realms are bypassed, the name of a directory never ends the loop, silence after a page of the browser, lengths modulo 2^32, HEAD announces 0.
* Status: **partial**. refuted in full: a path with .. leaves BaseDir, the objects of a nested browser with a realm are read through the outer one, a directory name loops for ever, 404 turns into silence; forwarding is proved when no other object ends in the longer part (the search of C30 can find it elsewhere)
* Theorems: `C59_always_dispatched`, `C59_forward_partial`, `C59_values`, `C59_not_found_partial`, `C59_index`, `C59_own_pages`, `C59_no_own_page`, `C59_file_partial`, `C59_one_type`, `C59_missing_partial`, `C59_inside_partial`, `C59_listing`, `C59_listing_inside_partial`, `C59_realm`, `C59_history`, `C59_outside_refuted`, `C59_realm_refuted`, `C59_directory_refuted`, `C59_missing_refuted`, `C59_large_refuted`, `C59_head_refuted`.

### C60 Conversions between integers and floating point numbers give the nearest value

* Files: `Flt_Props.v` and the `_Model`, `_Spec`, `_Proofs` files of the same name.
* Model and proof: Modelled (Flt_Model.v): IEEE numbers as exact dyadic values with rounding to nearest even, the template FloatToInteger comparison by comparison (with the undefined cast as a distinct outcome), IntegerToFloat, FloatToFloat with MinMaxFloat, and the choice of the type from the number of bits. Proved: the rounding of the model is the nearest number of the format, and the conversions are the nearest integer or number of the exact values. Not modelled: the sign of zero, excess precision of the processor (x87).
* Status: **proved**. for finite and infinite numbers and whole integer variables. Refuted beyond that: NaN to a signed integer reaches the undefined cast (C60_nan_refuted), bit ranges are neither aligned nor limited (C60_bit_range_refuted, C60_neighbours_refuted, C60_bit_source_refuted)
* Theorems: `C60_to_integer`, `C60_one_nearest`, `C60_range`, `C60_infinity`, `C60_nan_unsigned`, `C60_nan_refuted`, `C60_order`, `C60_to_float`, `C60_round_trip`, `C60_round_trip_32`, `C60_round_trip_16`, `C60_round_trip_refuted`, `C60_to_float32`, `C60_to_float64`, `C60_refused`, `C60_whole`, `C60_whole_source`, `C60_bit_range_refuted`, `C60_neighbours_refuted`, `C60_bit_source_refuted`.

### C61 Floating point numbers read from text have the value that is written

* Files: `Ftx_Props.v` and the `_Model`, `_Spec`, `_Proofs` files of the same name.
* Model and proof: Ftx_Model follows StringToFloat.cpp character by character on the exact floating point operations of Flt_Model (each operation rounds to nearest even). Proved by induction over the digits with a value in units of a fixed power of two: exactness while the value fits in the mantissa, an error bound per decimal, a relative error bound per factor of the exponent, and soundness of the three loops for the syntax. Refuted: texts without digits, more than 38/308 decimals, exponents above 63 in a float32 and texts longer than 1000 characters.
* Status: **partial**. the error bound covers up to 22 (float64) or 10 (float32) decimals; the error of an exponent is bounded for exponents below 64 in a float32 and results that are not subnormal. Refuted: texts without digits are accepted, what follows too many decimals and what follows 1000 characters is ignored, exponents above 63 are wrong in a float32
* Theorems: `C61_accepted_partial`, `C61_integer_exact`, `C61_accuracy_partial`, `C61_exponent_partial`, `C61_syntax_partial`, `C61_based`, `C61_sign`, `C61_no_digit_refuted`, `C61_rest_ignored_refuted`, `C61_exponent_ignored_refuted`, `C61_exponent_64_refuted`, `C61_long_refuted`.

### C62 A floating point number is printed in its width, in the requested notation and rounded to the requested digits

* Files: `Fpr_Props.v` and the `_Model`, `_Spec`, `_Proofs` files of the same name.
* Model and proof: Fpr_Model is the printing function by function, with the floating point operations of Flt_Model and Ftx_Model (round to nearest even, exactly) and a format descriptor of Fmt_Model. Fpr_Spec gives the shape of each notation as a record of sign, digits and power of ten, and what rounded means. The normalisation (a sequence of multiplications by rounded powers of ten) is bounded by an invariant: value and exponent stay within a number of parts in 2^prec of the number, and the result is between one and ten. The power of ten of the rounding, the sum, the division by ten on a carry and each extracted digit are bounded in turn. The sizes are linear arithmetic; the lengths of the exponents are checked for all the exponents that a number can have. Not modelled: PutC failing, float128, a processor that keeps more precision than the type.
* Status: **proved**. Printing of float32 and float64 in all six notations. The error bound (250 parts in 2^prec of the value beside half a unit of the last digit) covers the accumulated rounding errors of the algorithm; it is not the smallest possible bound. C62_zero_refuted: with precision 0 every notation but fixed point prints every number as 0.
* Theorems: `C62_text`, `C62_readable`, `C62_zero_refuted`.

### C63 The registry of the threads loses, duplicates and invents no thread

* Files: `Tdb_Props.v` and the `_Model`, `_Spec`, `_Proofs` files of the same name.
* Model and proof: Tdb_Model: the table of pointers with NULL, used and uninitialised cells, the counters as uint32, AllocMore, NewEntry, RemoveEntry and the queries. Proved by an invariant over all histories that relates the table to a collection of threads (Tdb_Spec). Refuted: a start can be refused with memory and a free place, a failed reallocation loses the table, the largest index reads out of it.
* Status: **partial**. The calls are one at a time, as under the lock of Threads.cpp. Refuted in full: with 63 of 64 places taken the free place can be the one that is never looked at, and every start is refused until another thread ends (C63_registered_refuted, C63_refused_forever); a failed reallocation loses the table (C63_no_memory_refuted); index 2^32-1 reads out of the table (C63_largest_index_refuted)
* Theorems: `C63_registry_partial`, `C63_enumeration`, `C63_refused_forever`, `C63_registered_refuted`, `C63_no_memory_refuted`, `C63_largest_index_refuted`.

### C64 The functions on C texts find, compare, copy and cut what their documentation says

* Files: `Shp_Props.v` and the `_Model`, `_Spec`, `_Proofs` files of the same name.
* Model and proof: The portable and the extra functions of StringHelper over memory that is a list of characters, where an access out of it is an error value (Shp_Model). The specification (Shp_Spec) speaks of a text followed by its terminator, the order of two texts at their first difference, the first occurrence of a text, and a destination that changes up to its terminator only. Proved by induction on the texts. The portable Copy and Concatenate write no terminator, and Substr accepts indexes behind the text; both are refuted, with the exact behaviour as partial theorems. Not modelled: NULL arguments, overlapping arguments, SetChar, the variants on the C library.
* Status: **partial**. Partial: the portable Copy and Concatenate write no terminator (C64_copy_refuted; exact effect in C64_copy_partial, C64_append_partial and the variants with a size) and Substr reads behind the text or returns true with nothing (C64_substr_refuted; C64_substr_partial is for a beginning inside of the text). All the other functions of the statement are proved in full.
* Theorems: `C64_length`, `C64_compare`, `C64_compare_n`, `C64_compare_nocase`, `C64_search_char`, `C64_search_any`, `C64_search_last`, `C64_search_string`, `C64_concatenate`, `C64_concatenate_n`, `C64_tokenize_chars`, `C64_tokenize_string`, `C64_substr_partial`, `C64_substr_refuted`, `C64_substr_reversed`, `C64_copy_partial`, `C64_append_partial`, `C64_copy_n_partial`, `C64_append_n_partial`, `C64_copy_refuted`, `C64_tokenize_string_refuted`, `C64_order_refuted`.

### C65 Memory goes back to the heap that gave it

* Files: `Hpm_Props.v` and the `_Model`, `_Spec`, `_Proofs` files of the same name.
* Model and proof: The database of the heaps (16 slots), the search by address and by name, the dispatch of each call, and the range that the standard heap keeps, with the answers of the C library as arguments of the steps (Hpm_Model). The specification (Hpm_Spec) replays a history into the set of registered heaps, and says which of them is innermost for an address. Proved with an invariant over every history: the slots hold the set, and the range is exactly from the lowest to the highest block ever given. Refuted: the unknown name, RemoveHeap of NULL, Free of addresses never given, Free of NULL. Not modelled: concurrent calls (each is under one lock), the contents of the memory, heaps whose range changes, the build without MULTIHEAP_SUPPORT.
* Status: **partial**. Partial: an unknown name is not served by the standard heap (C65_unknown_name_refuted), RemoveHeap of NULL succeeds (C65_remove_null_refuted), and Free accepts addresses that no heap gave (C65_foreign_refuted, C65_free_null_refuted). The registry and the dispatch of the blocks that were given are proved in full.
* Theorems: `C65_registry`, `C65_find`, `C65_standard_block`, `C65_registered_block`, `C65_name`, `C65_default`, `C65_duplicate_name`, `C65_realloc_null`, `C65_free_refused`, `C65_unknown_name_refuted`, `C65_remove_null_refuted`, `C65_foreign_refuted`, `C65_free_null_refuted`.

### C66 A binary tree is a map with positions

* Files: `Btr_Props.v` and the `_Model`, `_Spec`, `_Proofs` files of the same name.
* Model and proof: The two lists of the tree, the search by halves with its uint32 arithmetic, and all the calls, with the answers of the heap as arguments (Btr_Model). The specification (Btr_Spec) is a map in the order of insertion; the position of an identifier is the number of entries with a smaller key. Proved by an invariant over the window of the search, and by a refinement over every history. Needed and refuted otherwise: identifiers with different hashes, memory for both lists, no position of an empty tree.
* Status: **partial**. Partial: for identifiers whose hashes differ, with memory, and no position of an empty tree. Without these the statement is false: C66_collision_refuted, C66_memory_refuted, C66_empty_refuted. The search by halves (C66_search) is proved in full.
* Theorems: `C66_history_partial`, `C66_search`, `C66_collision_refuted`, `C66_memory_refuted`, `C66_empty_refuted`.

### C67 A structure described by the configuration is registered with exactly the declared members, without gap or overlap

* Files: `Isr_Props.v` and the `_Model`, `_Spec`, `_Proofs` files of the same name.
* Model and proof: Isr_Model models the scan of the modifiers character by character (stepping over the terminator is None), the loop over the members with its 32 bit arithmetic, the text of the dimensions printed by the model of C01, and the registry. Isr_Spec states independently what a modifiers text writes, what a configuration declares and what tiling means in terms of what the introspection reports. The layout is proved by induction over the members, the history by induction over the configurations with the registry only growing; the accepted but overlapping layouts are refuted.
* Status: **partial**. the layout and the history are proved for known types, at most three dimensions of at least one element, sizes below 2^32 and names configured once; outside these the code accepts layouts that overlap (refuted). Not modelled: a second Initialise of the same object, the destructor, dynamic libraries, memory running out.
* Theorems: `C67_modifiers`, `C67_layout_partial`, `C67_history_partial`, `C67_defined`, `C67_verdict`, `C67_native`, `C67_unknown_type_refuted`, `C67_recursive_refuted`, `C67_update_refuted`, `C67_four_dimensions_refuted`, `C67_no_elements_refuted`, `C67_large_refuted`, `C67_unclosed_refuted`.

### C68 A tree of data is registered as types that have all its leaves and nodes as members

* Files: `Rsd_Props.v` and the `_Model`, `_Spec`, `_Proofs` files of the same name.
* Model and proof: Rsd_Model models the recursive traversal with the scan over the elements of an array exactly as the code steps over the children, and the registration from the last type to the first with the model of C67. Rsd_Spec gives the documented reading of a tree by an inductive relation. Proved by induction over that relation, for the list of types and for the registration; that the child after a structured child is lost, that the documented example is wrong, repeated names and the partial registration are refuted.
* Status: **partial**. proved for trees of any depth whose structured children come last, with distinct type names; the child that follows a structured child is lost by the code (refuted), so the statement is false for the other trees. Not modelled: leaves of a name already used in the type, names with dots.
* Theorems: `C68_tree_partial`, `C68_native`, `C68_following_member_refuted`, `C68_documented_refuted`, `C68_same_name_refuted`, `C68_atomic_refuted`.

### C69 A stored value is a deep copy that owns its memory

* Files: `Any_Props.v` and the `_Model`, `_Spec`, `_Proofs` files of the same name.
* Model and proof: The memory is a set of live blocks; freeing or reading what is not live is undefined. The blocks of an object are shown to be one interval of the allocation order; an invariant over the history says that the intervals are disjoint, that the program holds the other blocks, and that the value read inside the interval is the one stored. Strings that are NULL, vectors of pointers, storing the value of an object in itself and refused values are refuted.
* Status: **partial**. every form of value, every history of stores, cleanings and actions of the program; the sizes do not wrap, allocations succeed, CArray on the heap is not modelled; tables of strings with NULL, vectors of pointers, the own value of the object and refused values are refuted separately
* Theorems: `C69_stored_partial`, `C69_type_partial`, `C69_defined_partial`, `C69_no_leak_partial`, `C69_client_partial`, `C69_null_string_refuted`, `C69_pointers_refuted`, `C69_own_value_refuted`, `C69_atomic_refuted`.

### C70 A value is accepted if and only if each of its elements meets the attributes

* Files: `Vbt_Props.v` and the `_Model`, `_Spec`, `_Proofs` files of the same name.
* Model and proof: The two loops over the elements, the access to the element by AnyType::operator[] and the checks of one element are modelled; a read outside the memory of the value is undefined. The verdict is shown to be the conjunction over all the elements for scalars, vectors and square matrices. Vectors of uint32, matrices that are not square, three dimensions, types that are not known, attributes that cannot be parsed and NULL strings are refuted.
* Status: **partial**. scalars, vectors and square matrices of every integer type, characters and strings; floating point values and the reading of the attributes from the text are not modelled; uint32 vectors, matrices that are not square and values that are not looked at are refuted
* Theorems: `C70_validate_partial`, `C70_written`, `C70_uint32_refuted`, `C70_matrix_refuted`, `C70_rows_refuted`, `C70_accepted_refuted`.

### C71 Blocks of a growing memory area keep their offset and their contents

* Files: `Mar_Props.v` and the `_Model`, `_Spec`, `_Proofs` files of the same name.
* Model and proof: MemoryArea.cpp is modelled as a list of bytes and a size, with the answer of the heap as an input of each request. An inductive history pairs the area with the blocks that the program holds; the invariant is that the memory is the concatenation of the blocks. Proved for histories in which a growth is granted and the size stays under 2^32; the behaviour outside is refuted. Not modelled: InitMemory, the name of the heap, a Free that the heap refuses.
* Status: **partial**. Proved for every history in which the heap grants each growth and the size stays under 2^32. Refuted otherwise: a refused growth loses the earlier blocks while the size stays, a later request then succeeds with the data gone, a request over 2^32 shrinks the area, a copy from NULL fails but takes its bytes. InitMemory and named heaps are not modelled.
* Theorems: `C71_kept_partial`, `C71_serves_partial`, `C71_refused_growth_refuted`, `C71_silent_loss_refuted`, `C71_overflow_refuted`, `C71_zero_refuted`, `C71_null_source_refuted`.

### C72 A circular list remembers exactly the last n values

* Files: `Csl_Props.v` and the `_Model`, `_Spec`, `_Proofs` files of the same name.
* Model and proof: CircularStaticList.h is modelled on the byte-level model of the static list (C11). The specification keeps every value ever pushed and has no buffer; the invariant relates position j modulo n of the list with the j-th value ever. Proved for constructors whose memory is granted; a refused constructor and a query before any push are refuted. The calls inherited from StaticList that change the size (Remove, Insert, Clean) are not part of the histories.
* Status: **partial**. Proved for every history of pushes and queries when the constructor is given its memory. Refuted: a constructor whose memory is refused gives a shorter list without a sign, and the last value before any push is uninitialised. The inherited calls that change the number of elements are not in the histories.
* Theorems: `C72_history_partial`, `C72_delay_partial`, `C72_refused_refuted`, `C72_before_push_refuted`.

### C73 Classes are found by name and their identifiers stay valid

* Files: `Crd_Props.v` and the `_Model`, `_Spec`, `_Proofs` files of the same name.
* Model and proof: ClassRegistryDatabase.cpp is modelled over texts, with the libraries and what they register as an input. An invariant over histories says that identifiers are positions; the name is split by a relation stated without the code; the result of Find is characterised for both cases. Names of libraries over 128 characters, and the choice of the library among classes of one name, are refuted. Not modelled: the lock, FindTypeIdName, CleanUp, libraries that search while they register.
* Status: **partial**. Proved for every history of sequential registrations and searches and libraries of at most 128 characters. Refuted: the library in the name is ignored when a class of that name is registered, a failed search leaves the library opened, a long library name is cut and another library opened. Lock, FindTypeIdName and CleanUp are not modelled.
* Theorems: `C73_identifiers`, `C73_stable`, `C73_registered`, `C73_loaded_partial`, `C73_names`, `C73_library_ignored_refuted`, `C73_failed_search_refuted`, `C73_long_name_refuted`.

### C74 The static stack returns values last in, first out

* Files: `Sst_Props.v` and the `_Model`, `_Spec`, `_Proofs` files of the same name.
* Model and proof: StaticStack.h is modelled on the byte-level model of the static list (C11) and proved, by induction over the calls, to give the results of a list whose head is the top. The pointer to the top of an emptied stack is refuted.
* Status: **proved**. For every history of the calls, sizes and answers of the heap (with elements of one byte: fewer than 2^32 calls). Finding: GetAllocatedMemoryConst of an emptied stack points before its block.
* Theorems: `C74_history`, `C74_reverse`, `C74_top_pointer_refuted`.

### C75 A polling event releases every waiter when it is open, and only then

* Files: `Fpe_Props.v` and the `_Model`, `_Spec`, `_Proofs` files of the same name.
* Model and proof: FastPollingEventSem.cpp is modelled as a transition system in which each test of the flag, each test of the clock and each post or reset is one step of one of any number of threads. An invariant relates the place of each thread with the events of the history; open is defined on the history alone. Proved for every interleaving; two expectations on schedules are refuted. Not modelled: the wrap of the 64-bit counter, memory ordering (the steps are sequentially consistent), sleeping.
* Status: **partial**. Every interleaving of any number of threads, sequentially consistent, with a counter that does not wrap. Refuted: a wait never reports Timeout when the event was opened in time (it can), and a post followed by a reset releases the waiters (it may not).
* Theorems: `C75_released_partial`, `C75_timeout_partial`, `C75_prompt_partial`, `C75_never_stuck`, `C75_late_refuted`, `C75_pulse_refuted`.

### C76 A stream over a block of memory is a cursor over that block and never leaves it

* Files: `Smr_Props.v` and the `_Model`, `_Spec`, `_Proofs` files of the same name.
* Model and proof: Model StreamMemoryReference over IOBuffer with the caller's block as a list of bytes, the counters amountLeft and fillLeft wrapping at 32 bits and the pointer as an offset; an access outside the block is None. Specify a view (block, size, cursor) with the result of each call; prove by a simulation over every history that results and block agree. Refute what fails with witnesses (relative moves backwards, a size below the cursor, a size of 2^32 or more).
* Status: **partial**. Every block below 2^32 bytes and every history in which a relative move backwards is followed by Seek before a read or write, a size is not below the cursor and fits 32 bits. Refuted with witnesses: after RelativeSeek backwards the next read or write is at the wrong byte or outside the block; SetSize below the cursor lets the next read leave the block; SetSize takes the size modulo 2^32. Not modelled: GetC, PutC, printing, the default constructor.
* Theorems: `C76_partial`, `C76_read_only_partial`, `C76_read_back`, `C76_relative_back_refuted`, `C76_relative_back_outside_refuted`, `C76_shrink_refuted`, `C76_size_refuted`.

### C77 A type description holds what it was built with, and names and types correspond

* Files: `Tds_Props.v` and the `_Model`, `_Spec`, `_Proofs` files of the same name.
* Model and proof: Model a description as its 16 bit word with the bit fields of IntArith_Model, the constructors as assignments to an uninitialised word, and the two searches of the table of names. Specify the layout by arithmetic and the names by an independent table; prove the layout from the arithmetic of fields, equality bit by bit, and the searches for every text and word.
* Status: **proved**. Every argument, word and text; pointers of 64 bits, bool of 8. GetTypeDescriptorFromStaticTable and GetTypeNameFromStaticTable (an index into the table, not checked) are not modelled.
* Theorems: `C77_build`, `C77_build_class`, `C77_read`, `C77_read_class`, `C77_equal`, `C77_equal_basic`, `C77_equal_class`, `C77_from_name`, `C77_to_name`, `C77_round_trip`, `C77_numeric`.


## Findings: runs of the faithful model that violate the stated property

Each `_refuted` theorem is a machine-checked witness about the model. The comment is the one beside the theorem. None was reproduced on a compiled program (the task forbids building it).

**Any_Props.v**

* `C69_null_string_refuted`: A table of strings with a NULL in it is not merely refused: the next CleanUp (or the destruction of the object) frees pointers that were never written.
* `C69_pointers_refuted`: A vector of pointers is stored, but its block is never freed.
* `C69_own_value_refuted`: The value of an object, stored in the same object, is freed before it is read.
* `C69_atomic_refuted`: A refused value takes with it the one that was held.

**AsyncBroker_Props.v**

* `C24_full_buffer_refuted`: The service thread is idle and N Executes in a row succeed: the service thread takes the full buffer for an empty one, goes to sleep, and neither thread does anything although both samples are pending...
* `C24_lost_for_ever_refuted`: ... and whatever the real-time thread executes from then on, every Execute fails and nothing is ever synchronised (unless Flush is called or Wait returns spuriously).
* `C24_late_start_refuted`: N - 1 Executes succeed before the service thread reads the write index for the first time: the samples stay behind, and a later one is synchronised first.
* `C24_flush_refuted`: Flush returns although a sample accepted before it was called is not synchronised.
* `C24_failed_execute_refuted`: One buffer: an Execute that fails because the buffer is still full may mark it again after it was freed, so that the same sample is synchronised twice.

**Base64_Props.v**

* `C04_round_trip_refuted`: Finding: the full round trip is false of the code.
* `C04_trailing_ignored_refuted`: Finding: characters after the last whole group are silently ignored.

**BitSet_Props.v**

* `C12_equality_u64_one_word_refuted`: The hypothesis nel a <> 1 is needed: a one-word set compared with its own value reads array[1].
* `C12_to_u64_refuted`: The uint64 conversion is not the low 64 bits of a longer set: the high word is dropped.

**Broker_Props.v**

* `C40_one_range_samples_refuted`: Findings: a configuration with one range and two samples writes after the end of the copy table; and the "sorted" table is not sorted, because every pass merges parts of the unsorted table (contiguous copies are then not merged, which costs time only).
* `C40_sort_refuted`

**Bsb_Props.v**

* `C54_frame_refuted`: Finding: a negative number that fits in a narrower signed range overwrites with ones the bits that follow the destination in its last byte: -1 of 8 bits written to 4 bits.
* `C54_long_refuted`: Finding: a range whose end wraps a uint8 is not refused; it is copied into a variable of 8 bits.

**Btr_Props.v**

* `C66_collision_refuted`: Two identifiers with the same hash are one entry: "b!" is found although only "aB" was inserted, and its value is read.
* `C66_memory_refuted`: If the heap refuses memory for the second list only, an entry that is in the tree is no longer found.
* `C66_empty_refuted`: A position of an empty tree reads memory that is not there.

**BufStream_Props.v**

* `C18_read_at_end_refuted`: A Read that reaches the end reports failure and loses count of bytes it has delivered.
* `C18_seek_after_large_read_refuted`: After a large Read a Seek back into the last bytes returns data from another place.
* `C18_relative_seek_refuted`: RelativeSeek in read mode beyond the buffer goes to the wrong place.
* `C18_relative_seek_back_refuted`
* `C18_relative_seek_far_back_refuted`: Further back than the buffer reaches it also goes to the wrong place (the gap is subtracted where it should be added).

**Cfg_Props.v**

* `C44_end_tag_refuted`: The name in an end tag: <A>1</B> is accepted.
* `C44_look_ahead_refuted`
* `C44_depth_refuted`: Blocks nested too deep: the configuration is refused, though it is fine one level less deep.
* `C44_depth_name_refuted`: 250 deep an expression is written over the value before it: y = "2" x = (uint32|"y") leaves no x.
* `C44_dotted_block_refuted`: A block with a dotted name: what comes after it is put in the block. A.B = { x = 1 }  y = 2
* `C44_block_through_value_refuted`: A block whose dotted name goes through a value: undefined behaviour. x = 1  x.y.z = { w = 2 }
* `C44_variable_refuted`: A variable without a dot after one with a dot is looked for in the node of that one: with A = { x = 1 y = 2 } y = 3 the expression "A.x y" has the values 1 and 2, while "y A.x" has 3 and 1.
* `C44_rest_refuted`: A terminal of another syntax ends the configuration: Parse returns true and ignores the rest. x = 1 < y = 2
* `C44_empty_refuted`: An empty block or an empty vector is refused.
* `C44_cursor_refuted`: A configuration without items leaves the cursor where it is, any other one moves it to the root.
* `C44_json_idx_refuted`: JSON: a vector of blocks named Idx in a vector of blocks is refused, with any other name it is not.

**Chunk_Props.v**

* `C49_partial_send_refuted`: If send takes only a part, which is possible, the rest of the buffer is lost, and Flush returns true.
* `C49_retry_refuted`: A Flush that failed is called again: the size of the chunk is sent twice, and what is sent is not a chunked body.
* `C49_final_refuted`: The final chunk does not wait for the buffer: without a Flush the body is empty, and the page comes after it.
* `C49_mode_refuted`: The header must have been flushed before the mode is changed: else it is in a chunk.
* `C49_large_write_refuted`: With the parameter of other buffered streams (4), a large Write is sent in the middle of the chunks, without a size.
* `C49_read_failure_refuted`: A Read that fails in the middle (a timeout, or the end of the connection) does not count what it has just stored: those bytes are not returned by the next calls.

**CircBuf_Props.v**

* `C27_offset_refuted`: More samples than buffers (nothing refuses such a configuration): outside the memory of the signal.
* `C27_silent_overwrite_refuted`: The acquisition thread writes the buffer that the reader is about to copy; the reader marks it as read before the thread looks at the mark: sample 0 is lost, sample 2 is given twice, out of order, and no sample carries the flag.
* `C27_overtaken_refuted`
* `C27_double_buffer_refuted`: Blocks of 2 samples in 4 buffers, the reader one block late and never overtaken: it is given one block, after which no buffer is marked as read, and nothing more.
* `C27_stale_refuted`: Blocks of 3 samples in 4 buffers, the reader one block late and never overtaken: it is given samples 3, 0, 1 as if 4 and 5 had arrived.
* `C27_same_block_refuted`: As many samples as buffers: the same block again and again.

**ConfigDB_Props.v**

* `C31_create_through_value_refuted`: CreateAbsolute("A.x.y") where A.x is a value: the cast of the value to a node fails and currentNode, NULL, is used.
* `C31_create_failed_moves_refuted`: A failed CreateAbsolute leaves the cursor at the root.
* `C31_hash_collision_refuted`: Two names with the same hash: writing the second replaces the first, and reading the first returns the value of the second.
* `C31_dots_refuted`: A path that begins or ends with two dots, is not the path of its names: Move does not find the node that Create made from the same text.
* `C31_write_over_directory_refuted`: Writing a value with the name of a directory removes the directory.

**Container_Props.v**

* `C30_found_elsewhere_refuted`: Full statement: Find(path) returns the object at that path, and nothing when there is none. False: the names already matched are all dropped when a branch fails (313-317), so what follows is matched from the start of the path inside an inner container.
* `C30_not_found_refuted`: Full statement: an object at a path is found. False when two objects of a container have the same name.
* `C30_unnamed_refuted`: An object without a name before the right one is entered as if it matched and makes the search fail.
* `C30_insert_empty_name_refuted`: Full statement: what is inserted at a path is found at that path. False for a path with an empty name: it is cut there.
* `C30_remove_all_refuted`: Removing all occurrences of a name uses the reference of the node that has just been deleted.
* `C30_all_paths_refuted`: Searching all occurrences (-1) of a path of more than one name finds nothing.

**CountSem_Props.v**

* `C23_early_release_refuted`: A Reset made when the last actor has arrived but not yet posted succeeds, and the late post releases the first actor of the next round alone.
* `C23_stranded_refuted`: A Reset made when all have arrived and the semaphore is posted strands an actor that has not yet looked at the event: everything has gone as far as it can, all the actors had arrived, and one of them is asleep.

**Crd_Props.v**

* `C73_library_ignored_refuted`: Finding: the library in the name does not choose among classes of the same name: L::B gives the B that was registered before, and L, which has its own B, is not even opened
* `C73_failed_search_refuted`: Finding: a search that finds nothing has opened the library all the same, and its classes stay registered
* `C73_long_name_refuted`: Finding: the name of a library is cut at 128 characters, so that another library is opened: the class is found in it

**Csl_Props.v**

* `C72_refused_refuted`: Finding: the constructor ignores that memory is refused: the list is then shorter than asked, and nothing says so; with no element every call fails
* `C72_before_push_refuted`: Finding: before any push the last value is the content of an uninitialised variable, and the call succeeds

**EmbThread_Props.v**

* `C22_lost_stop_refuted`: A Stop made between lines 59 and 61 of ThreadLoop is lost: with an infinite timeout, Stop returns at once with a timeout error and the thread goes on running.
* `C22_refused_stop_refuted`: A Stop made while the thread changes the command from Start to KeepRunning can be refused as an illegal operation.

**EventSem_Props.v**

* `C37_no_success_without_post_refuted`: With a spurious wake-up of the condition variable, a wait returns success although nothing was ever posted.
* `C37_lock_timeout_refuted`: A wait whose deadline passes while another thread owns the internal mutex also returns success (and releases the other thread's mutex).

**Fast_Props.v**

* `C53_overlap_refuted`: A client that makes the calls in the documented order (prepare, stop, start) but without patience: StopCurrentStateExecution does not wait for the threads.  A thread that has passed WaitForAll and has not yet read the index runs the new state while another is still in its cycle of the old one.
* `C53_stuck_refuted`: A thread without executables that is not yet asleep on unusedThreadsSem when the next state starts misses the Post (it is followed by a Reset) and sleeps; the others wait for it in WaitForAll: the started state never begins.
* `C53_torn_refuted`: A thread that has read its number of executables and not yet its array when two further changes are made finds the array of the record that is being prepared.
* `C53_nowait_refuted`: With NoWait (superfast) the threads do not wait for each other, patient client or not.

**Flt_Props.v**

* `C60_nan_refuted`: In a signed type it is not refused: the conversion of the language is reached, which is undefined.
* `C60_round_trip_refuted`: A 32 bit integer does not survive a float32, although each conversion reports success.
* `C60_bit_range_refuted`: A destination of some bits of a word (BitRange) is not: its bits do not receive the nearest number that they can hold, and the other bits are lost.
* `C60_neighbours_refuted`
* `C60_bit_source_refuted`: A source of some bits of a word is read with the bits around it.

**Fmap_Props.v**

* `C52_three_states_refuted`: Three states whose threads have three different masks: a thread of the first state does not run on its CPUs, because a pool thread that the state before does not use is taken for a new one.
* `C52_no_thread_refuted`: Four states of at most three threads: no pool thread is found for the last one, and a cell outside of the map is written.
* `C52_all_cpus_refuted`: Two threads of a state configured for all the 64 CPUs: only one of them is executed.

**Fmt_Props.v**

* `C46_percent_refuted`: %% is no percent sign: see C46_bad_example.
* `C46_quotes_cut_refuted`: A string in quotes in a field that has room for it, without padding, loses its last two characters,
* `C46_quotes_overrun_refuted`: and if it has less than two, what is after it in memory is written.
* `C46_big_stream_refuted`: A stream of more than 10000 characters is replaced by a message, and true is returned.
* `C46_bool_hex_refuted`: A boolean in hexadecimal is the address of the word true.
* `C46_missing_argument_refuted`: A conversion without an argument is dropped, and true is returned.

**Fpe_Props.v**

* `C75_late_refuted`: Finding: a wait can report Timeout although the event was opened before the time was over and stayed open: the post falls between the test of the flag and the test of the clock
* `C75_pulse_refuted`: Finding: a post that is followed by a reset may release no one who is waiting

**Fpr_Props.v**

* `C62_zero_refuted`: Without a width a number that is not small is never printed as zero: false with precision 0, except in fixed point.

**Ftx_Props.v**

* `C61_no_digit_refuted`: A text with no digit at all is accepted.
* `C61_rest_ignored_refuted`: What follows too many decimals is not looked at, and is accepted.
* `C61_exponent_ignored_refuted`: So is an exponent after them: the number is not even of the right size.
* `C61_exponent_64_refuted`: In a float32 the part of an exponent above 63 is lost even with few decimals.
* `C61_long_refuted`: The characters after the first 1000 are ignored.

**Gds_Props.v**

* `C57_samples_refuted`: The whole memory of an unproduced signal should go back to its initial value.  With AllowMultipleSamples the samples after the first keep what an earlier state wrote.
* `C57_overflow_refuted`: AllocateMemory adds the sizes in 32 bits: it accepts signals that need more, with a block too small for them, and the next change of state writes outside it.

**Hpm_Props.v**

* `C65_unknown_name_refuted`: The documentation says that a name that is unknown is served by the standard heap: it is not, the call returns NULL.
* `C65_remove_null_refuted`: RemoveHeap of NULL succeeds, although NULL is never registered, whenever there is room for one more heap.
* `C65_foreign_refuted`: Free succeeds for addresses that no heap ever gave: between two blocks of the standard heap, and after its last block.
* `C65_free_null_refuted`: Free of NULL: true before the first allocation, false afterwards.

**Http_Props.v**

* `C50_short_command_refuted`: A command of three characters or less is dropped: x=1 is not seen.
* `C50_empty_query_refuted`: A request whose query is empty fails: the version is taken for the query.
* `C50_stale_commands_refuted`: A request without a query shows the commands of the previous request of the connection.
* `C50_encoded_slash_refuted`: A slash that is encoded inside a part of the path splits it: the address is decoded first.
* `C50_last_slash_refuted`: A slash at the end of the address leaves a dot at the end of the path.
* `C50_newline_refuted`: HttpEncode leaves tabs and ends of lines as they are: a request made with it is cut there.
* `C50_semicolon_refuted`: The value of a form is cut at a semicolon, which HttpEncode does not encode.
* `C50_plus_refuted`: A form written as browsers do has + for a space: it is left as it is.
* `C50_bad_escape_refuted`: A percent sign with one character after it: the second digit is a byte that was never set. One whose digits are not hexadecimal is accepted.
* `C50_short_version_refuted`: A version of less than five characters: what is after the end of its text is read.

**IntArith_Props.v**

* `C06_bit_field_frame_signed_refuted`: Finding: with a signed base type an assignment does change bits above the field.
* `C08_signed_shift_left_refuted`: Findings: with signed halves both shifts are wrong.
* `C08_signed_shift_right_refuted`

**IntText_Props.v**

* `C01_min_not_padded_refuted`: Finding: the most negative value is never padded, so the field rule fails for it.
* `C03_digitless_refuted`: Findings.  Strings with no digit at all are accepted as zero; hexadecimal numerals with superfluous leading zeros are rejected although their value fits; beyond 1000 characters the tail is ignored.
* `C03_leading_zeros_refuted`
* `C03_long_tail_ignored_refuted`

**Isr_Props.v**

* `C67_unknown_type_refuted`: IntrospectionStructure.h documents that a type which does not exist is refused. It is accepted with the size 0: the next member begins at the same byte.
* `C67_recursive_refuted`: A type may contain itself.
* `C67_update_refuted`: Configuring a type again does not update the types that contain it: here the member x of B says that an A has 25 bytes when it has 8.
* `C67_four_dimensions_refuted`: More than three dimensions, a dimension of zero elements, or a size above 2^32 bytes are accepted, and the members do not follow each other
* `C67_no_elements_refuted`
* `C67_large_refuted`
* `C67_unclosed_refuted`: A bracket that is never closed in the modifiers makes the constructor read after their end.

**Itp_Props.v**

* `C56_elements_refuted`: A signal of several elements has one slope, that of its last element.
* `C56_decrease_refuted`: A uint32 that decreases: the difference wraps around and the value is far from both samples.
* `C56_skip_refuted`: Samples that are closer than the period: the line does not join the neighbours of the time.

**Lex_Props.v**

* `C36_empty_comment_swallows_the_next_line_refuted`: A one line comment with an empty text swallows the next line.
* `C36_peek_ahead_inserts_end_of_file_refuted`: PeekToken(1) puts a false end of file between the tokens.
* `C36_trailing_slash_lost_refuted`: A slash at the end of the text is lost.
* `C36_backslash_inserts_end_of_file_refuted`: A backslash before a separator gives a false end of file.
* `C36_escape_counts_as_a_line_refuted`: The escape sequence \n counts as a line.
* `C36_operators_not_split_refuted`: Mathematical expressions: operators that are keywords do not end a word, and a part of a keyword is taken for a terminal.
* `C36_xml_comment_missed_refuted`: XML: a comment directly after an angle bracket is not seen.

**LinkedList_Props.v**

* `C09_add_keeps_followers_refuted`: Appending with Add (not AddL) an element that has followers cuts the followers off: the element 8 that followed 7 is still alive but in no list.

**Loader_Props.v**

* `C48_default_refuted`: ReloadLast is false when it is not given (the documentation says true): a configuration that fails leaves the registry with part of it and nothing of the previous one.
* `C48_pre_message_refuted`: When the PreConfiguration message fails, nothing should happen; instead the application in place is purged and made again (with ReloadLast), or the kept objects are put in the registry again although they are there.
* `C48_kept_emptied_refuted`: The kept objects are purged: what was inside them is gone after a reconfiguration.
* `C48_post_message_refuted`: An error answer does not mean that the configuration was not applied: the PostConfiguration message failed.
* `C48_post_message_sent_refuted`: The PostConfiguration message ("if the configuration was successfully applied") is sent although it was not.
* `C48_stale_applications_refuted`: A RealTimeLoader keeps the applications it replaced: after a reconfiguration the first state of FirstState is given to the application that was purged, and there is none for the new one.
* `C48_kept_application_refuted`: When the only application is one to keep, the configuration to go back to has none, and going back fails: the hypothesis on [last] is needed.
* `C48_reload_value_refuted`: A value of ReloadLast that is neither true nor false is an error, unless there are objects to keep.
* `C48_hash_refuted`: A seed is not used up: the same text and hash are accepted again; and a text without hash is accepted although a hash is set.
* `C48_kept_domain_refuted`: An object to keep that is declared as a domain ($) makes Configure fail after everything was started.

**Map_Props.v**

* `C14_never_inserted_is_found_djb_refuted`: The hypothesis no_collision cannot be dropped, for either hash function of the library: a key never inserted is found (and inserting it is refused).
* `C14_never_inserted_is_found_fnv_refuted`: "8yn0iYCKYHlIj4-BwPqk" and "GReLUrM4wMqfg9yzV3KQ"

**Mar_Props.v**

* `C71_refused_growth_refuted`: Finding: when the heap refuses to grow the area, the blocks given before are lost, although the call only had to fail: the area still reports its size, and GetPointer computes an address from NULL. This happens after every history with a block
* `C71_silent_loss_refuted`: Finding: if the heap grants the request after that, the call succeeds and the earlier blocks read as memory that was never written
* `C71_overflow_refuted`: Finding: a request that takes the size over 2^32 succeeds: the area shrinks and the offset given is outside of it
* `C71_zero_refuted`: Finding: a request for no bytes fails on an empty area and succeeds on another, where its offset has no address
* `C71_null_source_refuted`: Finding: a copy from NULL fails and yet takes its bytes from the area

**MathParser_Props.v**

* `C34_deep_nesting_refuted`: Symbols that do not fit on the parser's stack are dropped. A multiplication inside 100 parentheses is accepted, and compiled as the addition outside.
* `C34_deep_nesting_refused_refuted`: and a variable inside 110 parentheses is refused.
* `C34_no_end_refuted`
* `C34_rest_ignored_refuted`: What follows a word that is no symbol of the grammar ("|", part of a keyword, is one) is ignored.
* `C34_logical_precedence_refuted`: The logical operators have one precedence: a || b && c is (a || b) && c.

**Md5_Props.v**

* `C42_hmac_long_key_refuted`: A longer key has to be hashed first; the code cuts it, so that two keys that share 64 bytes are the same key.

**Msg_Props.v**

* `C33_early_timeout_refuted`: ... but with a finite one it reports a time-out at once, although the reply comes after 20 of 1000 ticks ...
* `C33_no_timeout_refuted`: ... and waits for ever when the first sleep is not shorter than the time-out and there is no reply.

**Mtx_Props.v**

* `C58_inverse_refuted`: The inverse of a matrix with one row and one column is not computed: Inverse returns true and stores 0, whatever the element.
* `C58_in_place_product_refuted`: A product or a transposition whose result is one of the operands returns true and gives something else.
* `C58_in_place_transpose_refuted`

**MultiBuf_Props.v**

* `C26_more_samples_than_buffers_refuted`: More samples than buffers: 7 samples of 4 bytes from a data source of 5 buffers, starting at the last buffer: the last copy reads 24 bytes from the start of an area of 20.
* `C26_unreduced_offset_refuted`: An offset of one full turn (offset = maxOffset) is reduced, but then the copy does not wrap: 2 samples from sample 4 of a data source of 5, given as offset 36 instead of 16, leave the area.

**Pool_Props.v**

* `C20_take_fails_only_when_empty_refuted`: Take can fail although at every moment one of the resources is available (pool of two resources, four threads).
* `C20_created_taken_refuted`: In a pool created taken (the log entries of the Logger), a single thread that takes can be handed a resource that was never given: thread 1 gives 2, 3 and 7 while thread 0 searches, and thread 0 gets 0.
* `C20_log_order_refuted`: Log entries are not read in the order they were added, even when one thread does everything: 103 is read before 102.

**Prod_Props.v**

* `C51_threads_far_refuted`: The container Threads is looked for among the first objects of a state only, as many as there are in the application: an application that keeps the rules is refused.
* `C51_before_writers_refuted`: Configured before the objects are made, a container of GAMs makes the builder take a function of the container for a function outside that has the name that the first has in the container: two functions that write all of the same signal in the same state are accepted.
* `C51_before_flag_refuted`: CheckSameGamInMoreThreads = 0 is not applied to containers of GAMs when the application is configured before its objects are made.

**Prt_Props.v**

* `C47_empty_directory_refuted`: An empty directory,
* `C47_quote_refuted`: a string with a quote in it,
* `C47_space_refuted`: a name with a space in it, a name that is a number,
* `C47_number_name_refuted`
* `C47_json_vector_refuted`: and in JSON every vector: it is written in braces, as in MARTe's own syntax.

**QueueFilter_Props.v**

* `C21_two_consumers_refuted`: With two consumers a GetMessage can fail with fatalError: both are released by the same message.
* `C21_spurious_refuted`: A spurious wake-up of the condition variable has the same effect with one consumer.

**Ref_Props.v**

* `C29_threads_twice_refuted`: The counter is decremented and then read: two threads that remove the last two references can both read 0 and both delete.
* `C29_next_refuted`: list = list->next: the object that holds [next] is deleted before [next] is read. *) Definition two : list op := [ONew 1; ONew 0; OAssign 1 2].   (* slot 0: object 0 with member slot 1; slot 2: object 1
* `C29_own_pointer_refuted`: reference = pointer to the object that only this reference keeps alive.
* `C29_typed_self_refuted`: Assignment of a ReferenceT to itself through Reference: the object is deleted.

**Rsd_Props.v**

* `C68_following_member_refuted`: The child that follows a structured child is left out of the type, although the registration succeeds.
* `C68_documented_refuted`: The example of IntrospectionStructure.h 107-134 (c1, A2, A3[0], A3[1]) does not give the documented structure: A3 is not an array of two.
* `C68_same_name_refuted`: Two nodes of the same name, at any depth, make the registration fail: here y = { p = { y = { b } } }.
* `C68_atomic_refuted`: A registration that fails may have registered the types of the inner nodes.

**RuntimeEval_Props.v**

* `C35_fast_mode_leaves_the_stack_after_an_error_refuted`: Fast mode goes on after an error, and the overflow checked operators then leave their operands on the stack: the stack overflows.  x = a / b; y = (c + d) + (e + f) on int64, with b = 0.
* `C35_internal_command_accepted_refuted`: The command RREAD, meant for the evaluator itself, is accepted from a program without its operand, and reads through an address that is not one.
* `C35_second_compilation_overlaps_variables_refuted`: Compiling again moves the outputs onto the inputs.
* `C35_long_program_executes_nothing_refuted`
* `C35_negation_of_the_least_int8_refuted`: NEG of the least int8 is itself, without an error.
* `C35_mixed_sign_comparison_is_an_error_refuted`: Comparing a negative int8 with a uint64 is an error, although the answer is known.

**Sched_Props.v**

* `C43_start_without_stop_refuted`: A start without a stop: a thread of the old state reads beyond the table of the new one.
* `C43_stop_after_prepare_refuted`: A PrepareNextState made before a thread of the current state has passed the semaphore, followed by StopCurrentStateExecution: the thread falls asleep and StopCurrentStateExecution waits for it for ever.
* `C43_prepare_twice_refuted`: Two PrepareNextState without a start between them: the second waits for ever for the sleeping threads of the first.
* `C43_start_after_failed_prepare_refuted`: A start after a PrepareNextState that failed succeeds, although there is nothing to execute, and CurrentState is not a state.
* `C43_spurious_wakeup_refuted`: With a spurious wakeup, which POSIX allows, a thread that was prepared executes before the start: the executables of the current state.

**Shp_Props.v**

* `C64_substr_refuted`: Behind the text, Substr reads what follows the terminator and succeeds; for the whole range of indexes it succeeds with an empty result.
* `C64_copy_refuted`
* `C64_tokenize_string_refuted`: So TokenizeByString, with the portable Copy, does not terminate a last token that is followed by bytes other than 0.
* `C64_order_refuted`: For texts with characters above 127 the order of the portable Compare is not the one of a dictionary: such a text is smaller than the empty text.

**SigMem_Props.v**

* `C45_type_mismatch_accepted_refuted`: A mismatch between a function and a data source is not noticed when the function does not state NumberOfElements: AddSignalToDataSource reports the mismatch and returns false, but its result is then overwritten by the result of the Write of the default NumberOfElements (lines 1000-1005).  Here one function writes the uint8 S, another reads S as a float64; the application is accepted, and the broker reads eight bytes from a memory of one byte.  The same application in which the second function states NumberOfElements = 1 is refused.
* `C45_locked_data_source_refuted`: In the same way ResolveDataSources succeeds for a function that asks a locked data source for a signal that it does not have.  (When the function runs in a state, the code then creates its node States among the signals of the data source, which the later verification refuses; states are not modelled.)
* `C45_order_refuted`: The number of elements that a function gets depends on the order of the functions: a function that does not state it gets 1 when it comes before the function that states 10, and 10 when it comes after it.
* `C45_size_wrap_refuted`: Sizes are computed in bits with 32 bits: a vector of 67108865 float64 is accepted and gets 8 bytes.
* `C45_no_buffers_refuted`: NumberOfBuffers = 0 is accepted by MemoryDataSourceI: all signals are at the same place of a memory of no bytes.
* `C45_samples_of_first_function_refuted`: A GAMDataSource with AllowMultipleSamples gives a signal the samples of the first function that uses it; nothing checks that the others ask for the same, and a function that reads four samples of a signal written with one reads after the end of the memory.

**Smr_Props.v**

* `C76_relative_back_refuted`: A relative move backwards leaves Position() right and the next byte read wrong: after four bytes are written and the cursor moved back by one, Position() is 3 and the byte read is the one at 2.
* `C76_relative_back_outside_refuted`: Moved back by three of four bytes, the next write is outside the block.
* `C76_shrink_refuted`: A size below the cursor is accepted, and the next read runs past the size and out of the block.
* `C76_size_refuted`: A size of 2^32 + 1 is accepted on a block of four bytes.

**Sst_Props.v**

* `C74_top_pointer_refuted`: Finding: the pointer to the top of an emptied stack is one element before the block

**StateMach_Props.v**

* `C28_stale_event_refuted`: A disabled event acts: in state C the message "go" (of state A only) moves the machine to state B, since the second visit of A installed its filter again and leaving A by "stop" removed it only once.
* `C28_self_error_refuted`: The messages of an event that leads to its own state are not delivered: the machine moves to the error state, whose events are not enabled, so that it stays there although "reset" is received.
* `C28_enter_failure_refuted`: The ENTER messages of the new state are not delivered: one message causes two transitions.

**StrStream_Props.v**

* `C16_relative_seek_back_refuted`: What is missing, and false: RelativeSeek backwards moves the read pointer twice the distance.  Reading back one byte returns the byte before it; a longer move leaves the block.
* `C16_relative_seek_back_out_of_bounds_refuted`
* `C16_self_append_refuted`: Appending a string to itself reads freed memory once the block has to grow.

**Tcv_Props.v**

* `C55_overflow_refuted`: A string that is longer than its destination is written over the memory that follows.
* `C55_matrix_refuted`: A matrix of strings in static memory is not filled correctly from a matrix on the heap.
* `C55_three_dimensions_refuted`: Arrays of three dimensions are not converted, but the result is success.
* `C55_boolean_refuted`: An integer other than zero may become false.
* `C55_terminator_refuted`: A string without a terminator keeps the end of what the destination held.

**Tdb_Props.v**

* `C63_registered_refuted`: The full promise, that a thread is registered whenever there is memory, is false: with the 64 places of the table taken, the end of the thread at the last but one leaves a free place that is never looked at.
* `C63_no_memory_refuted`: Without memory for the 65th thread, the table is lost: the next look into it goes through a NULL pointer.
* `C63_largest_index_refuted`: The largest index is not refused: GetThreadID reads out of the table, for every history.

**ThreadPool_Props.v**

* `C38_above_maximum_refuted`: Two threads accept clients at once: min 2, max 3, and four threads in the pool.
* `C38_unbounded_refuted`
* `C38_below_minimum_refuted`: Two threads leave at once: min 1 and no thread is left.
* `C38_crash_refuted`: A thread that looks itself up while another is removed calls a method through an invalid reference.
* `C38_dead_in_pool_refuted`: A new thread that is over before it is in the pool stays there for ever.

**Timeout_Props.v**

* `C15_infinite_stays_infinite_refuted`: "Never turns an infinite timeout into a finite one" is false: TTInfiniteWait is the number 4294967295 ms.
* `C15_milliseconds_general_refuted`: The millisecond view is wrong after subtracting milliseconds from a long microsecond timeout: the 64-bit infinite timeout becomes finite after one millisecond, and infinite again after a microsecond.
* `C15_finite_stays_finite_general_refuted`
* `C15_infinite_constants_equal_refuted`: The two infinite constants compare different.

**Token_Props.v**

* `C17_one_byte_array_refuted`: Into an array of one byte it writes a second one.

**TrigBroker_Props.v**

* `C25_full_buffer_refuted`: No pre-trigger buffers, the service thread is idle and N triggered samples in a row are accepted: the service thread takes the full buffer for an empty one, goes to sleep, and neither thread does anything although both samples are pending.

**Vbt_Props.v**

* `C70_uint32_refuted`: In a vector of uint32 only the first element is checked, again and again.
* `C70_matrix_refuted`: In a matrix with more columns than rows the columns beyond the number of rows are not checked.
* `C70_rows_refuted`: In a matrix of rows with more rows than columns the check reads beyond the end of the rows.
* `C70_accepted_refuted`: With three dimensions, with a type that is not known, with attributes that cannot be parsed and for a NULL string, nothing is checked and the value is accepted.

**Web_Props.v**

* `C59_outside_refuted`: A path with ".." gives files outside the directory.
* `C59_realm_refuted`: The objects of a browser with a realm can be read without credentials through the browser that contains it.
* `C59_directory_refuted`: The name of a directory keeps the thread of the server busy for ever.
* `C59_missing_refuted`: Once the browser has looked for its own page in a directory, a request to the directory for a file that is not there is never answered.
* `C59_large_refuted`: The length of a file is sent modulo 2^32: of a file of 4 GiB nothing is sent.
* `C59_head_refuted`: HEAD announces length 0, whatever GET announces.


## What is modelled, file by file (and what is not)

The header comment of each model file, which says what it leaves out. Files of `/repo` that no header names are not modelled at all.

* `Any_Model.v`: Model of the object that stores a copy of a value: Source/Core/BareMetal/L4Configuration/AnyObject.cpp (A). The memory is a set of blocks; a block is a list of cells. One cell is one byte or one pointer: the sizes of pointers are not modelled, so a table of n pointers has n cells. The sizes are mathematical numbers (the uint32 products of the code do not wrap). An allocation of a size that is not zero succeeds and gives a block that was never given before, with contents that are not known; an allocation of zero bytes gives NULL (StandardHeap_Generic.cpp 60-90). A StreamString source is modelled by its buffer: the cell that points to its text. The type CArray on the heap is not modelled; a static CArray is a plain value. Reading or freeing what is not a live block, and reading an unknown cell as a pointer, is undefined: the operations give None.
* `AsyncBroker_Model.v`: Source/Core/Scheduler/L5GAMs/MemoryMapAsyncOutputBroker.cpp: one real-time thread calls Execute (208-243) and Flush (245-260), one service thread calls BufferLoop (263-332) again and again. One action is one access to shared memory; a sample has K memory cells (the bytes of all signals), copied one by one, so that a torn sample is possible in the model. fastSem is a FastPollingMutexSem: FastLock is possible when it is free (a thread that finds it taken tries again), and FastUnLock frees it whoever calls it. The event semaphore is a flag: Post sets it, Reset clears it, Wait passes when it is set (the properties C37 proves of EventSem) or spuriously (which EventSem allows, see C37). ignoreBufferOverrun is false (its initial value, 61). Not modelled: UnlinkDataSource and the destructor; failures of the semaphores and of Copy.
* `Base64_Model.v`: Source/Core/BareMetal/L3Streams/Base64Encoder.cpp. A StreamString is the list of its bytes; operator+= appends (see StreamString model).
* `BitSet_Model.v`: Source/Core/BareMetal/L0Types/BitSet.cpp. A BitSet is the list of its nElements words (uint32). Reading or writing a word outside the array is undefined behaviour (None).
* `Broker_Model.v`: Model of the copy tables of the memory-map brokers. Source: Source/Core/BareMetal/L5GAMs/BrokerI.cpp (InitFunctionPointers 108-243, InitFunctionPointersOptim 246-337, GetNumberOfRawCopies 347-376, FillCopyTable 388-467, SortByGAMAddress 470-540), MemoryMapBroker.cpp (Init 69-137), MemoryMapInputBroker.cpp (Execute 52-64), MemoryMapOutputBroker.cpp (Execute 52-64), RealTimeApplicationConfigurationBuilder.cpp (CheckProducersRanges 2365-2376). A write outside an array of the heap is undefined behaviour and has the outcome [None]. The queries to the data source are assumed to succeed (the code stops at the first that fails and the broker is not used). uint32 arithmetic on sizes and offsets is assumed not to wrap.
* `Bsb_Model.v`: Model of the conversion of bit ranges: BSToBS and BitSetToBitSet of Source/Core/BareMetal/L3Streams/BitSetToInteger.h, with T = uint8, the instance that TypeConversion.cpp and IOBufferIntegerPrint.cpp use. Memory is a list of bytes and a pointer is an index in it. The machine is little-endian. An access outside the memory, or outside the local variable, is undefined behaviour and gives None.
* `Btr_Model.v`: The binary tree: Source/Core/BareMetal/L1Portability/BinaryTree.h, with the hash functions of L0Types. An identifier is the list of its non-zero bytes. The two StaticList of the tree are lists: their behaviour as lists is property C11; what the heap answers, when one of them grows, is an argument of the calls (true: there is memory). The sizes are uint32. A result None: memory is accessed out of its bounds, or the loop does not end within the given number of turns.
* `BufStream_Model.v`: Source/Core/BareMetal/L3Streams: SingleBufferedStream and BufferedStreamIOBuffer over a seekable device. The buffer is the IOBuffer of StrStream_Model with no reserved space. The device (OSRead, OSWrite, OSSeek, OSPosition, OSSize) is a file whose calls do not fail; OSRead returns the bytes available, at most as many as asked for. Result None: undefined behaviour (or the loops' fuel, the number of bytes plus two, is exhausted).
* `CRC_Model.v`: Source/Core/BareMetal/L0Types/CRC.h, for T an unsigned type of [w] bits (8, 16 or 32: the class keeps its masks in uint32).
* `Cfg_Model.v`: Source/Core/BareMetal/L4Configuration: ConfigurationParserI.cpp (the actions), AnyTypeCreator.cpp, and the tables of StandardParser.cpp, XMLParser.cpp and JsonParser.cpp, which run on ParserI (Slk_Model). The output is a ConfigurationDatabase (C31). Simplifications: the conversion of a text to an element of a type (TypeConvert, AnyTypeCreator::Add) is a parameter, as are the compilation of an expression (C34, C35) and its evaluation; the elements of a value are fewer than 2^32, and so are the expressions; mathExpressionsCDB, where the parser notes the expressions under the names 0, 1, 2..., is the list of its nodes; memory is never exhausted.
* `Chunk_Model.v`: C49: Source/Core/BareMetal/L3Streams: DoubleBufferedStream (two buffers, one for each direction) and Source/Core/FileSystem/L4HttpService: HttpChunkedStream, over a TCP socket. The two directions share nothing and are modelled apart: [ws] is what is written, [rs] what is read. The buffers are the IOBuffers of StrStream_Model, without reserved space and with undo level 0, as in BufStream_Model. CanRead, CanWrite and bufferSizeSet are true: the socket is valid and the allocations succeeded. Timeouts are not modelled: that they expire is one of the ways in which the socket's calls fail. Result None: undefined behaviour, or the loops' fuel is exhausted.
* `CircBuf_Model.v`: Source/Core/Scheduler/L5GAMs/CircularBufferThreadInputDataSource.cpp: the acquisition thread (Execute 838-973) and the reader (Synchronise 275-339, GetInputOffset 814-827, TerminateInputCopy 977-1003), for the synchronising signal.
* `ConfigDB_Model.v`: Source/Core/BareMetal/L4Configuration: ConfigurationDatabase.cpp and ConfigurationDatabaseNode.cpp. Nodes live in a heap (an address is a number; the root is at 0 and has no name). None is undefined behaviour: a NULL node is dereferenced, an array is accessed out of its bounds, or (never, by C31_history) the fuel of Purge or Find runs out. Simplifications: one database (no copies, no SetCurrentNodeAsRootNode or AddToCurrentNode), one thread; a value is stored and read as such (the conversions are C39 and others), structured values are not modelled; memory is never exhausted and a node has fewer than 2^31 children (sizes do not wrap). The map from names to indexes is the list of its entries (hash, index): that UnorderedMap behaves like this on hashes is C14. numberOfNodes (used only to decide about Purge of copies) is left out.
* `Container_Model.v`: Source/Core/BareMetal/L2Objects: ReferenceContainer.cpp (Insert 152-229, Delete 231-245, Find 252-367), ReferenceContainerFilterObjectName.cpp (SetAddress 66-131, TestPath 187-199, Test 201-252) and ReferenceContainerFilter.cpp (46-129). Simplifications: one thread (the locks always succeed), a container is the list of its objects and an object is not in two containers.
* `CountSem_Model.v`: Source/Core/Scheduler/L1Portability/CountingSem.cpp used by any number of threads. The event semaphore is EventSem_Model (EventSem::Post, Wait, Reset), the mutex is FastPollingMutexSem (a thread that finds it taken tries again: no action). One action is one access to the mutex or the semaphore; the accesses to the counter between lock and unlock are one action. Not modelled: failures of Post and Reset, timeouts of the semaphore's internal mutex (see C37).
* `Crd_Model.v`: Model of the register of classes: Source/Core/BareMetal/L2Objects/ClassRegistryDatabase.cpp (D), with the list of LinkedListHolder.cpp (L). A text is the list of its characters, without the final zero. The libraries are an input: the classes that the static objects of a file register when it is opened for the first time (None: the file cannot be opened). The calls are sequential: the lock of D 253-259 is not modelled. LoadableLibrary never closes (LoadableLibrary.h 123-125).
* `Csl_Model.v`: Model of the circular list: Source/Core/BareMetal/L1Portability/CircularStaticList.h (C), on the model of the static list (StaticList_Model.v).
* `EmbThread_Model.v`: Source/Core/Scheduler/L3Services/EmbeddedThread.cpp and EmbeddedThreadI.cpp: one embedded thread object, its service thread and a client that calls Start and Stop one after the other. One action is one access to the shared fields, the start or the return of a callback, or the creation, end or killing of the service thread. The mutex mux makes SetCommands and the test in lines 55-60 single actions. Assumed: BeginThread and Kill succeed; a thread identifier set by Start or by the thread (line 69) is the same.
* `EventSem_Model.v`: Source/Core/Scheduler/L1Portability/Environment/Linux/EventSem.cpp, a created and not closed semaphore used by any number of threads. pthread_mutex_* and pthread_cond_* do what POSIX says: a mutex has at most one owner, pthread_cond_wait releases the mutex and sleeps atomically and takes the mutex again when woken, pthread_cond_broadcast wakes all sleepers. Every pthread call and every access to the stop flag is one action. The pthread calls do not fail, apart from the timeouts.
* `Fast_Model.v`: The state changes of the fast scheduler: Source/Core/Scheduler/L5GAMs/FastScheduler.cpp with CountingSem.cpp (Source/Core/Scheduler/L1Portability), the state changes of RealTimeApplication.cpp and the inner loop of EmbeddedThread.cpp. One client calls PrepareNextState, StopCurrentStateExecution and StartNextStateExecution one after the other; the threads of the pool run concurrently. One action is one access to what is shared. Simplified: an event semaphore is its flag and the set of its sleepers (the full code is EventSem_Model; its mutex makes the test of the flag and the falling asleep one action; pthread_cond_wait does not return unless woken); the state to prepare exists and the objects of the application accept the change (C43 models the search of the state); the pool is the one of the last PrepareNextState before the first start; the threads are not stopped (destructor and Purge); the times of the cycles and the error message are not modelled; the number of executables of a record is read once by Execute.
* `Flt_Model.v`: Numbers of type float32 and float64, and Source/Core/BareMetal/L4Configuration/FloatToInteger.cpp and IntegerToFloat.cpp. The operations of the processor are those of IEEE 754 with rounding to the nearest, ties to even. Simplifications: there is one zero.
* `Fmap_Model.v`: The distribution of the configured threads over the pool of the fast scheduler: Source/Core/Scheduler/L5GAMs/FastScheduler.cpp, ComputeMaxNThreads, CreateThreadMap, SetupThreadMap and CustomPrepareNextState. Simplified: the numbers of threads and states are below 2^32 (uint32 counters do not wrap); memory allocation, the creation of the semaphore and CreateThreads succeed; the pool threads are off, so SetCPUMaskThreadPool stores the mask; the priority class, the addresses of the cycle time signals and the messages to the log are not modelled; PrepareNextState is called once before the first start.
* `Fmt_Model.v`: Source/Core/BareMetal: L1Portability/FormatDescriptor.{h,cpp} and the formatted print of L3Streams/IOBuffer.cpp: PrintCCString 439-530, PrintStream 539-652, PrintToStreamScalar 1065-1378, PrintToStreamVector 1387-1444, PrintToStreamMatrix 1453-1514, PrintToStream 1522-1548, IOBuffer::PrintFormatted 1702-1760; with the grammars of IOBufferStandardPrint.cpp, IOBufferJsonPrint.cpp and IOBufferXMLPrint.cpp. Integers are printed by the model of C01. Simplifications: the buffer always has room (PutC and WriteAll succeed); the warnings are not modelled; floats, bit ranges, objects with an introspection and StructuredDataI arguments are not modelled; streams that are arguments can be seeked, and are given by what is between their position and their end (where the print leaves them is not modelled); the vectors and matrices are not empty pointers. Characters are bytes; a text without its final NUL.
* `Fpe_Model.v`: Model of the polling event: Source/Core/BareMetal/L1Portability/FastPollingEventSem.cpp (P), for any number of threads and every interleaving. Each read or write of the flag and each read of the clock is one step of one thread. Sleeping is no step: time passes between any two steps. The flag is 0 or 1 and is not shared with other code. FastResetWait (P 98-102) is a Reset and then a FastWait. The clock does not wrap: ticks are unbounded integers.
* `Fpr_Model.v`: Source/Core/BareMetal/L3Streams/IOBufferFloatPrint.cpp: the printing of a float32 or of a float64. The numbers and the operations of the processor are those of Flt_Model and Ftx_Model, the format is that of Fmt_Model. Simplifications: PutC never fails, so that a text is the list of the characters that are put; the quantities of type int16 are integers (the sizes are at most 1000, the precisions at most 255 and the exponents at most 512 in size).
* `Ftx_Model.v`: Source/Core/BareMetal/L4Configuration/StringToFloat.cpp. A text is the list of its characters before the terminating zero. The numbers and the operations of the processor are those of Flt_Model.
* `Gds_Model.v`: Model of the memory of GAMDataSource and of what it does at a change of state. Source/Core/BareMetal/L5GAMs/GAMDataSource.cpp, with the accessors of DataSourceI.cpp.
* `Hpm_Model.v`: The manager of the heaps: Source/Core/BareMetal/L1Portability/HeapManager.cpp (M) with MULTIHEAP_SUPPORT, as MakeDefaults/MakeStdLibDefs.gcc 77 builds it; the standard heap: Source/Core/BareMetal/L1Portability/Environment/Generic/StandardHeap_Generic.cpp (S); HeapI.h, same directory as M. Simplified: the lock of the database always succeeds (FastLock without a timeout) and the functions are one step each; the range and the name of a heap that the user registers never change, and it does not override Owns; the contents of the memory are not modelled. What the C library or a registered heap answers to a request is an argument of the step: an address, 0 for NULL.
* `Http_Model.v`: BareMetal/L4HttpService/HttpDefinition.cpp and FileSystem/L4HttpService/HttpProtocol.cpp: percent encoding, and the part of ReadHeader that reads a request: command, path, query and options (lines 146-210). Streams are lists of characters: what has not been read yet of an input, what has been written of an output (the outputs here are StreamStrings, whose writes do not fail: C16). The socket's stream is the list of the characters it will deliver; its reads are complete (C18, C49). Not modelled: replies (a first word that starts with HTTP), the number of the HTTP version, and what ReadHeader does with the options afterwards (Content-Length, Connection, the body; 212-330). The database operations MoveToRoot, Delete, CreateRelative and Write succeed: each Write is recorded, in order (ConfigurationDatabase: C31).
* `IntArith_Model.v`: Fixed-width integer helpers: saturating conversion, bit fields, safe arithmetic, double-width integers, integer square root. Paths relative to Source/Core/BareMetal.
* `IntText_Model.v`: Model of integer printing (IOBufferIntegerPrint.cpp) and integer parsing (StringToInteger.cpp). Characters are their codes (Z). An IOBuffer with room for the text is modelled by the list of characters put so far; IOBuffer::PutC therefore never fails here (simplification: the "no more space" branches, which only stop the output early and return false, are not modelled).
* `Isr_Model.v`: Types described by the configuration: IntrospectionEntry.cpp, Introspection.cpp, IntrospectionStructure.cpp (Initialise) and the part of ClassRegistryDatabase they use. Simplifications: texts are lists of character codes without the terminating NUL (reading at the end of the list gives NUL, reading after it is undefined); memory never runs out; every structure is initialised by an object of its own, used once; names of types do not contain a colon (no dynamic library is loaded).
* `Itp_Model.v`: Model of MemoryMapInterpolatedInputBroker (Source/Core/BareMetal/L5GAMs/MemoryMapInterpolatedInputBroker.{h,cpp}). Simplifications: float64 and float32 numbers are exact rationals (no rounding); memory is a list of values for each signal. A cast out of range and an overflow of a signed subtraction are undefined behaviour and give None. The data source is a sequence of samples: Synchronise moves to the next one or fails.
* `Lex_Model.v`: The lexical analyser. Paths relative to Source/Core/BareMetal/L4Configuration. A character is its code (0-255); the input stream is the list of the characters not yet read, and it works (a read fails only at the end, seeking back after a look-ahead succeeds). Comment markers are shorter than the 16 characters of the buffers. A token that contains the character NUL (which only a backslash can put there) is not cut at the NUL.
* `LinkedList_Model.v`: Source/Core/BareMetal/L0Types/LinkedListable.cpp and LinkedListHolder.cpp. The heap maps the address of a live LinkedListable to its [next] pointer; NULL is 0; an address that is not a live object has no entry. Every function returns None when it would dereference NULL or a dead object (undefined behaviour), or when the loop fuel runs out (the theorems hold for all large enough fuel, so they include termination). Search filters and sorters are functions of the address: their virtual methods are assumed not to modify the list.
* `Loader_Model.v`: Source/Core/BareMetal/L6App/Loader.cpp, RealTimeLoader.cpp, ConfigurationLoaderHashCRC.cpp: loading an application from a configuration, replacing it by another one and going back to the last valid one. The parser, the classes and the receivers of the messages are parameters: [parse] is one of the three parsers of C44, [builds] says whether an object of a node of the configuration can be created and initialised (Reference.cpp:99-156, with everything under it), [application] and [configures] whether it is a RealTimeApplication and ConfigureApplication accepts it, [settings_of] what a container named LoaderPostInit holds. They are functions: an object built twice from the same node succeeds or fails twice alike. Only the children of the root of configurations and of the registry are represented; what is under them is inside [body].
* `Map_Model.v`: Source/Core/BareMetal/L1Portability/UnorderedMap.h with its default parameters (initialCapacity 8, loadFactor 75), and the hash functions of L0Types. A key is the list of its non-zero bytes. A bucket is the list of its entries (hash, value) in list order: LinkedListHolderT is used through ListAdd (append), ListPeek, ListSize, ListDelete and CleanUp, whose behaviour as a list is property C09. Heap exhaustion is not modelled.
* `Mar_Model.v`: Model of the memory that grows: Source/Core/BareMetal/L1Portability/MemoryArea.cpp (M). The memory is a list of bytes, None for a byte that was never written. The heap is an input: for each request whether it grants it. HeapManager::Malloc gives NULL for zero bytes and HeapManager::Realloc keeps the bytes that fit, is a Malloc for NULL and a Free for zero bytes (Environment/Generic/StandardHeap_Generic.cpp 60-90 and 103-135, HeapManager.cpp 346-405). HeapManager::Free always works; the name of the heap is not modelled. None: memory is accessed that does not belong to the area.
* `MathParser_Model.v`: Source/Core/BareMetal/L4Configuration: ParserI.cpp (Parse 142-244), ParserI.h (StackPush, StackPop 294-312) and MathExpressionParser.cpp. The input is the list of tokens of the lexical analyser (C36); after the last one it returns end-of-file tokens for ever. Undef: a table is read out of its bounds. NoFuel: the loop has not ended within the given number of iterations. Simplifications: the messages about errors are not modelled; memory is never exhausted (Add on the StaticLists succeeds); new_token is token except after an error or the end of the input, where line 224-231 make token END_OF_SLK_INPUT: the model sets it there.
* `Md5_Model.v`: Source/Core/BareMetal/L1Portability/Md5Encrypt.cpp: Md5 and Md5Hmac. Bytes are integers from 0 to 255. osulong is an unsigned integer of [w] bits (64 on the 64 bit platforms, 32 on others): the code relies on it having at least 32 bits, not on its having exactly 32.
* `Msg_Model.v`: Source/Core/BareMetal/L4Messages: MessageFilterPool.cpp (ReceiveMessage 53-88), MessageI.cpp (WaitForReply 159-194) and ReplyMessageCatcherMessageFilter.cpp (Wait 80-97).
* `Mtx_Model.v`: Model of the matrix operations, Source/Core/BareMetal/L0Types/Matrix.h.
* `MultiBuf_Model.v`: Model of the circular copies of the multi-buffer brokers. Source: Source/Core/BareMetal/L5GAMs/MemoryMapMultiBufferBroker.cpp (CopyInputs 70-149, CopyOutputs 152-217; the fields of the copy table are filled in by Init 228-353). Memory is byte addressed. A block of memory (the area of a signal in the data source, or the memory of the GAM) is its size and its bytes; a copy that leaves either block is undefined behaviour and has the outcome [None]. So has a signed overflow, and a loop that does not end.
* `PollMutex_Model.v`: Source/Core/BareMetal/L1Portability/FastPollingMutexSem.cpp used by any number of threads (thread identifiers are natural numbers). One action is one access to the shared flag or clock, or a call or return of the API. Memory is sequentially consistent (the flag is volatile and TestAndSet atomic).
* `Pool_Model.v`: Source/Core/BareMetal/L1Portability/FastResourceContainer.cpp used by any number of threads: every access to a sem or a size of the buffers is one action. Memory is sequentially consistent, Atomic::TestAndSet, Increment and Decrement are atomic. The int32 sizes are unbounded integers here: their absolute value never exceeds the number of resources plus the number of threads.
* `Prod_Model.v`: Model of the part of the configuration builder that decides who runs where and who writes what: the threads of the states, the functions (GAMs) they run, the producers of the signals of the data sources. Source: Source/Core/BareMetal/L5GAMs/RealTimeApplicationConfigurationBuilder.cpp (ConfigureAfterInitialisation 86-131, ConfigureBeforeInitialisation 133-178, ResolveStates 1493-1638, AddStateToGAM 1640-1715, AddStateToFunction 1717-1786, ResolveStatesFromConfiguration 1814-1919, ResolveConsumersAndProducers 2088-2186, VerifyConsumersAndProducers 2193-2293, BuildProducersRanges 2295-2363, CheckProducersRanges 2365-2376, FindFunctionNumber 3160-3163, SearchGAMs 3687-3810, GetNumberOfSyncSignals 3812-3838) and RealTimeThread.cpp (ConfigureArchitecture 66-155, GetGAMs). Not modelled: the consumers (nothing is verified about them), the signals the builder adds to the timing data source (AddTimingSignals, AddThreadCycleTime: they have no producers, and a signal of that data source that is already there with another type is refused), structured types, and what happens before (GAMs without signals and nested GAMs are refused).
* `Prt_Model.v`: Source/Core/BareMetal/L3Streams/IOBuffer.cpp: PrintStructuredDataInterface 828-912, which Printf calls for a configuration database ("%!", "%J!", "%X!"), with the functions by grammar 145-430, IOBufferStandardPrint.cpp 80-109, IOBufferJsonPrint.cpp 100-145 and IOBufferXMLPrint.cpp 85-130. The database is that of C31, the print of the names and of the values is that of C46; their simplifications hold here. GetType of a child is Read without a conversion: there is a value or there is a directory.
* `QueueFilter_Model.v`: Source/Core/Scheduler/L4Messages/QueueingMessageFilter.cpp used by any number of threads: producers in ConsumeMessage and consumers in GetMessage. The event semaphore is EventSem_Model, the mutex is FastPollingMutexSem (a thread that finds it taken tries again: no action). Messages are identified by numbers. One action is one access to the mutex, the queue or the semaphore. Not modelled: failures of Insert, Post and Reset, and timeouts of the semaphore's internal mutex (see C37).
* `Ref_Model.v`: Source/Core/BareMetal/L2Objects/Reference.cpp, Object.cpp (344-361) and ReferenceT.h: references to objects that themselves hold references. An object is a number, a reference (a variable of class Reference or ReferenceT) is a slot, which is either a variable of the program (owner None) or a member of an object. None as a result: freed memory is used. Simplifications: the reference counter (int32) does not overflow; CreateByName and the allocation of an object do not fail; the count is updated by one thread (see [cstep] below for several).
* `Rsd_Model.v`: IntrospectionStructure::RegisterStructuredDataI and its recursive part (IntrospectionStructure.cpp 318-498): the types of a tree of data. Simplifications: the names of the children of a node are distinct and contain no dot (MoveRelative finds the child looked at); the container of the registered types accepts them; what the code does after creating a leaf of a name already used in the type (the result of CreateRelative is overwritten, lines 469-474) is not modelled: None. The list of the types is computed first and checked for repeated names afterwards: nothing is registered in either order when a name is repeated (CreateAbsolute, line 380).
* `RuntimeEval_Model.v`: The runtime evaluator: a stack machine with typed overloads, its compiler and its interpreter. Paths relative to Source/Core/BareMetal/L4Configuration. Not modelled: the splitting of the program text into lines and words (GetToken, see Token_Model: here a program is the list of the words of its lines), the debug execution mode, DeCompile, the access to variables by index. Memory is little-endian, pointers have 64 bits, the functions of floating point numbers are a parameter. A failed operation is [Fail]; what the C++ standard leaves undefined (access outside of an array, division overflow) is [Undef].
* `Sched_Model.v`: The real time scheduler: Source/Core/BareMetal/L5GAMs/GAMSchedulerI.cpp, Source/Core/Scheduler/L5GAMs/GAMScheduler.cpp and the state changes of Source/Core/BareMetal/L5GAMs/RealTimeApplication.cpp, with the thread loop of EmbeddedThread.cpp and the Start and Stop of MultiThreadService.cpp and EmbeddedThreadI.cpp (Source/Core/Scheduler/L3Services). One client calls PrepareNextState, StopCurrentStateExecution and StartNextStateExecution one after the other. One action is one access to what is shared between the client and the service threads. Simplified: the event semaphore is its flag and the set of its sleepers (the full code is EventSem_Model; its mutex makes the test of the flag and the falling asleep one action); thread creation succeeds; the services have the infinite timeout that GAMScheduler leaves unchanged; GetSchedulableStates is the array; the times written to the timing data source are not modelled; the message sent when a cycle fails is not modelled.
* `Shp_Model.v`: The functions on C texts: Source/Core/BareMetal/L1Portability/Environment/Generic/StringHelper_Portable_Generic.cpp (P) and StringHelperExtras_Generic.cpp (E), same directory. A pointer is the memory from it on: a list of char8 (signed, -128..127); a pointer that is returned is its distance from the argument. Simplified: no argument is NULL (the functions then return false, -1 or NULL); a destination overlaps no source; memory is smaller than 2^31 bytes, so that the int32 and uint32 indexes do not wrap (the arithmetic on the arguments of Substr wraps as in the code). A result None: the function accesses memory out of the bounds of an argument.
* `SigMem_Model.v`: Model of the memory of the signals of an application: how the configuration builder merges what the functions (GAMs) and the data sources say of a signal, computes sizes and offsets, and how GAMs and data sources allocate. Source: Source/Core/BareMetal/L5GAMs/RealTimeApplicationConfigurationBuilder.cpp (ResolveDataSources 909-1062, AddSignalToDataSource 1071-1287, VerifyDataSourcesSignals 1295-1473, ResolveFunctionSignalsMemorySize 2471-2565, ResolveFunctionsMemory 2573-2766, AssignFunctionsMemoryToDataSource 2774-2932), GAM.cpp (AllocateInputSignalsMemory 108-154, AllocateOutputSignalsMemory 156-203), MemoryDataSourceI.cpp (AllocateMemory 76-123, GetSignalMemoryBuffer 158-181), GAMDataSource.cpp (GetSignalMemoryBuffer 115-137, AllocateMemory 139-182), DataSourceI.cpp (GetSignalNumberOfSamples 175-244, GetSignalByteSize 246-254), L1Portability/TypeDescriptor.cpp (55-71). Not modelled: structured types (FullType, MemberSize and the signals of the data source that are deleted because a structured signal has their name as a prefix, 1347-1406), the values of Default (WriteDefault), Frequency, Trigger, States, and the checks of the builder that can only refuse more configurations (consumers, producers, brokers). NumberOfDimensions and NumberOfElements are numbers; the code compares their texts.
* `Slk_Model.v`: Source/Core/BareMetal/L4Configuration: ParserI.cpp (GetNextTokenType 93-117, PeekNextTokenType 119-138, Parse 142-244) and ParserI.h (StackPush, StackPop 294-312), for any tables and any actions. The input is the list of tokens of the lexical analyser (C36); after the last one it returns end-of-file tokens for ever. Undef: a table is read out of its bounds or an action has undefined behaviour. NoFuel: a loop has not ended within the given number of iterations. Simplifications: the messages about errors are not modelled; new_token is token except after an error or the end of the input, where lines 224-231 make token END_OF_SLK_INPUT: the model sets it there.
* `Smr_Model.v`: Source/Core/BareMetal/L3Streams/StreamMemoryReference.cpp over IOBuffer with referenced memory: a stream over a block of memory of the caller. [cells] are the bytes of the caller's block, all readable; the block has less than 2^32 bytes and is not NULL. Result None: undefined behaviour (an access outside the block, a signed overflow). Not modelled: the default constructor, the conversion to AnyType, GetC, PutC and the printing functions.
* `Sst_Model.v`: Model of the stack: Source/Core/BareMetal/L1Portability/StaticStack.h (S), on the model of the static list (StaticList_Model.v).
* `StateMach_Model.v`: Source/Core/Scheduler/L4StateMachine/StateMachine.cpp and StateMachineEvent.cpp, with the parts of QueuedMessageI.cpp and MessageFilterPool.cpp that they use. The state machine is driven by the single thread that processes its queue, one message at a time. Simplifications: a message is its function name; whether the messages of an event and of ENTER could all be delivered and were answered in time (SendMultipleMessagesAndWaitReply, StateMachine.cpp 296-353) is an input of the model; the names of states are plain names (no '.'); Purge is not modelled; the replies of the queue thread (QueuedMessageI.cpp 116-126) are not modelled; ReferenceContainer::Insert does not fail.
* `StaticList_Model.v`: Source/Core/BareMetal/L1Portability/StaticListHolder.cpp (and the StaticList template, which only forwards to it, StaticList.h:165-237). The allocated block is the list of its bytes. Reading or writing outside the block is undefined behaviour: the functions then return None. Sizes, positions and offsets are uint32 (wrap-around). What the heap answers when memory is asked for is an argument: [None] (refused) or the bytes found in the new part of the block.
* `StrStream_Model.v`: Source/Core/BareMetal/L3Streams: IOBuffer, CharBuffer, StreamStringIOBuffer, StreamString. The heap block is a list of cells, None for a byte never written since it was allocated. Reading such a byte, or touching a byte outside the block, is undefined behaviour (result None). Heap exhaustion is not modelled: allocation fails only on the size check of CharBuffer::SetBufferSize.
* `Tcv_Model.v`: Model of TypeConvert (Source/Core/BareMetal/L4Configuration/TypeConversion.cpp) for scalars, vectors and matrices of integers, floating point numbers, booleans and char8 strings. The memory is one list of bytes, a pointer is an index in it; a pointer that is stored in memory (the rows of a matrix on the heap) takes 8 bytes, little-endian. An access outside the memory is undefined behaviour and gives None. The conversions from and to floating point numbers are the parameters [number] and [text] of the model. StreamString, char8 *, pointers and structures are not modelled.
* `Tdb_Model.v`: The database of the threads: Source/Core/Scheduler/L1Portability/Environment/Generic/ThreadsDatabase_Generic.cpp, with the constant of Source/Core/BareMetal/L1Portability/Environment/Linux/GeneralDefinitions.h, the allocations of StandardHeap_Generic.cpp (same directory tree) through HeapManager.cpp, compiled without several heaps. Simplified: the functions are called one at a time (Lock and UnLock, 151-158, are what Threads.cpp puts around them; Threads::FindByIndex does not); the pointer given to NewEntry is not NULL; the identifier and the name of a registered thread do not change; names are compared as texts (StringHelper::Compare). A result None: the C++ behaviour is undefined (NULL table, index out of the table, memory not initialised, endless loop).
* `Tds_Model.v`: Source/Core/BareMetal/L1Portability/TypeDescriptor.cpp: the 16 bit description of a type. A descriptor is its 16 bit word; its fields are read and assigned with the bit fields of IntArith_Model (BitRange.h, BitBoolean.h). Pointers have 64 bits, bool 8.
* `ThreadPool_Model.v`: Source/Core/Scheduler/L3Services: MultiClientService.cpp (AddThread 87-111, RemoveThread 113-127, Start 145-166; MoreThanEnoughThreads, MultiClientService.h 202-204) and MultiClientEmbeddedThread.cpp (ThreadLoop 53-125). Any number of threads; each access to the pool (a ReferenceContainer: Size, Get, Insert and Delete lock it, the sequence of them does not) is one step. Simplifications: the model begins when Start has returned; nobody asks the service to stop; the callback is the schedule: it decides when a client arrives and when a thread has done; Insert does not fail.
* `Timeout_Model.v`: Source/Core/BareMetal/L1Portability/TimeoutType.h. The conversions from and to seconds and timer ticks (229-251) use floating point and are not modelled.
* `Token_Model.v`: Source/Core/BareMetal/L3Streams/IOBuffer.cpp: GetToken (1621-1671), GetToken into a character array (1553-1619), SkipTokens (1673-1700); BufferedStreamI.cpp 74-107 calls them on the stream's buffers. The input is any stream given by its GetC (None: undefined behaviour; Some (None, s): no more data), the output any stream given by its PutC.
* `TrigBroker_Model.v`: Source/Core/Scheduler/L5GAMs/MemoryMapAsyncTriggerOutputBroker.cpp: one real-time thread calls Execute (289-354), one service thread calls BufferLoop (357-435) again and again. One action is one access to shared memory; a sample has K memory cells (the bytes of all signals), copied one by one; cell T is the trigger signal. fastSem, the event semaphore and spurious wake-ups are as in AsyncBroker_Model. Not modelled: FlushAllTriggers, UnlinkDataSource and the destructor; failures of the semaphores and of Copy; bufferLoopExecuting (only FlushAllTriggers reads it).
* `Txt_Model.v`: Source/Core/BareMetal/L4Configuration: ParserI.cpp on the tokens of LexicalAnalyzer.cpp (Lex_Model): GetNextTokenType 93-117, PeekNextTokenType 119-138, Parse 142-244. The same code as in Slk_Model, with the lexical analyser in the place of the list of tokens; the simplifications are the same. A NULL token (never, by C44_text) is dereferenced: Undef.
* `Vbt_Model.v`: Model of the check of a value against the attributes of a member: Source/Core/BareMetal/L4Configuration/ValidateBasicType.cpp (V), with AnyType::operator[] (Source/Core/BareMetal/L2Objects/AnyType.cpp 77-133, T). The values are integers of the eight types, characters and C strings; the checks of floating point numbers (V 674-803) are not modelled. What the database gives for each attribute, read in the type of the value, is given: None if the attribute is missing or cannot be read. A C string is the list of its characters, from 1 to 255; StringHelper::Compare is strcmp (StringHelper_CLIB_Generic.cpp 97-116).
* `Web_Model.v`: Source/Core/FileSystem/L4HttpService: HttpObjectBrowser.cpp (who answers a request), HttpDirectoryResource.cpp (which file is sent), HttpDataExportI.cpp, the choice and the body loop of HttpService.cpp and HttpProtocol.cpp. Simplifications: the socket accepts everything that is written to it; of a reply only the status, the type, the length and the body are kept; the JSON text of an object is represented by the identity of the object; the working directory is the root of the file system, which has no links; the buffers of File (C18) are not repeated: a read gives the next bytes.

## Axioms

`Print Assumptions` of every theorem named in `MANIFEST.json` answers "Closed under the global context": no axiom, neither
ours nor of the standard library. This holds also for the
examples and the refutations (checked for all theorems and examples named `Cxx_...` in one file that prints them all).

The build loads the standard library's `ssreflect` files indirectly (through `lia`/`Zify` they are not used by any theorem);
`coqchk -o` and vcheck therefore list the seven constants `Coq.ssr.ssrunder.Under_rel.*`, which the standard library
declares in a sealed module. Since C58 uses mathcomp, they also list the constants that mathcomp declares in sealed modules
(for instance `mathcomp.ssreflect.bigop.*` and `mathcomp.algebra.*`). No theorem depends on any of them, as `Print Assumptions` shows.

## Seeded bugs

`seeded/LOG.jsonl` has one line for each wrong program that was tried: the definition edited, the edit, the claim it breaks,
the theorems that failed and those that were tightened because the edit had not been noticed.

