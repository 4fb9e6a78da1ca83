{
 "claims": [
  {
   "property": "C01",
   "status": "partial",
   "theorems": [
    "C01_replace_all_result",
    "C01_replace_all_reaches_normal_form",
    "C01_replace_all_returns_partial",
    "C01_replace_all_returns_refuted",
    "C01_replace_all_self_insertion_diverges"
   ],
   "note": "Result characterised for every call that returns. The claim that it always returns is false (refuted with a witness, and a family of diverging calls); termination proved when the replacement is shorter or has fewer copies of some character."
  },
  {
   "property": "C02",
   "status": "partial",
   "theorems": [
    "C02_split_string",
    "C02_split_join",
    "C02_split_string_set",
    "C02_split_string_returns_refuted"
   ],
   "note": "Full for non-empty delimiters. With an empty delimiter the call never returns (refuted)."
  },
  {
   "property": "C03",
   "status": "partial",
   "theorems": [
    "C03_strip_default",
    "C03_strip_chars",
    "C03_strip_returns",
    "C03_strip_removes_all_refuted"
   ],
   "note": "Full for the default set and all sets of single characters; for longer strings the claim is false (witness), only termination holds."
  },
  {
   "property": "C04",
   "status": "proved",
   "theorems": [
    "C04_base64_round_trip"
   ],
   "note": "For every byte string, with int arithmetic wrapping as on the supported compilers (see C61)."
  },
  {
   "property": "C05",
   "status": "proved",
   "theorems": [
    "C05_base64_encode_is_rfc4648",
    "C05_base64_encode_length"
   ],
   "note": "Against an independent bit-level definition of RFC 4648."
  },
  {
   "property": "C06",
   "status": "proved",
   "theorems": [
    "C06_base64_decode",
    "C06_base64_decode_covers_all"
   ],
   "note": "For every byte string."
  },
  {
   "property": "C07",
   "status": "proved",
   "theorems": [
    "C07_fast_module_is_mod",
    "C07_fast_division_is_div",
    "C07_zero_divisor",
    "C07_is_power_of_2",
    "C07_is_even"
   ],
   "note": "All 2^64 pairs, with and without assertions; divisor zero characterised."
  },
  {
   "property": "C08",
   "status": "proved",
   "theorems": [
    "C08_fast_exponential",
    "C08_fast_exponential_exact"
   ],
   "note": "All pairs of unsigned ints."
  },
  {
   "property": "C09",
   "status": "partial",
   "theorems": [
    "C09_sum_modulo",
    "C09_sum_partial",
    "C09_sum_refuted"
   ],
   "note": "The result is characterised exactly (sum modulo 2^31); the claim for sums between 2^31 and 2^32 is false (witness)."
  },
  {
   "property": "C10",
   "status": "partial",
   "theorems": [
    "C10_format_nonnegative",
    "C10_decimal_unique",
    "C10_format_negative",
    "C10_format_checked_partial",
    "C10_format_checked_refuted",
    "C10_format_divides_by_zero",
    "C10_format_negative_rejected"
   ],
   "note": "Full with allow_more_chars. The rejection test is right only for non-negative values and 1 to 9 characters; wrong at 10 characters (witness), divides by zero from 32 characters on, rejects every negative value."
  },
  {
   "property": "C11",
   "status": "proved",
   "theorems": [
    "C11_case_laws",
    "C11_to_lowercase_chars",
    "C11_to_uppercase_chars"
   ],
   "note": "C locale."
  },
  {
   "property": "C12",
   "status": "partial",
   "theorems": [
    "C12_exact_partial",
    "C12_near_partial",
    "C12_exact_refuted",
    "C12_integer_refuted",
    "C12_fits_refuted",
    "C12_malformed",
    "C12_unknown_unit_partial",
    "C12_too_large_partial",
    "C12_too_large_refuted",
    "C12_maximum_refuted",
    "C12_undefined_only",
    "C12_out_of_range_only",
    "C12_exception_refuted",
    "C12_outcomes",
    "C12_monotone"
   ],
   "note": "Exact when the number and the result are doubles (53 binary digits) and the amount is at most the integer part of (2^64-1)/unit; otherwise within one byte and relative error 2^-51. Full claim refuted: 1.001KB gives 1000, 9007199254740993B loses one byte, 16383.5PiB fits but is refused, 2^64-1 B is undefined behaviour, out_of_range for numbers std::stod refuses."
  },
  {
   "property": "C13",
   "status": "partial",
   "theorems": [
    "C13_multiple",
    "C13_printed_partial",
    "C13_two_decimals_refuted",
    "C13_below_1000_refuted",
    "C13_round_trip",
    "C13_round_trip_near",
    "C13_round_trip_refuted"
   ],
   "note": "Multiples of the unit exact for all 64-bit numbers; every number within 1/99 (no decimals) or 1/199 (two decimals) with the right unit. Refuted: 1009 prints 1KB, 999999 prints 1000.00KB, 2^64-1 cannot be read back."
  },
  {
   "property": "C14",
   "status": "proved",
   "theorems": [
    "C14_topic_round_trip",
    "C14_topic_mangled",
    "C14_mangled_round_trip",
    "C14_all_prefixes_removed",
    "C14_other_names_unchanged",
    "C14_remove_prefix"
   ],
   "note": "Every string."
  },
  {
   "property": "C15",
   "status": "partial",
   "theorems": [
    "C15_mangled_form",
    "C15_demangled_form",
    "C15_round_trip_partial",
    "C15_mangled_round_trip",
    "C15_round_trip_refuted",
    "C15_other_types_not_mangled",
    "C15_other_types_not_demangled",
    "C15_no_undefined_behaviour_refuted",
    "C15_defined"
   ],
   "note": "Round trip for packages without ':' and without a segment ending in dds_; false otherwise (witness). The empty type name is undefined behaviour (witness)."
  },
  {
   "property": "C16",
   "status": "partial",
   "theorems": [
    "C16_request_demangled",
    "C16_reply_demangled",
    "C16_service_demangled",
    "C16_service_mangled_partial",
    "C16_nested_service_refuted"
   ],
   "note": "Demangling full. Mangling rejects every service in a nested namespace (proved for all such names)."
  },
  {
   "property": "C17",
   "status": "partial",
   "theorems": [
    "C17_service_type_demangled",
    "C17_other_types_rejected_partial",
    "C17_misplaced_suffix_refuted",
    "C17_service_type_round_trip",
    "C17_other_types_not_mangled",
    "C17_returns"
   ],
   "note": "Well-formed names full; a name whose _Request_ is not at the end is accepted (witness)."
  },
  {
   "property": "C18",
   "status": "partial",
   "theorems": [
    "C18_memory_safe_partial",
    "C18_memory_safe_refuted"
   ],
   "note": "Unsafe exactly when get_next_command is called twice before any non-empty command is added (fewer than 2^63 calls); the full claim is false (witness)."
  },
  {
   "property": "C19",
   "status": "proved",
   "theorems": [
    "C19_list_with_cursor",
    "C19_contents"
   ],
   "note": "Every safe sequence of fewer than 2^63 calls."
  },
  {
   "property": "C20",
   "status": "partial",
   "theorems": [
    "C20_cursor_inside",
    "C20_editor_partial",
    "C20_two_downs_refuted",
    "C20_zero_width_refuted",
    "C20_end_of_input"
   ],
   "note": "Cursor inside the line for every byte sequence. Every sequence of well-formed keys on terminals of positive width; fails with two Down arrows on an empty history and with width 0 (witnesses). What is written to the terminal is C134 and C135."
  },
  {
   "property": "C21",
   "status": "partial",
   "theorems": [
    "C21_read_back_partial",
    "C21_leading_space_refuted",
    "C21_leading_space_always",
    "C21_some_argument"
   ],
   "note": "Every argument not starting with a space; always wrong for a quoted argument starting with a space."
  },
  {
   "property": "C22",
   "status": "partial",
   "theorems": [
    "C22_time_playing",
    "C22_playing",
    "C22_sum_of_intervals",
    "C22_clock_refuted",
    "C22_milliseconds",
    "C22_milliseconds_refuted"
   ],
   "note": "Exact arithmetic and a clock that does not go backwards; for any arithmetic the result is the ordered sum of the measured playing intervals. The clock in use can go backwards (witness) and the millisecond count is undefined after 2^32 ms (witness)."
  },
  {
   "property": "C23",
   "status": "partial",
   "theorems": [
    "C23_equivalence",
    "C23_characterisation",
    "C23_documented_partial",
    "C23_levels_refuted",
    "C23_defaults_refuted",
    "C23_plain_value",
    "C23_level_names"
   ],
   "note": "Equivalence and negation full. The documented equality holds only for levels below 0 or equal levels from 20 on; two refutations."
  },
  {
   "property": "C24",
   "status": "partial",
   "theorems": [
    "C24_verbosity",
    "C24_filter",
    "C24_unique",
    "C24_all_or_nothing_refuted"
   ],
   "note": "Verbosity and filters: every sequence of settings. An incomplete filter is partly applied before the exception (witness)."
  },
  {
   "property": "C25",
   "status": "proved",
   "theorems": [
    "C25_values_to_keys",
    "C25_keys_to_values",
    "C25_command",
    "C25_command_safe"
   ],
   "note": "Maps are association lists in iteration order. refactor_values on a map of keys to values does not compile when instantiated and is left out."
  },
  {
   "property": "C26",
   "status": "proved",
   "theorems": [
    "C26_from_to",
    "C26_to_from",
    "C26_rejects",
    "C26_all_values",
    "C26_count_arguments",
    "C26_too_many_arguments",
    "C26_for_each"
   ],
   "note": "Round trips under pairwise different enumerator names; the preprocessor macros COUNT_ARGUMENTS and APPLY_MACRO_FOR_EACH are modelled as selection of an argument, right up to 18 enumerators."
  },
  {
   "property": "C27",
   "status": "partial",
   "theorems": [
    "C27_leaf",
    "C27_all_nodes",
    "C27_all_nodes_reachable",
    "C27_descendants_exist",
    "C27_depth_partial",
    "C27_depth_always_zero_refuted"
   ],
   "note": "leaf and all_nodes proved; depth() is false of the code: it never adds one and is 0 for every tree."
  },
  {
   "property": "C28",
   "status": "partial",
   "theorems": [
    "C28_contains",
    "C28_equal_partial",
    "C28_equal_complete",
    "C28_symmetric_partial",
    "C28_equal_refuted"
   ],
   "note": "False as stated: two pointers to equal values in the first set make the answer wrong and not symmetric (refuted). Proved when the first set points to pairwise different values."
  },
  {
   "property": "C29",
   "status": "proved",
   "theorems": [
    "C29_consumed_in_order"
   ],
   "note": "Detailed model: the counter of C31-C34 with the double-buffered queue at the granularity of its mutexes. Holds for every initial value."
  },
  {
   "property": "C30",
   "status": "partial",
   "theorems": [
    "C30_never_empty_partial",
    "C30_positive_value_refuted"
   ],
   "note": "Proved for handlers created with value 0, for any number of elements (also when the counter overflows). Refuted for a positive initial value, which the constructor accepts."
  },
  {
   "property": "C31",
   "status": "proved",
   "theorems": [
    "C31_true_reason"
   ],
   "note": "For every handler, any number of threads and every schedule, including spurious wake-ups and time outs: what wait returns is true at the moment it returns (for wait_and_decrement, before the unit was taken)."
  },
  {
   "property": "C32",
   "status": "partial",
   "theorems": [
    "C32_none_blocked_partial",
    "C32_left_behind_refuted"
   ],
   "note": "Proved: handler disabled, counter zero, nobody blocked in the condition variable. Refuted as stated: blocking_disable reads threads_waiting_ without the mutex, so it may return while a waiter is still inside wait and still owns the mutex (destruction then destroys an owned mutex)."
  },
  {
   "property": "C33",
   "status": "partial",
   "theorems": [
    "C33_no_lost_wakeup",
    "C33_no_lost_unit",
    "C33_threshold_partial",
    "C33_threshold_refuted"
   ],
   "note": "Plain handlers: proved for clients that never set a value fulfilling a waited condition with notify=false. Counters: proved for unit waiters. Threshold waiters: proved when increments do not reach the threshold, refuted otherwise (operator++ never notifies threshold_reached_cv_)."
  },
  {
   "property": "C34",
   "status": "partial",
   "theorems": [
    "C34_disable_wakes_partial",
    "C34_blocking_disable_wakes_partial",
    "C34_blocking_disable_refuted",
    "C34_blocking_disable_returns_partial"
   ],
   "note": "Proved for threads waiting for a value or a unit, including that blocking_disable can always go on to return when nobody sleeps until the threshold. Refuted for threads waiting for the threshold: disable notifies only wait_condition_variable_, so an untimed wait_threshold_reached and blocking_disable wait for ever."
  },
  {
   "property": "C35",
   "status": "partial",
   "theorems": [
    "C35_once",
    "C35_registered",
    "C35_no_exception",
    "C35_order_partial",
    "C35_order_refuted"
   ],
   "note": "Every task executed was emitted and registered, at most once per emission, and the threads take tasks in the order of emission. Order of execution: proved for a pool of one thread, refuted for two (a thread can be overtaken between taking and running its task)."
  },
  {
   "property": "C36",
   "status": "partial",
   "theorems": [
    "C36_restart_refuted",
    "C36_never_again",
    "C36_none_left_partial"
   ],
   "note": "Refuted for a pool that is enabled again: disable leaves the queue disabled for ever, so after the first disable nothing is ever executed although emit and enable succeed. Proved for the pool before its first disable: when all its threads are asleep everything emitted has been executed."
  },
  {
   "property": "C37",
   "status": "partial",
   "theorems": [
    "C37_executed_refuted",
    "C37_taken_partial"
   ],
   "note": "Refuted: wait_all_consumed can report success before the last task has started. Proved: at most one task per thread of the pool (plus those of emit calls in progress) has not started."
  },
  {
   "property": "C38",
   "status": "partial",
   "theorems": [
    "C38_linear",
    "C38_progress",
    "C38_deadlock_refuted",
    "C38_own_iterator_refuted"
   ],
   "note": "Linearizable to an ordinary map with no data race for every interleaving of any number of threads, with find iterators that are not copied; no deadlock when shared locks need not wait for waiting writers. Refuted parts: find takes the shared lock twice, so with a writer-priority mutex it deadlocks with a writer; a thread that keeps an iterator and modifies waits for itself."
  },
  {
   "property": "C39",
   "status": "partial",
   "theorems": [
    "C39_stable",
    "C39_valid_partial",
    "C39_begin_refuted",
    "C39_copy_refuted"
   ],
   "note": "Proved: while an uncopied iterator exists no step changes the map; an iterator returned by find stays valid. Refuted: begin/end read the map before locking (race and dangling iterator); copying an iterator does not lock but destroying the copy unlocks."
  },
  {
   "property": "C40",
   "status": "partial",
   "theorems": [
    "C40_distinct",
    "C40_loan",
    "C40_return_partial",
    "C40_allocated",
    "C40_destroy",
    "C40_batch",
    "C40_double_return_refuted",
    "C40_wrap_refuted",
    "C40_leak_refuted",
    "C40_initial_refuted",
    "C40_delete_refuted"
   ],
   "note": "Proved for every type, child class, configuration and sequence of loans, uses and returns: distinctness, loans never fail and are as new, number of allocations, destruction. Partial: with fewer than 2^32 elements returns work and returns of nothing are rejected. Refuted: double returns accepted when another element is on loan; 2^32 elements; leaked loans at destruction; initial size ignored without a child class; destructor never uses the overridden delete_element_."
  },
  {
   "property": "C41",
   "status": "partial",
   "theorems": [
    "C41_guard",
    "C41_destroy",
    "C41_once",
    "C41_gone",
    "C41_no_misuse_partial",
    "C41_no_race_partial",
    "C41_race_refuted",
    "C41_lock_progress"
   ],
   "note": "Proved for every number of threads and every interleaving of owners (reset, move, move-assignment), lessees, guards: a guard with data has data that is not destroyed, destruction never happens under a guard, exactly once per data when no owner has it, nothing is obtained afterwards, no deadlock between lessees. Partial: no use of destroyed data if -> of lessees is not used; no data race if operator bool of lessees is not used. Refuted: operator bool of a lessee races with reset and may say true for destroyed data."
  },
  {
   "property": "C42",
   "status": "partial",
   "theorems": [
    "C42_arrow_refuted",
    "C42_pointer_partial"
   ],
   "note": "Refuted: operator-> drops its guard before the method runs, so the owner may destroy the data meanwhile (use after free). Partial: the pointer is valid when it is read."
  },
  {
   "property": "C43",
   "status": "partial",
   "theorems": [
    "C43_release_partial",
    "C43_release_refuted"
   ],
   "note": "Partial: with guards that are moved and destroyed, reset can go on as soon as no guard is left. Refuted: move-assigning over a guard with data (the compiler-made operator) keeps its lock for ever and reset never returns."
  },
  {
   "property": "C44",
   "status": "partial",
   "theorems": [
    "C44_modulo",
    "C44_count_partial",
    "C44_called",
    "C44_calls_partial",
    "C44_only_set",
    "C44_no_abort",
    "C44_reset_refuted",
    "C44_wrap_refuted"
   ],
   "note": "Proved for any number of threads and handlers and every interleaving: count + decrements = counted events modulo 2^32 since the last reset, exactly below 2^32 (partial); each callback call is counted once when it returns; only the set callback is called; an empty one never. Refuted: a callback running across reset_event_count is counted after it; after 2^32 calls the count is 0. wait_mutex_ critical sections are atomic steps."
  },
  {
   "property": "C45",
   "status": "partial",
   "theorems": [
    "C45_not_called",
    "C45_released",
    "C45_not_running_partial",
    "C45_not_replaced_partial",
    "C45_no_deadlock_partial",
    "C45_running_refuted",
    "C45_deadlock_refuted",
    "C45_cycle_refuted"
   ],
   "note": "Proved for every interleaving: after unset_callback returned, only callbacks set later are called; when it returns nobody is blocked in wait_for_event. Partial: the callback is not running and not replaced while running if callbacks call no handler function; no deadlock if moreover handlers forward to each other without cycles. Refuted otherwise: a callback that unsets its own handler (another unset returns while it is running, its std::function is assigned while running, or both deadlock), and two handlers forwarding to each other."
  },
  {
   "property": "C46",
   "status": "partial",
   "theorems": [
    "C46_answer_partial",
    "C46_false_partial",
    "C46_woken",
    "C46_reset_refuted"
   ],
   "note": "Partial: the answer is exactly whether the counted events minus decrements reach n (below 2^32 events); false only if the callback was not set at some moment of the call or the counter was reset or decremented meanwhile. Proved: a blocked waiter lacks events or somebody is about to wake it. Refuted: reset between the event and the answer."
  },
  {
   "property": "C47",
   "status": "partial",
   "theorems": [
    "C47_dispatch",
    "C47_counted",
    "C47_not_lost_partial",
    "C47_lost_refuted",
    "C47_ids_partial",
    "C47_ids_refuted"
   ],
   "note": "Each dispatch calls all registered callbacks once in order of identifiers; arrivals = dispatches + pending modulo 2^32. Full claim refuted: the notification is sent without the mutex, so a signal may stay undispatched until the next one; identifiers repeat after 2^32 registrations."
  },
  {
   "property": "C48",
   "status": "partial",
   "theorems": [
    "C48_sum_partial",
    "C48_reset_refuted"
   ],
   "note": "Partial: for any number of handlers, multiple handlers registered in one another to any depth, events and threads, when no event is being handled, the count of a multiple handler is the sum of the counts of its handlers modulo 2^32, provided nobody resets, decrements or simulates events of multiple handlers, or changes the forwarding callbacks. C48_reset_refuted: resetting a handler's own counter breaks the sum."
  },
  {
   "property": "C49",
   "status": "proved",
   "theorems": [
    "C49_manager",
    "C49_linear",
    "C49_exclusive",
    "C49_progress"
   ],
   "note": "RandomManager: every sequence of calls. TSafeRandomManager: every interleaving is linearizable, without deadlock. std::mt19937 is an arbitrary generator."
  },
  {
   "property": "C50",
   "status": "partial",
   "theorems": [
    "C50_linear",
    "C50_one_instance",
    "C50_one_success",
    "C50_progress",
    "C50_unsafe_refuted"
   ],
   "note": "SafeInitializableSingleton: linearizable, one instance, one success, no deadlock; constructors may throw. Refuted for InitializableSingleton, whose second initialisation replaces the instance (it is documented for static initialisation only). Singleton rests on the language's guarantee for static variables."
  },
  {
   "property": "C51",
   "status": "partial",
   "theorems": [
    "C51_order",
    "C51_same",
    "C51_success",
    "C51_print",
    "C51_table",
    "C51_faithful_partial",
    "C51_faithful_refuted"
   ],
   "note": "Order, equality, success and printing proved for all codes. Faithfulness refuted: nine middleware codes become one, the order of codes changes, and a code rebuilt from its own number differs."
  },
  {
   "property": "C52",
   "status": "partial",
   "theorems": [
    "C52_accept",
    "C52_invalid_filter",
    "C52_stream",
    "C52_severe_handler_partial",
    "C52_two_handlers_refuted"
   ],
   "note": "Acceptance full, regular expression search a parameter. Severe handlers: exact while no later handler has a more severe threshold; otherwise entries are lost (witness)."
  },
  {
   "property": "C53",
   "status": "partial",
   "theorems": [
    "C53_formatter_partial",
    "C53_formatter_cut",
    "C53_formatter_refuted"
   ],
   "note": "False as stated: the text is cut at the first NUL character (refuted); proved for text without NUL and the exact text given otherwise."
  },
  {
   "property": "C54",
   "status": "partial",
   "theorems": [
    "C54_every_file",
    "C54_file_to_strings",
    "C54_inner_carriage_return_refuted",
    "C54_file_to_string",
    "C54_file_to_string_stripped",
    "C54_idempotent",
    "C54_missing_file"
   ],
   "note": "Proved for every content and flags; carriage returns inside a line are removed too when stripping (refuted witness)."
  },
  {
   "property": "C55",
   "status": "partial",
   "theorems": [
    "C55_round_trip_partial",
    "C55_seconds_partial",
    "C55_minus_one_refuted",
    "C55_calendar_partial",
    "C55_calendar_total",
    "C55_overflow_refuted"
   ],
   "note": "Partial: for every whole second of the nanosecond clock (1677-2262) but 1969-12-31 23:59:59, and every format with all six fields, writing and reading is the identity; date_to_timestamp counts the seconds of an independently specified calendar. Refuted: the second before 1970 cannot be read back; dates outside 1677-2262 overflow. Local time is C144; Windows and other format directives are not modelled; gmtime, timegm, put_time and get_time are models of glibc and libstdc++."
  },
  {
   "property": "C56",
   "status": "proved",
   "theorems": [
    "C56_unique",
    "C56_linear",
    "C56_exhausted"
   ],
   "note": "Proved up to 2^32 calls, and shown that the bound is exact."
  },
  {
   "property": "C57",
   "status": "partial",
   "theorems": [
    "C57_watched_partial",
    "C57_failure_refuted"
   ],
   "note": "C57_watched_partial: if the last set_callback created the watcher (no constructor failure) and no call is in progress, both threads run and the inotify watch exists; callbacks that use their own handler excluded. C57_failure_refuted: when the constructor of the watcher throws, set_callback returns normally (the InitializationException is constructed and not thrown), the started flag is set, and the file is not watched until unset_callback is called, however often set_callback is called again."
  },
  {
   "property": "C58",
   "status": "partial",
   "theorems": [
    "C58_refuted",
    "C58_window",
    "C58_after",
    "C58_after_inside",
    "C58_partial"
   ],
   "note": "C58_refuted: the entries are a member declared after the connection with the log, so they are destroyed first, and the thread of the log may store an entry in between (both classes). C58_window: only then. C58_after, C58_after_inside: nothing of the handler is touched after the connection is closed. C58_partial: entries given only between construction and destruction."
  },
  {
   "property": "C59",
   "status": "proved",
   "theorems": [
    "C59_bounds",
    "C59_growing_count"
   ],
   "note": "Also when entries arrive between the two readings."
  },
  {
   "property": "C60",
   "status": "partial",
   "theorems": [
    "C60_container",
    "C60_mask",
    "C60_empty_mask",
    "C60_mask_injective",
    "C60_invalid_mask_refuted"
   ],
   "note": "container_to_stream for every container and separator; the mask text determines the mask except empty versus the invalid policy. The numeric order of Fast DDS policy identifiers is assumed."
  },
  {
   "property": "C61",
   "status": "partial",
   "theorems": [
    "C61_base64_shifts_defined_refuted",
    "C61_base64_shifts_defined_partial"
   ],
   "note": "Strict C++11/14/17 reading of signed shifts: undefined for 5 bytes and more (witness), defined up to 4 bytes."
  },
  {
   "property": "C62",
   "status": "partial",
   "theorems": [
    "C62_elements_ready_partial",
    "C62_overflow_refuted"
   ],
   "note": "Right modulo 2^32; refuted when 2^32 elements are queued: the count is then 0."
  },
  {
   "property": "C63",
   "status": "proved",
   "theorems": [
    "C63_fuzzy_history"
   ],
   "note": "All histories."
  },
  {
   "property": "C64",
   "status": "proved",
   "theorems": [
    "C64_add_branch"
   ],
   "note": "All trees."
  },
  {
   "property": "C65",
   "status": "proved",
   "theorems": [
    "C65_sorted"
   ],
   "note": "Proved for all timestamps of the clock."
  },
  {
   "property": "C66",
   "status": "partial",
   "theorems": [
    "C66_today_partial",
    "C66_today_refuted"
   ],
   "note": "Partial: provided the result is representable; C66_today_refuted: otherwise the behaviour is undefined."
  },
  {
   "property": "C67",
   "status": "partial",
   "theorems": [
    "C67_second_partial",
    "C67_second_refuted"
   ],
   "note": "Partial from 1970 on; refuted before 1970 (truncation towards zero)."
  },
  {
   "property": "C68",
   "status": "partial",
   "theorems": [
    "C68_no_date_refuted",
    "C68_short_year_refuted",
    "C68_rejected_partial",
    "C68_read_partial"
   ],
   "note": "Refuted: non-existing days, trailing characters and years of two digits are not rejected. Proved: whatever is not rejected begins with the digits of a date whose numbers are in their ranges, and the timestamp read is that date if it exists."
  },
  {
   "property": "C69",
   "status": "partial",
   "theorems": [
    "C69_disable_waits_partial",
    "C69_second_disable_refuted"
   ],
   "note": "Proved when a single thread calls enable and disable. Refuted in general: a second, concurrent call to disable returns at once while tasks are still running."
  },
  {
   "property": "C70",
   "status": "proved",
   "theorems": [
    "C70_unregistered",
    "C70_called"
   ],
   "note": "Full, for any schedule of the model."
  },
  {
   "property": "C71",
   "status": "proved",
   "theorems": [
    "C71_destroyed",
    "C71_awake"
   ],
   "note": "Full; calls made during or after destruction are not modelled."
  },
  {
   "property": "C72",
   "status": "partial",
   "theorems": [
    "C72_registered_partial",
    "C72_no_throw_partial",
    "C72_unset_partial",
    "C72_not_called_partial",
    "C72_throw_refuted"
   ],
   "note": "For fewer than 2^32 registrations and if nobody else unregisters identifiers; refuted without that: unset_callback throws in a noexcept function."
  },
  {
   "property": "C73",
   "status": "partial",
   "theorems": [
    "C73_progress_partial",
    "C73_nested_refuted"
   ],
   "note": "Progress of some thread when callbacks call no function of the manager; refuted otherwise (the mutex of the callbacks is not recursive and is locked while they run)."
  },
  {
   "property": "C74",
   "status": "partial",
   "theorems": [
    "C74_one_thread",
    "C74_only_set",
    "C74_unset",
    "C74_no_deadlock_partial",
    "C74_unset_returns_partial",
    "C74_comes_partial"
   ],
   "note": "One thread, calls only while set, unset waits: for everything. Progress, return of unset_callback and further calls: for callbacks that do not use their own handler; C76_unset_refuted and C76_set_refuted show why."
  },
  {
   "property": "C75",
   "status": "partial",
   "theorems": [
    "C75_spacing",
    "C75_no_delay",
    "C75_period",
    "C75_each_period_refuted"
   ],
   "note": "Never sooner than a period after the last call returned, and exactly then without delays; so a callback that takes as long as the period is called every second period (refuted). Zero rejected."
  },
  {
   "property": "C76",
   "status": "partial",
   "theorems": [
    "C76_unset_refuted",
    "C76_set_refuted",
    "C76_set_alone_partial"
   ],
   "note": "Refuted: unset from the callback blocks for ever holding the mutex of the handler; set from the callback blocks for ever if another thread has begun to set or unset. Partial: set works while no other thread is inside."
  },
  {
   "property": "C77",
   "status": "proved",
   "theorems": [
    "C77_only_set",
    "C77_unset"
   ],
   "note": "Full, including callbacks that use their own handler."
  },
  {
   "property": "C78",
   "status": "partial",
   "theorems": [
    "C78_in_order",
    "C78_delivered_partial"
   ],
   "note": "C78_in_order: full (prefix, all schedules). C78_delivered_partial: callbacks that do not use their own handler (C80_unset_refuted and C80_set_refuted show why); bound on the steps of the watcher alone; inotify queue overflow not modelled."
  },
  {
   "property": "C79",
   "status": "partial",
   "theorems": [
    "C79_progress_partial",
    "C79_deaf_partial",
    "C79_awake_partial",
    "C79_lost_notification_refuted",
    "C79_directory_removed_refuted"
   ],
   "note": "C79_progress_partial: with callbacks that do not use their own handler, some step of the threads of the library is enabled, except in two situations; C79_deaf_partial: the first one needs the watched directory to have been removed; C79_awake_partial: the second one needs something to come between the test of the condition and the wait. Both are refuted: a notification lost between the test and the wait (the destroyed flag is set without the mutex), and a watched directory that was removed (inotify_rm_watch then wakes nobody)."
  },
  {
   "property": "C80",
   "status": "partial",
   "theorems": [
    "C80_unset_refuted",
    "C80_set_refuted",
    "C80_no_terminate_partial"
   ],
   "note": "C80_unset_refuted: unset_callback from the callback joins its own thread: exception out of a noexcept function, std::terminate. C80_set_refuted: set_callback from the callback blocks for ever together with set_callback or unset_callback of another thread. C80_no_terminate_partial: otherwise never terminate."
  },
  {
   "property": "C81",
   "status": "partial",
   "theorems": [
    "C81_single_file",
    "C81_folder_partial",
    "C81_folder_refuted"
   ],
   "note": "C81_single_file: full. C81_folder_partial: exactly the names without line feed and carriage return; C81_folder_refuted: other names never reported (regex .* does not match them)."
  },
  {
   "property": "C82",
   "status": "partial",
   "theorems": [
    "C82_failed_refuted",
    "C82_leak"
   ],
   "note": "Refuted: C82_leak shows every failure after inotify_init leaves a descriptor open."
  },
  {
   "property": "C83",
   "status": "partial",
   "theorems": [
    "C83_threshold_partial",
    "C83_construction_refuted",
    "C83_destruction_refuted",
    "C83_indeterminate_refuted",
    "C83_indeterminate_window"
   ],
   "note": "C83_threshold_partial for entries given between the end of the constructor and the start of the destructor; refuted for entries given during construction or destruction (virtual call goes to the base class), and the threshold may be read before it is initialised."
  },
  {
   "property": "C84",
   "status": "partial",
   "theorems": [
    "C84_order",
    "C84_each_partial",
    "C84_construction_refuted",
    "C84_only_set",
    "C84_unset"
   ],
   "note": "C84_order, C84_only_set, C84_unset: full. C84_each_partial: entries given to a complete handler; C84_construction_refuted shows why. One owner thread."
  },
  {
   "property": "C85",
   "status": "proved",
   "theorems": [
    "C85_returns"
   ],
   "note": "Full: bound on the steps of the threads, and when none is possible the owner is not inside a function."
  },
  {
   "property": "C86",
   "status": "partial",
   "theorems": [
    "C86_reached_partial",
    "C86_other_refuted",
    "C86_construction_refuted"
   ],
   "note": "C86_reached_partial when no other severe handler is constructed; refuted when another handler with a lower threshold is constructed later, and construction with threshold Warning lowers a verbosity Info."
  },
  {
   "property": "C87",
   "status": "partial",
   "theorems": [
    "C87_lines_partial",
    "C87_negative_refuted",
    "C87_overflow_refuted"
   ],
   "note": "Proved for lines_to_read >= 0 and fewer than 2^32 requests. Refuted otherwise: a negative number makes the handler read, and 2^32 requests are none."
  },
  {
   "property": "C88",
   "status": "partial",
   "theorems": [
    "C88_order",
    "C88_dropped",
    "C88_each_partial",
    "C88_lost_refuted",
    "C88_history"
   ],
   "note": "Order and exactly-once proved; a line ended while unset_callback runs is dropped (refuted), and only such lines are."
  },
  {
   "property": "C89",
   "status": "proved",
   "theorems": [
    "C89_only_set",
    "C89_unset"
   ],
   "note": "Proved."
  },
  {
   "property": "C90",
   "status": "partial",
   "theorems": [
    "C90_returns_partial",
    "C90_one_line",
    "C90_waits",
    "C90_silence_refuted"
   ],
   "note": "Proved unless a line is being read; then it returns exactly when the user ends that line. Refuted when nobody types."
  },
  {
   "property": "C91",
   "status": "partial",
   "theorems": [
    "C91_more_partial",
    "C91_unset_refuted",
    "C91_embrace",
    "C91_set_refuted"
   ],
   "note": "read_one_more_line may be called. Refuted for unset_callback (the thread joins itself: terminate) and for set_callback (deadlock with another thread inside set_callback or unset_callback)."
  },
  {
   "property": "C92",
   "status": "partial",
   "theorems": [
    "C92_restored_partial",
    "C92_reading",
    "C92_sessions_partial",
    "C92_overlap",
    "C92_refuted"
   ],
   "note": "Partial: one handler at a time, or several without overlap; while a line is read exactly echo, line editing and signals are off. Refuted for handlers that overlap: the static variable with the saved mode is overwritten with the raw mode."
  },
  {
   "property": "C93",
   "status": "partial",
   "theorems": [
    "C93_unused",
    "C93_refuted"
   ],
   "note": "Refuted: nothing is ever read from the stream, so a line available there is not delivered."
  },
  {
   "property": "C94",
   "status": "partial",
   "theorems": [
    "C94_order",
    "C94_one_each",
    "C94_not_ahead_partial",
    "C94_ahead_refuted",
    "C94_returns_partial"
   ],
   "note": "Order and one line per call proved for all runs; not reading ahead and returning proved when lines are requested with read_next_command only (stdin_handler().read_one_more_line() is public, and C94_ahead_refuted uses it)."
  },
  {
   "property": "C95",
   "status": "partial",
   "theorems": [
    "C95_safe_partial",
    "C95_returns_partial",
    "C95_dangling_refuted",
    "C95_silence_refuted"
   ],
   "note": "Proved when lines are requested with read_next_command only. Refuted with stdin_handler().read_one_more_line(): the queue is destroyed before the handler, whose thread may use it or wait for the user."
  },
  {
   "property": "C96",
   "status": "partial",
   "theorems": [
    "C96_reason",
    "C96_conditions",
    "C96_priority_refuted"
   ],
   "note": "The reasons are exactly the state of the handler when wait returns. The documented priority of timeout over condition_met is refuted."
  },
  {
   "property": "C97",
   "status": "partial",
   "theorems": [
    "C97_asleep",
    "C97_asleep_conditions",
    "C97_progress_partial",
    "C97_progress_refuted"
   ],
   "note": "Sleeping threads always have a false condition, unconditionally; all threads come to rest in a bounded number of their own steps unless blocking_disable is used (C97_progress_refuted, C99)."
  },
  {
   "property": "C98",
   "status": "partial",
   "theorems": [
    "C98_partial",
    "C98_refuted"
   ],
   "note": "Partial: as long as the handler stays disabled until the threads have taken the lock. Refuted when it is enabled again before that."
  },
  {
   "property": "C99",
   "status": "partial",
   "theorems": [
    "C99_free_partial",
    "C99_refuted"
   ],
   "note": "Refuted: it never returns, nor does any other function of the handler, when a thread is waiting (it spins with the lock the threads need) or when a predicate ever raised an exception (the counter of waiting threads stays incremented). Partial: returns at once otherwise."
  },
  {
   "property": "C100",
   "status": "proved",
   "theorems": [
    "C100_value",
    "C100_get"
   ],
   "note": "Replay of the history of effects."
  },
  {
   "property": "C101",
   "status": "proved",
   "theorems": [
    "C101_lives",
    "C101_no_leak"
   ],
   "note": "All programs without undefined behaviour; single thread."
  },
  {
   "property": "C102",
   "status": "proved",
   "theorems": [
    "C102_write",
    "C102_read",
    "C102_copy",
    "C102_assign",
    "C102_move",
    "C102_move_assign",
    "C102_compare"
   ],
   "note": "Stated for each operation from any state."
  },
  {
   "property": "C103",
   "status": "proved",
   "theorems": [
    "C103_casts"
   ],
   "note": "Single non-virtual inheritance."
  },
  {
   "property": "C104",
   "status": "partial",
   "theorems": [
    "C104_partial",
    "C104_moved_refuted",
    "C104_downcast_refuted",
    "C104_destructor_refuted"
   ],
   "note": "Refuted: comparing or casting a moved-from variable, implicit conversion to a derived class that is not that of the object, and objects of derived classes of a base without virtual destructor (as in the library's own unit test). Partial: programs that avoid the three have none."
  },
  {
   "property": "C105",
   "status": "partial",
   "theorems": [
    "C105_lines",
    "C105_once_partial",
    "C105_refuted"
   ],
   "note": "Proved: a message printed is printed once per format ever set (with the constructor's), in that order; exactly once with the default format when set_format is never called. Refuted: set_format adds a handler instead of replacing it, so messages are printed twice after one call. The standard library's logging module is modelled after its source (CPython 3.11); one thread; validity of formats is a parameter."
  },
  {
   "property": "C106",
   "status": "partial",
   "theorems": [
    "C106_first_use",
    "C106_enabled",
    "C106_exists",
    "C106_fresh_partial",
    "C106_refuted"
   ],
   "note": "Proved: whether a level is printed is decided by the settings when that level was first used; levels not used before follow the level set last. Refuted: the constructor bypasses logging.getLogger, so setLevel does not clear this logger's cache: activate_debug has no effect on DEBUG messages once one was logged, and raising the level does not stop INFO messages."
  },
  {
   "property": "C107",
   "status": "proved",
   "theorems": [
    "C107_semicolon",
    "C107_comma",
    "C107_clean"
   ],
   "note": "Proved for all lists of texts whose only white space are blanks, with either separator; no value has a semicolon or a blank for any text."
  },
  {
   "property": "C108",
   "status": "partial",
   "theorems": [
    "C108_partial",
    "C108_sections_partial",
    "C108_texts",
    "C108_file",
    "C108_command",
    "C108_refuted"
   ],
   "note": "Proved when no argument has a %: the text is the template with all fields filled in simultaneously, and the enumeration, array of names and number of values stand in it in the stated form. Refuted with a field name between % in the output file name. ASCII texts."
  },
  {
   "property": "C109",
   "status": "partial",
   "theorems": [
    "C109_partial",
    "C109_trailing_refuted",
    "C109_number_refuted",
    "C109_mixed_refuted"
   ],
   "note": "Proved for all lists of different identifiers with either separator, with enumerators and names read from the generated text. Refuted for a trailing separator, for values with numbers (to_string undefined) and for both separators together. Whether identifiers are C++ keywords is not modelled."
  },
  {
   "property": "C110",
   "status": "partial",
   "theorems": [
    "C110_comment_partial",
    "C110_file",
    "C110_braces_partial",
    "C110_refuted"
   ],
   "note": "Proved: the command closes the comment only if an argument with a - has */; the file name never does; braces balance when the arguments have none. Refuted with --output=gen*/E.hpp."
  },
  {
   "property": "C111",
   "status": "partial",
   "theorems": [
    "C111_partial",
    "C111_refuted",
    "C111_index_refuted",
    "C111_bounded"
   ],
   "note": "Proved for any sequence of calls when no option takes some next elements and ignores others (or gnu is off), indices are below 2^31 and fewer than 2^31-1 options are counted; refuted for check functions that depend on the next element with gnu (more options are stored than counted) and for index 2^32-1. With bufmax no write outside the arrays at all."
  },
  {
   "property": "C112",
   "status": "proved",
   "theorems": [
    "C112_reading",
    "C112_permutation",
    "C112_posix"
   ],
   "note": "Declarative reading relation; all theorems hold after any number of earlier calls and for all check functions. Names without '='."
  },
  {
   "property": "C113",
   "status": "partial",
   "theorems": [
    "C113_partial",
    "C113_usual",
    "C113_optional",
    "C113_flag_refuted",
    "C113_optional_refuted"
   ],
   "note": "Proved when every option either ignores the next element or must have one; refuted for optional detached arguments, and the documented remark that gnu is needed for Stats only is refuted for command lines with an error."
  },
  {
   "property": "C114",
   "status": "proved",
   "theorems": [
    "C114_lists",
    "C114_walk"
   ],
   "note": "Tagged pointers modelled; built = any sequence of calls of parse."
  },
  {
   "property": "C115",
   "status": "proved",
   "theorems": [
    "C115_group",
    "C115_attached",
    "C115_long"
   ],
   "note": "The names under which the options were written differ, which alike leaves out."
  },
  {
   "property": "C116",
   "status": "partial",
   "theorems": [
    "C116_long",
    "C116_partial",
    "C116_refuted"
   ],
   "note": "Refuted for the empty name: --=v is read as the first option with only a short name."
  },
  {
   "property": "C117",
   "status": "proved",
   "theorems": [
    "C117_language",
    "C117_total",
    "C117_all"
   ],
   "note": "fnmatch modelled after glibc's algorithm (FNM_NOESCAPE, C locale); reading bracket expressions is a parameter."
  },
  {
   "property": "C118",
   "status": "partial",
   "theorems": [
    "C118_quoted",
    "C118_partial",
    "C118_itself_refuted",
    "C118_backslash_refuted",
    "C118_nul_refuted"
   ],
   "note": "Partial: texts with wildcards do not match themselves, a backslash does not quote, and what follows a NUL is not looked at (refuted)."
  },
  {
   "property": "C119",
   "status": "proved",
   "theorems": [
    "C119_modes",
    "C119_apart"
   ],
   "note": "Values of the enumeration as ints."
  },
  {
   "property": "C120",
   "status": "partial",
   "theorems": [
    "C120_elapsed_partial",
    "C120_increases_partial",
    "C120_backwards_refuted",
    "C120_resolution_refuted"
   ],
   "note": "Proved within three microseconds for clocks from 1970 to 2106 that do not go back; refuted when the system clock is set back (time.time() is not monotonic): the elapsed time is negative; times below the resolution measure 0."
  },
  {
   "property": "C121",
   "status": "partial",
   "theorems": [
    "C121_transparent_partial",
    "C121_message_partial",
    "C121_nested",
    "C121_repr_refuted",
    "C121_name_refuted"
   ],
   "note": "Proved when repr of the arguments does not raise. Refuted otherwise (the texts are made even if the level is off, and the function is not called), and the name of a decorated function is lost (no functools.wraps)."
  },
  {
   "property": "C122",
   "status": "partial",
   "theorems": [
    "C122_returns_partial",
    "C122_byte_refuted",
    "C122_end_refuted",
    "C122_percent_refuted",
    "C122_endless_refuted"
   ],
   "note": "Proved for every properly ended array of descriptors with short options (possibly empty), texts without byte 0xFF, every width, and percentages up to 214748. Refuted otherwise: byte 0xFF is clz(0); a missing last element is read beyond; percentages overflow; an entry without short options loops for ever."
  },
  {
   "property": "C123",
   "status": "partial",
   "theorems": [
    "C123_rows_partial",
    "C123_count_partial",
    "C123_nine_refuted"
   ],
   "note": "Proved for the first eight columns: the lines of a row are an interleaving of the columns. Refuted for a ninth column, which is dropped."
  },
  {
   "property": "C124",
   "status": "partial",
   "theorems": [
    "C124_width_partial",
    "C124_cell_refuted",
    "C124_one_refuted",
    "C124_columns",
    "C124_characters_partial"
   ],
   "note": "Proved when the columns before the last one leave two columns of the width and the own line of the last column has two, with wide and multi-byte characters and invalid UTF-8. Refuted for cells before the last column that do not fit, and for width 1. The columns counted are those of the characters of texts in UTF-8, with the documented wide ones (C124_columns)."
  },
  {
   "property": "C125",
   "status": "partial",
   "theorems": [
    "C125_layout_partial",
    "C125_empty_refuted",
    "C125_break_refuted"
   ],
   "note": "Proved exactly, character by character, for tables of rows of single lines that fit. Refuted when the last column is empty in all rows, and for cells after one that does not fit (the position is not reset at column 0)."
  },
  {
   "property": "C126",
   "status": "partial",
   "theorems": [
    "C126_emit_returns",
    "C126_slot_returns",
    "C126_tasks_can",
    "C126_disable_stuck",
    "C126_disable_refuted",
    "C126_wait_refuted"
   ],
   "note": "Proved of emit and slot, from every reachable state and with steps only of threads that are inside the pool, not of tasks. Refuted of disable (the task joins its own thread; in the code join throws resource_deadlock_would_occur inside a noexcept function) and of wait_all_consumed with another task in the queue of a pool of one thread."
  },
  {
   "property": "C127",
   "status": "partial",
   "theorems": [
    "C127_losses",
    "C127_orphaned",
    "C127_lost_refuted"
   ],
   "note": "Proved: while the queue is enabled the pool has lost exactly one thread per task that threw, and a pool without threads executes nothing until it is disabled, also if enable is called again. Refuted: the only thread of a pool is lost, and a task that emit accepts is never executed. Missing: exceptions other than DisabledException end the program."
  },
  {
   "property": "C128",
   "status": "partial",
   "theorems": [
    "C128_plain_partial",
    "C128_to_string",
    "C128_from_string",
    "C128_defined",
    "C128_values",
    "C128_undefined_refuted",
    "C128_swapped_refuted",
    "C128_alias_refuted"
   ],
   "note": "Exact conditions proved for all enumerators; the property holds without explicit values. Refuted with explicit values: text read beyond the array of names, another enumerator's text, and values that no enumerator has."
  },
  {
   "property": "C129",
   "status": "partial",
   "theorems": [
    "C129_max_partial",
    "C129_parentheses",
    "C129_one_meaning",
    "C129_added_after",
    "C129_added_before",
    "C129_twice",
    "C129_sum_refuted",
    "C129_nested_refuted",
    "C129_effects_refuted"
   ],
   "note": "Proved for arguments without effects, whose operators bind tighter than <, when the use is the whole expression or in parentheses. Refuted for a use inside a sum, for nested uses and for arguments with effects. Tree::depth is a use of the first kind."
  },
  {
   "property": "C130",
   "status": "partial",
   "theorems": [
    "C130_pointer",
    "C130_text",
    "C130_streamed",
    "C130_null_refuted",
    "C130_nul_refuted"
   ],
   "note": "Proved for messages without NUL characters; refuted for messages with one and for null pointers (libstdc++)."
  },
  {
   "property": "C131",
   "status": "partial",
   "theorems": [
    "C131_convert",
    "C131_keys",
    "C131_classes",
    "C131_missing_refuted"
   ],
   "note": "Proved for every allocator, and for keys ordered by < consistently with ==; for other orders one key of each class remains, a refutation for unordered_map."
  },
  {
   "property": "C132",
   "status": "partial",
   "theorems": [
    "C132_statement_partial",
    "C132_else",
    "C132_one_program",
    "C132_build",
    "C132_nothing",
    "C132_else_refuted",
    "C132_levels_refuted"
   ],
   "note": "Proved for programs without 'use ; else', and exactly those compile; entries are queued only with verbosity Info, and the message is evaluated only then. Refuted: if (c) logDebug(..); else compiles only in builds without logDebug, with logUser never; logDevError queues a warning, and logUser ignores the verbosity."
  },
  {
   "property": "C133",
   "status": "partial",
   "theorems": [
    "C133_items_partial",
    "C133_conditional",
    "C133_comparison",
    "C133_one_text",
    "C133_refuted"
   ],
   "note": "Proved for messages of items between << whose operators bind tighter. Refuted for conditional expressions without parentheses, which compile and write the condition instead of the value; a shift writes both operands."
  },
  {
   "property": "C134",
   "status": "partial",
   "theorems": [
    "C134_display_partial",
    "C134_cursor_refuted",
    "C134_move_refuted",
    "C134_enter_refuted",
    "C134_tall_refuted"
   ],
   "note": "Missing: cursor movements from or to the position behind a line that fills its last row, keys that leave a line from a row that is not its last, lines higher than the screen (all three refuted), other characters than printable ASCII, a width that changes."
  },
  {
   "property": "C135",
   "status": "partial",
   "theorems": [
    "C135_above_partial",
    "C135_left_refuted",
    "C135_history_refuted"
   ],
   "note": "Missing: as for C134; Left behind a full row and history keys in the first row of a long line are refuted."
  },
  {
   "property": "C136",
   "status": "proved",
   "theorems": [
    "C136_accessible",
    "C136_contains"
   ],
   "note": "access(2) is modelled after POSIX for a process that may or may not read, write and execute the file; other errors than missing files and missing permissions are not modelled."
  },
  {
   "property": "C137",
   "status": "partial",
   "theorems": [
    "C137_copy_partial",
    "C137_no_memory_refuted"
   ],
   "note": "Missing: allocation failure (refuted: undefined behaviour)."
  },
  {
   "property": "C138",
   "status": "proved",
   "theorems": [
    "C138_linear",
    "C138_content",
    "C138_progress",
    "C138_order",
    "C138_defined",
    "C138_both_empty",
    "C138_reference",
    "C138_one_reader_needed",
    "C138_empty_needed"
   ],
   "note": "Full for the documented use (many writers, one reader): linearizability, absence of data races and deadlocks for any use (C138_linear, C138_content, C138_progress); order, no undefined reads and validity of references for one reader that swaps when there is nothing to read (C138_order, C138_defined, C138_both_empty, C138_reference). The refutations show what goes wrong outside this use: two readers, and a swap with elements left."
  },
  {
   "property": "C139",
   "status": "partial",
   "theorems": [
    "C139_not_early_partial",
    "C139_not_late_partial",
    "C139_early_refuted",
    "C139_late_refuted"
   ],
   "note": "Partial: not early if the clock is never set forward (C139_not_early_partial), not late if it is never set back (C139_not_late_partial). The general claim is false, because the deadline is a moment of the system clock: with the clock set forward a wait of any length times out at once (C139_early_refuted), with the clock set back a wait of a millisecond lasts arbitrarily long (C139_late_refuted)."
  },
  {
   "property": "C140",
   "status": "proved",
   "theorems": [
    "C140_atomic",
    "C140_object",
    "C140_returns",
    "C140_guard_needed"
   ],
   "note": "Full: linearizability of whole guarded uses and absence of data races (C140_atomic), the object between uses (C140_object), every use can end (C140_returns). C140_guard_needed: the class does not force its users to take a guard, and without one, or with a shared one for writing, there are data races."
  },
  {
   "property": "C141",
   "status": "partial",
   "theorems": [
    "C141_partial",
    "C141_documented",
    "C141_string_refuted",
    "C141_second_refuted",
    "C141_line_refuted",
    "C141_missing_refuted",
    "C141_semicolon_refuted"
   ],
   "note": "Proved for files with each key once, a number after it, and no semicolon, in any order and with any other text, and for the documented file. Refuted: the string has a v although it is documented without; a second file in the same scope gives its numbers and the old version; a key that ends in the same way takes the place of the right one; a file without a key gives a version without a number and no error; semicolons disappear."
  },
  {
   "property": "C142",
   "status": "partial",
   "theorems": [
    "C142_partial",
    "C142_missing_refuted",
    "C142_directories_refuted",
    "C142_semicolon_refuted",
    "C142_empty_refuted",
    "C142_variable_refuted"
   ],
   "note": "Proved for files that are there, labels that are not empty and without special characters, test names without brackets or backslashes, and no variable with the name of the test. Each of these is needed: refuted for a file that is not there, which drops the labels after it; for labels with a semicolon; for empty labels; for such a variable; and for two directories of a project, the second of which replaces the labels of the first."
  },
  {
   "property": "C143",
   "status": "partial",
   "theorems": [
    "C143_kept",
    "C143_log_given",
    "C143_partial",
    "C143_accepted",
    "C143_docs",
    "C143_log",
    "C143_docs_refuted",
    "C143_log_refuted",
    "C143_log_set_refuted",
    "C143_twice_refuted",
    "C143_rebuild_refuted"
   ],
   "note": "Proved for all options but BUILD_DOCS and LOG_INFO, and what these two are instead. Refuted: BUILD_DOCS follows BUILD_ALL too; LOG_INFO is ON in debug builds; LOG_INFO set by a project is taken away under the old policy CMP0126, so that a second package turns it off; a build that becomes a debug build has no logs, because set(LOG_INFO CACHE BOOL OFF) stores an empty value with OFF as its description."
  },
  {
   "property": "C144",
   "status": "partial",
   "theorems": [
    "C144_text",
    "C144_partial",
    "C144_fixed_zone",
    "C144_sorted_partial",
    "C144_repeated_refuted",
    "C144_sorted_refuted",
    "C144_minus_one_refuted"
   ],
   "note": "Proved: what is read from the text of a timestamp has the same text; it is the same timestamp to the second if the clocks of the zone show its local time once and it is not one second before 1970 in UTC; in a zone without changes each is shown once; texts sort as the local times do. Refuted: an hour that clocks repeat does not survive, whatever mktime does, and its texts do not sort in time order; the second before 1970 is taken for a failure. The zone and mktime are parameters; what the standard says of mktime is a hypothesis."
  },
  {
   "property": "C145",
   "status": "partial",
   "theorems": [
    "C145_paths",
    "C145_target_partial",
    "C145_dependencies",
    "C145_summary_refuted",
    "C145_given_partial",
    "C145_default_partial",
    "C145_accepted",
    "C145_false_refuted",
    "C145_subdirectory_refuted",
    "C145_list_refuted"
   ],
   "note": "Proved: what the file sets is kept unless CMake takes its text for false; what neither the file nor the scope sets has its documented default unless that is a list; a name is enough to succeed. Refuted: texts such as NO are replaced by the default; a package in a subdirectory inherits what its file does not say from the package around it; a summary with a semicolon at its end loses it as the description. Also proved: the default paths of thirdparties, version file and licence, of the target name, and of the dependencies from the list of packages. Refuted: the default of the summary is not the large name, as the documentation says."
  },
  {
   "property": "C146",
   "status": "proved",
   "theorems": [
    "C146_utf8"
   ],
   "note": "Proved, on the model of printUsage of C122 to C125 (short options and a proper end: see the refutations of C122)."
  },
  {
   "property": "C147",
   "status": "partial",
   "theorems": [
    "C147_packages",
    "C147_calls",
    "C147_calls_unique",
    "C147_minimum_partial",
    "C147_minimum_refuted"
   ],
   "note": "Every package is looked for, in order. A minimum version of one or two numbers that is not zero is asked for. A version such as 3.0.0, the documented example, is neither a number nor a variable for the condition of find_external.cmake, so no version is asked for: C147_minimum_refuted. C147_calls says exactly what is asked for when minimum versions are numbers with points between them."
  },
  {
   "property": "C148",
   "status": "partial",
   "theorems": [
    "C148_standard",
    "C148_unforced",
    "C148_flags",
    "C148_sanitizers",
    "C148_defaults",
    "C148_rest",
    "C148_stops",
    "C148_empty_refuted"
   ],
   "note": "The standard, the flags, the defaults, what stays and when it stops are all proved. The documented default of MODULE_CPP_VERSION, the empty text, stops CMake when it is given: C148_empty_refuted."
  },
  {
   "property": "C149",
   "status": "partial",
   "theorems": [
    "C149_entries_partial",
    "C149_runs_partial",
    "C149_once",
    "C149_general",
    "C149_off_refuted",
    "C149_typed_instance_refuted",
    "C149_other_suite_refuted"
   ],
   "note": "Proved for lists that CMake does not take for false. Refuted: a single case whose name is a false constant of CMake, such as no, has no test of its own; instances of tests with type parameters are run by none; a test also runs the cases of the same name of suites whose name begins with its own."
  },
  {
   "property": "C150",
   "status": "partial",
   "theorems": [
    "C150_given",
    "C150_default",
    "C150_license_partial",
    "C150_common",
    "C150_rest",
    "C150_second_package",
    "C150_license_refuted",
    "C150_second_refuted"
   ],
   "note": "Given directories and the documented defaults are proved. The documented default share/ of the license directory is refuted: it is share//NAME, or . on Windows. Refuted also: a second package of the same build has the license directory of the first, because it stays in the cache."
  },
  {
   "property": "C151",
   "status": "partial",
   "theorems": [
    "C151_path_partial",
    "C151_all_partial",
    "C151_returns_partial",
    "C151_interface_refuted",
    "C151_cycle_refuted"
   ],
   "note": "Proved: the path is the directories of the libraries reached through libraries with files, each once, then those of the environment; all of them if interface libraries are linked to nothing; there is a path if no library depends on itself. Refuted: libraries reached only through interface libraries are missing, and with libraries that depend on each other, which CMake admits for static ones, the function has no end."
  },
  {
   "property": "C152",
   "status": "proved",
   "theorems": [
    "C152_disable_returns",
    "C152_thread_ends",
    "C152_runs_end",
    "C152_none_left"
   ],
   "note": "In every reachable state of the pool, with any numbers of clients and of threads and any calls, a client inside disable has a continuation, made only of threads going on with what they are doing, after which its call has returned; each thread of a pool whose queue is disabled has such a continuation to its end. And every such continuation, in any order, is of bounded length, and when no thread can go on no call of disable is left: so disable returns under every schedule that does not stop while a thread can go on. The end of a task is one step, so tasks are assumed to end; a task that disables its own pool never returns, see C126."
  },
  {
   "property": "C153",
   "status": "proved",
   "theorems": [
    "C153_all_executed",
    "C153_wait_returns",
    "C153_emit_returns",
    "C153_not_endless"
   ],
   "note": "A potential decreases with each step of any thread, so that without further calls the threads come to rest in any order. At rest, with a thread of the pool left and the queue enabled, the emitted tasks are those that started and those that ended, and no call of emit, slot or the wait for tasks is left. Tasks are assumed to end, and an exception counts as the end of a task. After disable the queue stays disabled for ever, see C36, and when all threads were ended by exceptions nothing is executed, see C127."
  },
  {
   "property": "C154",
   "status": "proved",
   "theorems": [
    "C154_consume",
    "C154_produce",
    "C154_others",
    "C154_ends"
   ],
   "note": "Proved for every schedule: a potential bounds the number of steps, and the states in which no thread can go on are characterised. blocking_disable and stop_and_continue are left out of the bound only, since their loop waits for the waiting threads to leave (C34)."
  },
  {
   "property": "C155",
   "status": "partial",
   "theorems": [
    "C155_library",
    "C155_tool",
    "C155_given",
    "C155_headers_partial",
    "C155_tests_partial",
    "C155_include_partial",
    "C155_headers_refuted",
    "C155_given_headers_refuted",
    "C155_inherited_refuted",
    "C155_tests_refuted",
    "C155_include_refuted"
   ],
   "note": "Libraries and tools: the sources found are exactly all C and C++ files at any depth, or exactly the given ones. Partial and refuted: the patterns for header files (Visual Studio) and for the sources of tests have two asterisks, which CMake takes as one directory, so files directly in the directory are missing (compile_library.cmake:61-66, test_utils.cmake:23-28); header files given as fourth argument are ignored, the sources are used twice (compile_library.cmake:69); ARGV2 of a calling function is taken for the sources if there is none; include directories of a tool are added to the target named like the project (compile_tool.cmake:61). The order of found files and links are not modelled."
  },
  {
   "property": "C156",
   "status": "partial",
   "theorems": [
    "C156_rest_partial",
    "C156_dispatched_partial",
    "C156_lost_refuted",
    "C156_nested_refuted"
   ],
   "note": "C156_rest_partial: for callbacks that call no function of the manager, bound on the steps of the threads, and at rest every function has returned. C156_dispatched_partial: while the manager lives, all signals are dispatched for fewer than 2^32 signals unless a notification came between the test and the wait. Both restrictions are needed: C156_nested_refuted, C156_lost_refuted."
  },
  {
   "property": "C157",
   "status": "partial",
   "theorems": [
    "C157_rest_partial",
    "C157_called_partial",
    "C157_nested_refuted"
   ],
   "note": "For callbacks that do not use their own handler: bound on the steps of the threads, what holds when none is possible, and the call after a period under every schedule. Refuted without that restriction: a callback that unsets its own handler blocks everybody."
  },
  {
   "property": "C158",
   "status": "partial",
   "theorems": [
    "C158_rest_partial",
    "C158_tight_partial",
    "C158_lost_refuted",
    "C158_removed_refuted"
   ],
   "note": "While the directory is there and for callbacks that do not use their own handler: bound on the steps of the threads; when none is possible everything is done, unless the thread that calls was forgotten in its sleep, which does not happen when nothing comes between its test and its sleep. Refuted without these restrictions: a lost notification, and a removed directory, leave unset_callback blocked for ever."
  },
  {
   "property": "C159",
   "status": "partial",
   "theorems": [
    "C159_in_source",
    "C159_settings_partial",
    "C159_given_partial",
    "C159_read_partial",
    "C159_commit",
    "C159_accepted",
    "C159_number_refuted",
    "C159_numbers_refuted",
    "C159_string_refuted",
    "C159_second_refuted"
   ],
   "note": "Proved: a build in the sources stops; a name and a version file suffice; settings that are not false keep their value but for LOG_INFO, the directories that are always set and the numbers of the version; the version is kept if the version and all numbers are given, and is that of the file if none is; the commit is the given one or that of the source directory of the build. Refuted otherwise: a number given alone is replaced by that of the file; a version given alone disagrees with the numbers; there is no version string if all else is given; a package configured below another one has the version of that one and the commit of the top directory."
  },
  {
   "property": "C160",
   "status": "partial",
   "theorems": [
    "C160_stated",
    "C160_configured",
    "C160_summary_partial",
    "C160_description",
    "C160_license",
    "C160_no_resources",
    "C160_resources_partial",
    "C160_accepted",
    "C160_rest",
    "C160_summary_refuted",
    "C160_absolute_refuted",
    "C160_empty_refuted",
    "C160_two_refuted"
   ],
   "note": "Proved: name, version and numbers, description, licence, resources with a relative path of one element, no other variables; the version of the version file for a configured package. Refuted: the summary of the module is not used, so that of the package is empty; an absolute path of resources; an empty path stops CMake; of two paths the second is taken as the destination."
  },
  {
   "property": "C161",
   "status": "partial",
   "theorems": [
    "C161_library",
    "C161_tool",
    "C161_tests",
    "C161_documentation",
    "C161_accepted",
    "C161_no_library_refuted",
    "C161_all_refuted",
    "C161_nothing_refuted"
   ],
   "note": "Proved for options that are ON or OFF if given. Refuted: tests of a library that is not built are left out; BUILD_ALL ON builds everything (it builds no tests); BUILD_ALL OFF (documented as: build package) leaves the library out. The search for GoogleTest and Sphinx is not modelled."
  },
  {
   "property": "C162",
   "status": "partial",
   "theorems": [
    "C162_api",
    "C162_errors",
    "C162_linked",
    "C162_built_partial",
    "C162_built_refuted",
    "C162_inside",
    "C162_other_compilers",
    "C162_again",
    "C162_version",
    "C162_two_refuted",
    "C162_all_refuted",
    "C162_user_export_refuted"
   ],
   "note": "Proved for all macros defined before: exported or imported, errors, what is linked; for CMake builds the file is that of the library with Release and Debug. Refuted: MinSizeRel and RelWithDebInfo are linked with a file that does not exist; of two libraries only the first is linked (the guard of eProsima_auto_link.h is common to all modules); EPROSIMA_ALL_DYN_LINK with EPROSIMA_ALL_STATIC_LINK is no error; EPROSIMA_USER_DLL_EXPORT, that CMake defines, is not the macro that the header tests."
  },
  {
   "property": "C163",
   "status": "partial",
   "theorems": [
    "C163_xfail_partial",
    "C163_xtsan_partial",
    "C163_errors",
    "C163_no_file",
    "C163_both_refuted",
    "C163_kept_refuted"
   ],
   "note": "Proved for lines that are empty or have no characters special in lists: the label, the other tests, errors. Refuted: the label replaces those a test has, so a test of both lists has only the last label."
  }
 ]
}