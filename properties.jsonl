{"id": "C01", "title": "replace_all removes every occurrence and always returns", "statement": "replace_all(st, a, b) always returns; on return st contains no occurrence of a, was obtained from the original only by substituting leftmost occurrences of a by b, and the returned number is how many substitutions were made.", "quantifier": "every subject string, every search string and every replacement string", "why_tests_cant": "The loop rescans from the start after every substitution, so termination depends on how a and b overlap; no finite set of strings covers that.", "anchors": ["cpp_utils/src/cpp/utils.cpp: replace_first", "cpp_utils/src/cpp/utils.cpp: replace_all"]}
{"id": "C02", "title": "split_string is an exact inverse of joining", "statement": "For a non-empty delimiter, split_string returns at least one piece, no piece contains the delimiter, and joining the pieces with the delimiter gives back the source; with several delimiters no piece contains any of them. The call returns for every delimiter.", "quantifier": "every source string and every delimiter (or finite set of delimiters)", "why_tests_cant": "Unbounded strings, overlapping self-similar delimiters and empty delimiters.", "anchors": ["cpp_utils/src/cpp/utils.cpp: split_string (both overloads)"]}
{"id": "C03", "title": "strip_str deletes exactly the undesired strings", "statement": "After strip_str with the default set the string is the original without its newline and carriage-return characters, everything else kept in order. For any set of non-empty undesired strings the result contains none of them.", "quantifier": "every string and every set of undesired strings", "why_tests_cant": "Deleting one string can create an occurrence of another; only a proof or a counterexample over all sets settles it.", "anchors": ["cpp_utils/src/cpp/utils.cpp: strip_str", "cpp_utils/include/cpp_utils/utils.hpp: strip_str default argument"]}
{"id": "C04", "title": "base64 round trip", "statement": "base64_decode(base64_encode(s)) = s.", "quantifier": "every byte string of every length", "why_tests_cant": "Needs every byte value at every position modulo 3 and every length, with an accumulator that overflows on long inputs.", "anchors": ["cpp_utils/src/cpp/utils.cpp: base64_encode", "cpp_utils/src/cpp/utils.cpp: base64_decode"]}
{"id": "C05", "title": "base64_encode produces RFC 4648 base64", "statement": "The output of base64_encode is the RFC 4648 encoding: the bit string of the input cut in groups of six bits, zero padded, translated through the standard alphabet and padded with '=' to a multiple of four characters.", "quantifier": "every byte string", "why_tests_cant": "Conformance over all inputs; tests only compare a few vectors.", "anchors": ["cpp_utils/src/cpp/utils.cpp: base64_encode", "cpp_utils/include/cpp_utils/utils.hpp: base64 alphabet"]}
{"id": "C06", "title": "base64_decode ignores everything after the first non-alphabet character", "statement": "base64_decode depends only on the longest prefix of alphabet characters, and yields exactly floor(6k/8) bytes for a prefix of k characters.", "quantifier": "every byte string, valid or garbage", "why_tests_cant": "Total behaviour on malformed inputs of all lengths.", "anchors": ["cpp_utils/src/cpp/utils.cpp: base64_decode"]}
{"id": "C07", "title": "fast_module and fast_division agree with % and /", "statement": "For a non-zero divisor fast_module(a,b)=a mod b and fast_division(a,b)=a div b; for a zero divisor the call is outside its contract (assertion, undefined when assertions are disabled and a is at least b).", "quantifier": "all pairs of 32-bit unsigned integers", "why_tests_cant": "2^64 input pairs with five separately optimised branches.", "anchors": ["cpp_utils/src/cpp/math/math_extension.cpp: is_even, is_power_of_2, fast_module, fast_division"]}
{"id": "C08", "title": "fast_exponential is exponentiation modulo 2^32", "statement": "fast_exponential(b,e) equals b to the power e reduced modulo 2^32, hence the exact power whenever it fits.", "quantifier": "all pairs of 32-bit unsigned integers", "why_tests_cant": "2^64 input pairs, recursion on the exponent.", "anchors": ["cpp_utils/src/cpp/math/math_extension.cpp: fast_exponential"]}
{"id": "C09", "title": "arithmetic_progression_sum is the sum of the progression", "statement": "arithmetic_progression_sum(l,i,n) is l+(l+i)+...+(l+(n-1)i) whenever that sum fits in an unsigned int.", "quantifier": "all triples of 32-bit unsigned integers whose progression sum fits", "why_tests_cant": "The intermediate doubled value can wrap although the sum fits; only visible on large operands.", "anchors": ["cpp_utils/src/cpp/math/math_extension.cpp: arithmetic_progression_sum"]}
{"id": "C10", "title": "number_trailing_zeros_format pads to the requested width or rejects", "statement": "number_trailing_zeros_format(v,n,allow_more) returns the decimal text of v left-filled with zeros up to n characters; when allow_more is false it throws exactly when v needs more than n characters; it never divides by zero.", "quantifier": "every int v, every unsigned n, both flags", "why_tests_cant": "The check is computed in wrapping unsigned arithmetic; failures need negative values or widths of ten and more.", "anchors": ["cpp_utils/src/cpp/utils.cpp: number_trailing_zeros_format"]}
{"id": "C11", "title": "case conversion is idempotent and only touches letters", "statement": "to_lowercase/to_uppercase keep the length and every non-letter byte, map each ASCII letter to its lower/upper case, are idempotent and cancel each other.", "quantifier": "every byte string (C locale)", "why_tests_cant": "All byte values and lengths.", "anchors": ["cpp_utils/src/cpp/utils.cpp: to_lowercase, to_uppercase"]}
{"id": "C12", "title": "to_bytes computes number times unit or throws", "statement": "to_bytes(text) returns the exact number of bytes denoted by '<number><unit>' and throws std::invalid_argument if the text is malformed, the unit unknown or the amount does not fit in 64 bits.", "quantifier": "every string", "why_tests_cant": "The computation goes through double precision; the failing values are isolated rounding and boundary cases.", "anchors": ["cpp_utils/src/cpp/utils.cpp: to_bytes"]}
{"id": "C13", "title": "from_bytes names the amount of bytes", "statement": "from_bytes(n) prints n exactly when n is below 1000 or a multiple of the unit, picks the largest unit not above n, and otherwise prints a two-decimal approximation of n divided by the unit.", "quantifier": "every 64-bit unsigned amount", "why_tests_cant": "2^64 values and rounding at every unit boundary.", "anchors": ["cpp_utils/src/cpp/utils.cpp: from_bytes"]}
{"id": "C14", "title": "ROS topic names survive mangling and demangling", "statement": "For a topic name beginning with '/', demangle_if_ros_topic(mangle_if_ros_topic(t)) = t; names that are not ROS names are left unchanged by both; adding then removing a prefix is the identity on names beginning with '/'.", "quantifier": "every string", "why_tests_cant": "Unbounded names, including names that already look mangled.", "anchors": ["cpp_utils/src/cpp/ros2_mangling.cpp: mangle_if_ros_topic, demangle_if_ros_topic, remove_prefix, add_prefix, get_ros_prefix_if_exists, remove_ros_prefix_if_exists"]}
{"id": "C15", "title": "ROS type names survive mangling and demangling", "statement": "For every ROS 2 message type 'pkg/msg/Type', demangle_if_ros_type(mangle_if_ros_type(t)) = t, the mangled form is 'pkg::msg::dds_::Type_', and non-ROS type names are unchanged. No call has undefined behaviour.", "quantifier": "every type string", "why_tests_cant": "Substring searches over unbounded names, empty input, names already containing the markers.", "anchors": ["cpp_utils/src/cpp/ros2_mangling.cpp: mangle_if_ros_type, demangle_if_ros_type"]}
{"id": "C16", "title": "ROS service topics survive mangling and demangling", "statement": "For every service name beginning with '/', demangling the request (reply) topic built from it gives it back; request topics are never demangled as replies and vice versa.", "quantifier": "every service name, including nested namespaces", "why_tests_cant": "Unbounded names; names that themselves end in Request or Reply.", "anchors": ["cpp_utils/src/cpp/ros2_mangling.cpp: mangle_ros_service_in_topic, demangle_ros_service_prefix_from_topic, mangle_ros_service_request_prefix_in_topic, mangle_ros_service_reply_prefix_in_topic"]}
{"id": "C17", "title": "ROS service types are demangled to their ROS 2 name or rejected", "statement": "demangle_service_type_only maps 'ns::srv::dds_::Type_Request_' and '..._Response_' to 'ns/srv/Type' and returns the empty string for every name without such a suffix at its end.", "quantifier": "every type string", "why_tests_cant": "Misplaced markers in unbounded strings.", "anchors": ["cpp_utils/src/cpp/ros2_mangling.cpp: demangle_service_type_only, mangle_service_type_only"]}
{"id": "C18", "title": "Browsing the command history is always memory safe", "statement": "Any sequence of add_command, get_previous_command and get_next_command calls on a fresh history accesses only stored commands.", "quantifier": "every finite sequence of calls", "why_tests_cant": "The index starts at the maximum size_t and wraps; the failing sequences are on an empty history.", "anchors": ["cpp_utils/src/cpp/history/CommandHistoryHandler.cpp"]}
{"id": "C19", "title": "The command history behaves like a list with a cursor", "statement": "Once a command was added, previous/next move a cursor over the stored commands oldest to newest, one step per call, saturating at both ends; adding a command puts the cursor after the newest; next past the newest returns an empty line; empty commands are not stored.", "quantifier": "every finite sequence of calls", "why_tests_cant": "Unbounded call sequences.", "anchors": ["cpp_utils/src/cpp/history/CommandHistoryHandler.cpp"]}
{"id": "C20", "title": "The interactive line editor keeps a consistent cursor and delivers what is displayed", "statement": "For every sequence of key strokes the cursor stays inside the line; printable characters, backspace, delete, arrows, Home and End act as on a text with a cursor; Enter delivers exactly the edited line.", "quantifier": "every finite byte sequence typed", "why_tests_cant": "Unbounded key sequences including partial escape sequences.", "anchors": ["cpp_utils/src/cpp/event/StdinEventHandler.cpp: stdin_listener_thread_routine_"]}
{"id": "C21", "title": "Quoted command arguments are read back as single arguments", "statement": "A command line written as arguments separated by single spaces, where any argument may be put between double quotes, is parsed back into those arguments.", "quantifier": "every list of arguments without double quotes", "why_tests_cant": "Arguments with leading, trailing and repeated spaces, empty arguments.", "anchors": ["cpp_utils/include/cpp_utils/user_interface/impl/CommandReader.ipp: join_quoted_strings, read_next_command"]}
{"id": "C22", "title": "PausableTimer measures exactly the time spent playing", "statement": "elapsed() is the total length of the intervals in which the timer was playing since the last reset, whatever the interleaving of play, pause, reset and elapsed calls.", "quantifier": "every finite sequence of timestamped calls with a non-decreasing clock", "why_tests_cant": "Unbounded call sequences at arbitrary times.", "anchors": ["cpp_utils/src/cpp/time/Timer.cpp", "cpp_utils/src/cpp/time/PausableTimer.cpp"]}
{"id": "C23", "title": "Fuzzy equality follows its documentation", "statement": "Two Fuzzy values are equal when both are invalid, or when both are set and hold equal values; equality is an equivalence relation and != is its negation.", "quantifier": "all pairs of Fuzzy values at all levels", "why_tests_cant": "All level combinations, including levels between the named ones.", "anchors": ["cpp_utils/include/cpp_utils/types/impl/Fuzzy.ipp", "cpp_utils/include/cpp_utils/types/Fuzzy.hpp"]}
{"id": "C24", "title": "The log configuration keeps the strongest latest setting", "statement": "After any sequence of settings the verbosity (and each filter) is the most recent one among those of the highest fuzzy level.", "quantifier": "every finite sequence of settings", "why_tests_cant": "Unbounded sequences and all level orders.", "anchors": ["cpp_utils/src/cpp/logging/BaseLogConfiguration.cpp"]}
{"id": "C25", "title": "Builder finds the value registered for each key", "statement": "Builder lookup of a key returns the value whose alias set contains it, throws for unregistered keys, and for keys registered by several values returns the last of them in order.", "quantifier": "every set of values with aliases and every key", "why_tests_cant": "Arbitrary overlapping alias sets.", "anchors": ["cpp_utils/include/cpp_utils/types/impl/Builder.ipp"]}
{"id": "C26", "title": "Enumeration text conversion round trips", "statement": "For an enumeration generated by the macro, from_string(to_string(e)) = e, to_string(from_string(s)) = s whenever s is accepted, and every string that is not an enumerator name is rejected.", "quantifier": "every enumeration with distinct names, every enumerator and every string", "why_tests_cant": "Holds for all enumerations, not only the ones instantiated in tests.", "anchors": ["cpp_utils/include/cpp_utils/macros/custom_enumeration.hpp", "cpp_utils/include/cpp_utils/enum/impl/EnumBuilder.ipp"]}
{"id": "C27", "title": "Tree reports its depth and all its nodes", "statement": "depth() is the length of the longest path from the node to a leaf; all_nodes() lists every descendant exactly once; leaf() holds exactly when there are no descendants.", "quantifier": "every finite tree", "why_tests_cant": "Unbounded trees.", "anchors": ["cpp_utils/include/cpp_utils/types/impl/Tree.ipp"]}
{"id": "C28", "title": "are_set_of_ptr_equal decides equality of the pointed values", "statement": "are_set_of_ptr_equal(a,b) holds exactly when a and b point to the same collection of values; in particular it is symmetric.", "quantifier": "all pairs of finite sets of pointers", "why_tests_cant": "Needs sets with repeated pointed values, which tests do not contain.", "anchors": ["cpp_utils/include/cpp_utils/impl/utils.ipp: set_of_ptr_contains, are_set_of_ptr_equal"]}
{"id": "C29", "title": "Produced elements are consumed exactly once, in order", "statement": "With any number of producers and consumers, the elements returned by consume(), in the order in which they were taken, are a prefix of the elements produced in the order in which they entered the queue: none lost, duplicated or reordered, also across disable/enable and time outs.", "quantifier": "every interleaving of every number of producer, consumer and enabling/disabling threads", "why_tests_cant": "Schedule-dependent behaviour of a double buffered queue.", "anchors": ["cpp_utils/include/cpp_utils/wait/impl/ConsumerWaitHandler.ipp", "cpp_utils/include/cpp_utils/wait/impl/DBQueueWaitHandler.ipp", "cpp_utils/include/cpp_utils/queue/DBQueue.hpp"]}
{"id": "C30", "title": "consume() never finds an empty queue", "statement": "A thread whose consume() was granted an element always gets one: the internal inconsistency exception is never thrown.", "quantifier": "every interleaving of producers and consumers, every initial value the constructor accepts", "why_tests_cant": "Schedule-dependent; the constructor also accepts an initial counter with nothing queued.", "anchors": ["cpp_utils/include/cpp_utils/wait/impl/DBQueueWaitHandler.ipp", "cpp_utils/src/cpp/wait/CounterWaitHandler.cpp"]}
{"id": "C31", "title": "wait() reports the true reason it returned", "statement": "wait returns condition_met only if the handler was enabled and the condition held at that moment, disabled only if the handler was disabled, and timeout only if it was enabled and the condition did not hold at the deadline; with no time out it never returns timeout.", "quantifier": "every interleaving of waiters, writers, enablers and disablers, every condition", "why_tests_cant": "Schedule-dependent.", "anchors": ["cpp_utils/include/cpp_utils/wait/impl/WaitHandler.ipp: blocking_wait_, wait"]}
{"id": "C32", "title": "blocking_disable leaves no waiting thread behind", "statement": "When blocking_disable returns, the handler is disabled and no thread that was waiting is still inside a wait.", "quantifier": "every interleaving", "why_tests_cant": "Schedule-dependent.", "anchors": ["cpp_utils/include/cpp_utils/wait/impl/WaitHandler.ipp: disable, blocking_disable"]}
{"id": "C33", "title": "No wake-up is lost", "statement": "In every reachable state, a thread sleeping in wait with nobody about to notify it has its condition unsatisfied and the handler enabled; for counters, if units are available some waiter is awake or about to be woken.", "quantifier": "every interleaving of waiters, increments, value changes and disables", "why_tests_cant": "Lost wake-ups appear only under specific schedules.", "anchors": ["cpp_utils/include/cpp_utils/wait/impl/WaitHandler.ipp", "cpp_utils/src/cpp/wait/CounterWaitHandler.cpp", "cpp_utils/src/cpp/wait/IntWaitHandler.cpp"]}
{"id": "C34", "title": "Disabling wakes every kind of waiter", "statement": "disable() and blocking_disable() wake threads waiting for a threshold (wait_threshold_reached / wait_all_consumed) too, so blocking_disable and destruction terminate.", "quantifier": "every interleaving", "why_tests_cant": "A hang only occurs under one schedule and cannot be observed in finite time.", "anchors": ["cpp_utils/src/cpp/wait/CounterWaitHandler.cpp: wait_threshold_reached", "cpp_utils/include/cpp_utils/wait/impl/WaitHandler.ipp: disable, blocking_disable"]}
{"id": "C35", "title": "The slot thread pool runs each emitted task at most once and only registered slots", "statement": "Every task executed by the pool was emitted, a task emitted k times is executed at most k times, tasks start in emission order, and the unreachable-code abort is never hit.", "quantifier": "every interleaving of emitters, slot registrations, pool threads, enable and disable", "why_tests_cant": "Schedule-dependent.", "anchors": ["cpp_utils/src/cpp/thread_pool/pool/SlotThreadPool.cpp"]}
{"id": "C36", "title": "A thread pool that is disabled and enabled again runs tasks", "statement": "After disable() and enable(), emitted tasks are executed as before.", "quantifier": "every history of enable, disable and emit", "why_tests_cant": "The pool looks enabled; only non-execution over unbounded time shows.", "anchors": ["cpp_utils/src/cpp/thread_pool/pool/SlotThreadPool.cpp: enable, disable, thread_routine_"]}
{"id": "C37", "title": "wait_all_consumed returns after all emitted tasks were executed", "statement": "When wait_all_consumed reports success every task emitted before was executed.", "quantifier": "every interleaving", "why_tests_cant": "Schedule-dependent.", "anchors": ["cpp_utils/src/cpp/thread_pool/pool/SlotThreadPool.cpp: wait_all_consumed", "cpp_utils/include/cpp_utils/wait/impl/ConsumerWaitHandler.ipp: wait_all_consumed"]}
{"id": "C38", "title": "SafeDatabase operations behave like atomic map operations", "statement": "Any concurrent history of add, modify, add_or_modify, erase, is, at and size is equivalent to running the same operations one at a time on an ordinary map; readers never observe a partial update.", "quantifier": "every interleaving of any number of threads", "why_tests_cant": "Schedule-dependent.", "anchors": ["cpp_utils/include/cpp_utils/collection/database/impl/SafeDatabase.ipp"]}
{"id": "C39", "title": "While a database iterator is alive the database does not change", "statement": "From the moment begin/end/find returns an iterator until its destruction no modification of the database takes place and the iterator stays valid; iterators can be copied.", "quantifier": "every interleaving of readers and writers", "why_tests_cant": "A race window between obtaining the position and taking the lock.", "anchors": ["cpp_utils/include/cpp_utils/collection/database/impl/SafeDatabase.ipp: begin, find, SafeDatabaseIterator"]}
{"id": "C40", "title": "The object pool never hands the same object to two users", "statement": "Objects on loan are pairwise distinct and distinct from the free ones; the number of objects reserved is the number of free plus loaned ones; a loan never fails; returning more objects than loaned is rejected.", "quantifier": "every finite sequence of loans and returns", "why_tests_cant": "Unbounded sequences; misuse such as returning twice.", "anchors": ["cpp_utils/include/cpp_utils/pool/impl/UnboundedPool.ipp"]}
{"id": "C41", "title": "A guarded pointer keeps the data alive and the data is destroyed exactly once", "statement": "While a guard obtained from a lessee exists, the data is not destroyed; the data is destroyed exactly once; after reset, lessees obtain nothing.", "quantifier": "every interleaving of owners, lessees and guards", "why_tests_cant": "Schedule-dependent.", "anchors": ["cpp_utils/include/cpp_utils/memory/impl/InternalPtrData.ipp", "cpp_utils/include/cpp_utils/memory/impl/OwnerPtr.ipp", "cpp_utils/include/cpp_utils/memory/impl/LesseePtr.ipp", "cpp_utils/include/cpp_utils/memory/impl/GuardedPtr.ipp"]}
{"id": "C42", "title": "Calling through a lessee with -> is safe", "statement": "As documented, data is not destroyed while a method called through lessee->method() is running.", "quantifier": "every interleaving of a caller and the owner", "why_tests_cant": "Schedule-dependent use after free.", "anchors": ["cpp_utils/include/cpp_utils/memory/impl/LesseePtr.ipp: operator->, operator*"]}
{"id": "C43", "title": "Guards release their lock", "statement": "Once all guards on some data are gone (destroyed, moved or assigned over) the owner can release the data.", "quantifier": "every sequence of lock, move, move-assignment and destruction of guards", "why_tests_cant": "Requires assigning over a live guard; a hang is not observable in finite time.", "anchors": ["cpp_utils/include/cpp_utils/memory/impl/GuardedPtr.hpp", "cpp_utils/include/cpp_utils/memory/impl/GuardedPtr.ipp"]}
{"id": "C44", "title": "The event count is the number of callback invocations", "statement": "At any time event_count() equals the number of callback invocations since the last reset minus the granted decrements; events arriving without callback are not counted.", "quantifier": "every interleaving of events, set, unset, reset and decrement", "why_tests_cant": "Schedule-dependent.", "anchors": ["cpp_utils/include/cpp_utils/event/impl/EventHandler.ipp"]}
{"id": "C45", "title": "No callback runs after unset_callback returned, and no waiter stays blocked", "statement": "When unset_callback returns, the callback is neither running nor will be run again, and every thread blocked in wait_for_event was released.", "quantifier": "every interleaving", "why_tests_cant": "Schedule-dependent.", "anchors": ["cpp_utils/include/cpp_utils/event/impl/EventHandler.ipp: unset_callback, awake_all_waiting_threads_nts_"]}
{"id": "C46", "title": "wait_for_event tells whether the events happened", "statement": "wait_for_event(n) returns true if n events were counted, and returns false only if the callback was unset.", "quantifier": "every interleaving of events, waiters, unset and reset", "why_tests_cant": "Schedule-dependent.", "anchors": ["cpp_utils/include/cpp_utils/event/impl/EventHandler.ipp: wait_for_event"]}
{"id": "C47", "title": "Every signal reaches every registered callback once", "statement": "Each received signal is dispatched exactly once to all callbacks registered at dispatch time; registration identifiers are never reused while alive.", "quantifier": "every interleaving of signals, registrations and unregistrations", "why_tests_cant": "Asynchronous signals and schedules.", "anchors": ["cpp_utils/include/cpp_utils/event/impl/SignalManager.ipp", "cpp_utils/include/cpp_utils/event/impl/SignalEventHandler.ipp"]}
{"id": "C48", "title": "A multiple event handler counts the events of all its handlers", "statement": "The count of a multiple event handler is the sum of the events raised by its registered handlers while its callback was set.", "quantifier": "every interleaving of events of any number of handlers", "why_tests_cant": "Unbounded number of handlers and events.", "anchors": ["cpp_utils/src/cpp/event/MultipleEventHandler.cpp", "cpp_utils/include/cpp_utils/event/impl/MultipleEventHandler.ipp"]}
{"id": "C49", "title": "Random numbers are reproducible", "statement": "seeded_rand depends only on its seed; the sequence produced by sequence_rand depends only on the last seed and the number of calls since, however other kinds of random numbers are drawn in between or by which threads.", "quantifier": "every interleaving of calls", "why_tests_cant": "Unbounded call histories.", "anchors": ["cpp_utils/src/cpp/math/random/RandomManager.cpp", "cpp_utils/src/cpp/math/random/TSafeRandomManager.cpp"]}
{"id": "C50", "title": "Singletons are initialised once and shared", "statement": "All calls obtain the same instance; a safe initialisable singleton keeps its first initialisation, later ones report failure and change nothing.", "quantifier": "every interleaving of initialisations and accesses", "why_tests_cant": "Schedule-dependent.", "anchors": ["cpp_utils/include/cpp_utils/types/impl/SafeInitializableSingleton.ipp", "cpp_utils/include/cpp_utils/types/impl/InitializableSingleton.ipp"]}
{"id": "C51", "title": "Return codes form a faithful total order", "statement": "Return codes built from every middleware code keep equality and order of the codes; exactly OK converts to success; every code prints a name.", "quantifier": "all return codes", "why_tests_cant": "Completeness of a table against all codes.", "anchors": ["cpp_utils/src/cpp/ReturnCode.cpp"]}
{"id": "C52", "title": "Log consumers accept exactly the configured entries", "statement": "An entry is accepted when its severity is at least the verbosity and the filter of its severity matches its category or message; severe log handlers fire for exactly the entries at or above their threshold.", "quantifier": "every entry and configuration", "why_tests_cant": "All kinds, filters and thresholds.", "anchors": ["cpp_utils/src/cpp/logging/BaseLogConsumer.cpp", "cpp_utils/src/cpp/event/logging/LogSevereEventHandler.cpp"]}
{"id": "C53", "title": "Text built with Formatter is what was streamed", "statement": "The text of a Formatter is the concatenation of everything streamed into it.", "quantifier": "every sequence of streamed values", "why_tests_cant": "Values with embedded NUL characters.", "anchors": ["cpp_utils/src/cpp/Formatter.cpp", "cpp_utils/include/cpp_utils/impl/Formatter.ipp"]}
{"id": "C54", "title": "Reading a file as lines loses nothing but line ends", "statement": "file_to_strings returns the lines of the file in order (minus empty ones if requested); file_to_string returns the same text with every line terminated by a newline.", "quantifier": "every file content and flag combination", "why_tests_cant": "Missing final newline, carriage returns, empty lines, arbitrary bytes.", "anchors": ["cpp_utils/src/cpp/file/file_utils.cpp"]}
{"id": "C55", "title": "Timestamps survive conversion to text and back", "statement": "string_to_timestamp(timestamp_to_string(t)) = t for every whole-second timestamp in years 0-9999 with the default format, and date_to_timestamp agrees with the calendar.", "quantifier": "every second of every year", "why_tests_cant": "Leap years, epochs, the instant encoded as -1.", "anchors": ["cpp_utils/src/cpp/time/time_utils.cpp"]}
{"id": "C56", "title": "Task identifiers are unique", "statement": "new_unique_task_id never returns an identifier twice (up to exhaustion of the type).", "quantifier": "every interleaving of callers", "why_tests_cant": "Unbounded number of callers.", "anchors": ["cpp_utils/src/cpp/thread_pool/task/TaskId.cpp"]}
{"id": "C57", "title": "A started file watcher watches", "statement": "After the callback is set, either the file is being watched or the failure was reported.", "quantifier": "every outcome of creating the watch", "why_tests_cant": "Needs the operating system to refuse a watch.", "anchors": ["cpp_utils/src/cpp/event/FileWatcherHandler.cpp: start_filewatcher_nts_"]}
{"id": "C58", "title": "Destroying a log event handler is safe while logs are written", "statement": "No log entry is stored in a log event handler after its storage was destroyed.", "quantifier": "every interleaving of logging threads and the destructor", "why_tests_cant": "Destruction order race.", "anchors": ["cpp_utils/src/cpp/event/logging/LogEventHandler.cpp", "cpp_utils/include/cpp_utils/event/LogEventHandler.hpp", "cpp_utils/src/cpp/event/logging/LogConsumerConnection.cpp"]}
{"id": "C59", "title": "Log checking bounds the number of entries", "statement": "A log checker is valid exactly when the number of matching entries lies between the expected and the maximum number.", "quantifier": "all expected, maximum and actual numbers", "why_tests_cant": "All triples.", "anchors": ["cpp_utils/src/cpp/testing/LogChecker.cpp"]}
{"id": "C60", "title": "Container printing is unambiguous in structure", "statement": "container_to_stream writes an opening brace, the elements in order separated by the separator, and a closing brace; QoS masks print as the comma separated names of exactly the policies in the mask, in order.", "quantifier": "every container and separator, every mask", "why_tests_cant": "All sizes.", "anchors": ["cpp_utils/include/cpp_utils/impl/utils.ipp: container_to_stream", "cpp_utils/src/cpp/qos/qos_utils.cpp"]}
{"id": "C61", "title": "Encoding uses only defined integer operations", "statement": "base64_encode performs only operations that the C++11/14/17 standards define.", "quantifier": "every byte string", "why_tests_cant": "The signed accumulator overflows on longer inputs; compilers usually wrap so tests pass.", "anchors": ["cpp_utils/src/cpp/utils.cpp: base64_encode"]}
{"id": "C62", "title": "elements_ready_to_consume counts the elements left", "statement": "When no call is in progress, elements_ready_to_consume is the number of elements produced minus the number consumed.", "quantifier": "every history of produce, consume, enable and disable by any number of threads, in any interleaving", "why_tests_cant": "Unbounded histories and interleavings.", "anchors": ["cpp_utils/include/cpp_utils/wait/impl/ConsumerWaitHandler.ipp", "cpp_utils/include/cpp_utils/wait/impl/DBQueueWaitHandler.ipp"]}
{"id": "C63", "title": "A Fuzzy value holds what was last set", "statement": "After any sequence of set_value, set_level and unset, the value is the one last set (unset and set_level keep it), the level is the one last given, and an unset value is neither valid nor set nor equal to any plain value.", "quantifier": "every history of calls on every Fuzzy type", "why_tests_cant": "Unbounded histories.", "anchors": ["cpp_utils/include/cpp_utils/types/impl/Fuzzy.ipp: unset, set_value, set_level"]}
{"id": "C64", "title": "add_branch adds exactly one branch", "statement": "add_branch keeps the information and the branches of the node, puts the new branch last, and adds to the descendants exactly the branch and its own descendants.", "quantifier": "every finite tree and branch", "why_tests_cant": "Unbounded trees.", "anchors": ["cpp_utils/include/cpp_utils/types/impl/Tree.ipp: add_branch"]}
{"id": "C65", "title": "The texts of timestamps sort in time order", "statement": "With the default format, the text of an earlier second is lexicographically smaller than the text of a later one.", "quantifier": "every pair of timestamps the clock can represent", "why_tests_cant": "Pairs of 64-bit values across every calendar boundary.", "anchors": ["cpp_utils/src/cpp/time/time_utils.cpp: timestamp_to_string"]}
{"id": "C66", "title": "time_to_timestamp gives a time of the current day", "statement": "time_to_timestamp(h, m, s) is the timestamp of the current UTC date at h:m:s.", "quantifier": "every current time and time of the day", "why_tests_cant": "The current time is not controlled by a test.", "anchors": ["cpp_utils/src/cpp/time/time_utils.cpp: time_to_timestamp"]}
{"id": "C67", "title": "The text of a timestamp names the second it is in", "statement": "timestamp_to_string(x) is the text of the whole second n with n <= x < n + 1s.", "quantifier": "every timestamp, with fractions of a second, before and after 1970", "why_tests_cant": "Rounding direction differs only for negative fractional values.", "anchors": ["cpp_utils/src/cpp/time/time_utils.cpp: timestamp_to_string"]}
{"id": "C68", "title": "A text that names no date is rejected", "statement": "string_to_timestamp throws for every text that is not exactly a date of the calendar in the given format.", "quantifier": "every text", "why_tests_cant": "Infinitely many malformed texts.", "anchors": ["cpp_utils/src/cpp/time/time_utils.cpp: string_to_timestamp"]}
{"id": "C69", "title": "Disabling a thread pool waits for its threads", "statement": "When disable() of a thread pool returns, no task is being executed, every task that started has ended, and none starts before enable() is called again.", "quantifier": "every number of client and pool threads, every schedule, every sequence of emit, slot, enable, disable and wait calls", "why_tests_cant": "Whether a task is still running after disable() depends on the schedule.", "anchors": ["cpp_utils/src/cpp/thread_pool/pool/SlotThreadPool.cpp: disable, thread_routine_"]}
{"id": "C70", "title": "After unregister_callback returns the callback is neither running nor called again", "statement": "When SignalManager::unregister_callback(id) returns, no registered callback is being executed by the manager and the callback of id is not called afterwards; whatever the manager calls is registered at that time.", "quantifier": "every number of threads, every interleaving of signals, registrations and unregistrations", "why_tests_cant": "A callback that runs after its unregistration uses destroyed objects only in rare schedules.", "anchors": ["cpp_utils/include/cpp_utils/event/impl/SignalManager.ipp: unregister_callback, signal_handler_routine_"]}
{"id": "C71", "title": "Destroying the signal manager stops its thread", "statement": "When the destructor of SignalManager returns its thread has ended, and the destructor never waits for a thread that sleeps without anybody to wake it.", "quantifier": "every schedule of the destructor, the thread of the manager, signals and other threads", "why_tests_cant": "A lost notification blocks the destructor only in a window of a few instructions.", "anchors": ["cpp_utils/include/cpp_utils/event/impl/SignalManager.ipp: ~SignalManager, signal_handler_thread_routine_"]}
{"id": "C72", "title": "A signal handler is registered exactly while its callback is set", "statement": "When no set_callback or unset_callback of a SignalEventHandler is in progress, it is registered in the manager exactly once if the last of them was set_callback and not registered otherwise; none of them throws; when unset_callback returns the callback is not running and is not called until it is set again.", "quantifier": "every number of signal handlers, threads and calls, every schedule", "why_tests_cant": "The flags and the table of the manager are changed by different threads under different mutexes.", "anchors": ["cpp_utils/include/cpp_utils/event/impl/SignalEventHandler.ipp", "cpp_utils/include/cpp_utils/event/impl/SignalManager.ipp"]}
{"id": "C73", "title": "Signal handling does not deadlock", "statement": "As long as a thread is inside a function of the signal manager or of a signal handler, some thread can go on, whatever the callbacks do.", "quantifier": "every number of threads, signal handlers and callbacks, every schedule", "why_tests_cant": "Four mutexes and a join are involved; a deadlock needs a particular schedule.", "anchors": ["cpp_utils/include/cpp_utils/event/impl/SignalManager.ipp", "cpp_utils/include/cpp_utils/event/impl/SignalEventHandler.ipp", "cpp_utils/include/cpp_utils/event/impl/EventHandler.ipp"]}
{"id": "C74", "title": "A periodic event handler has one thread exactly while its callback is set", "statement": "The thread of a periodic event handler is started only when there is none and joined only when there is one; the callback is called only while set; when unset_callback returns the callback is not running and the thread has ended; set_callback and unset_callback always return; once set the callback is called again and again.", "quantifier": "every period, number of threads and sequence of calls, every schedule and passing of time", "why_tests_cant": "The thread sleeps on a condition variable and is stopped by another; a lost notification or a second thread appear only in particular schedules.", "anchors": ["cpp_utils/src/cpp/event/PeriodicEventHandler.cpp", "cpp_utils/include/cpp_utils/event/impl/EventHandler.ipp"]}
{"id": "C75", "title": "A periodic event handler calls its callback each period", "statement": "The callback of a periodic event handler is called once per period after it is set, and never sooner; a period of zero is rejected.", "quantifier": "every period, schedule, passing of time and duration of the callback", "why_tests_cant": "Drift depends on how long callbacks take and on the scheduler.", "anchors": ["cpp_utils/src/cpp/event/PeriodicEventHandler.cpp: period_thread_routine_"]}
{"id": "C76", "title": "A periodic callback may set or unset its own handler", "statement": "set_callback and unset_callback, called from the callback of the same periodic event handler, return.", "quantifier": "every schedule and every other thread that uses the handler", "why_tests_cant": "It takes a callback that uses its own handler, at the same time as another thread.", "anchors": ["cpp_utils/src/cpp/event/PeriodicEventHandler.cpp", "cpp_utils/include/cpp_utils/event/impl/EventHandler.ipp: set_callback, unset_callback"]}
{"id": "C77", "title": "A file watcher calls its callback only while set", "statement": "The callback of a file watcher handler is called only between set_callback and unset_callback; when unset_callback returns, the callback is not running and both threads of the watcher have ended.", "quantifier": "every number of threads, sequence of calls and sequence of changes of the file, every schedule", "why_tests_cant": "The callback is called by a thread that is stopped by another one.", "anchors": ["cpp_utils/src/cpp/event/FileWatcherHandler.cpp", "cpp_utils/include/cpp_utils/event/impl/EventHandler.ipp"]}
{"id": "C78", "title": "Every modification of the watched file is delivered once, in order", "statement": "While the callback is set, it is called once for each modification that the system reports for the watched file, in the order of the modifications, after finitely many steps.", "quantifier": "every sequence of modifications, way of grouping them in reads and schedule", "why_tests_cant": "Two threads, a queue and a condition variable lie between the modification and the callback.", "anchors": ["cpp_utils/src/cpp/event/FileWatcherHandler.cpp: start_filewatcher_nts_", "thirdparty/filewatch/FileWatch.hpp: monitor_directory, callback_thread"]}
{"id": "C79", "title": "set_callback and unset_callback of a file watcher return", "statement": "set_callback and unset_callback of a file watcher handler return, whatever happens to the file.", "quantifier": "every schedule and every sequence of changes of the file and of its directory", "why_tests_cant": "A lost notification blocks the destructor of the watcher only in a window of a few instructions.", "anchors": ["cpp_utils/src/cpp/event/FileWatcherHandler.cpp: stop_filewatcher_nts_", "thirdparty/filewatch/FileWatch.hpp: destroy"]}
{"id": "C80", "title": "A file watcher callback may set or unset its own handler", "statement": "set_callback and unset_callback, called from the callback of the same file watcher handler, return.", "quantifier": "every schedule and every other thread that uses the handler", "why_tests_cant": "It takes a callback that uses its own handler, at the same time as another thread.", "anchors": ["cpp_utils/src/cpp/event/FileWatcherHandler.cpp", "cpp_utils/include/cpp_utils/event/impl/EventHandler.ipp: set_callback, unset_callback"]}
{"id": "C81", "title": "A file watcher reports the file it was given and no other", "statement": "If the path is a regular file, the directory that is watched and the name that is reported are those of the path, and no other file of the directory is reported; if it is a folder, every file in it is reported.", "quantifier": "every path and every name of a changed file", "why_tests_cant": "Paths and names are arbitrary texts.", "anchors": ["thirdparty/filewatch/FileWatch.hpp: get_directory, split_directory_and_file, pass_filter"]}
{"id": "C82", "title": "A failed start of a file watcher leaves nothing open", "statement": "If starting to watch a file fails, no file descriptor is left open.", "quantifier": "every path and every failing call of the system", "why_tests_cant": "Descriptors are counted by the system and not by a test.", "anchors": ["thirdparty/filewatch/FileWatch.hpp: get_directory"]}
{"id": "C83", "title": "A severe log event handler is called only for severe entries", "statement": "The callback of a LogSevereEventHandler is called only with entries at least as severe as its threshold, and only such entries are stored.", "quantifier": "every threshold, sequence of entries and schedule of the logging threads with respect to construction and destruction", "why_tests_cant": "Entries are consumed by the thread of the log while the handler may be under construction or destruction.", "anchors": ["cpp_utils/src/cpp/event/logging/LogSevereEventHandler.cpp: consume_", "cpp_utils/src/cpp/event/logging/LogEventHandler.cpp"]}
{"id": "C84", "title": "A log event handler handles each entry once, in order", "statement": "The callback of a log event handler is called once for each entry it is meant for that is consumed while it is set, in order, and only while set; the count of events is the number of calls that returned; when unset_callback returns the callback is not running.", "quantifier": "every sequence of entries and of calls, every schedule", "why_tests_cant": "The thread of the log and the owner of the handler share flags and mutexes.", "anchors": ["cpp_utils/src/cpp/event/logging/LogEventHandler.cpp: consume_", "cpp_utils/src/cpp/event/logging/LogConsumerConnection.cpp: Consume"]}
{"id": "C85", "title": "Construction and destruction of log event handlers return", "statement": "The constructor, the destructor, set_callback and unset_callback of a log event handler return after finitely many steps, whatever the log is doing.", "quantifier": "every class of handler, sequence of entries and schedule", "why_tests_cant": "The destructor waits for the thread of the log at two places.", "anchors": ["cpp_utils/src/cpp/event/logging/LogEventHandler.cpp", "cpp_utils/include/cpp_utils/memory/owner_ptr.hpp"]}
{"id": "C86", "title": "Severe entries reach a severe log event handler", "statement": "Once a LogSevereEventHandler with a threshold is constructed, no entry as severe as its threshold is discarded by the verbosity of the log; constructing it does not hide entries that were visible before.", "quantifier": "every threshold, previous verbosity and other handlers", "why_tests_cant": "The verbosity is global and each handler overwrites it.", "anchors": ["cpp_utils/src/cpp/event/logging/LogSevereEventHandler.cpp: LogSevereEventHandler"]}
{"id": "C87", "title": "A standard input handler reads as many lines as requested", "statement": "A StdinEventHandler reads exactly lines_to_read lines plus one for each read_one_more_line: it never starts to read more, and it stops waiting for the user only when all of them were read.", "quantifier": "every number of lines, every number of concurrent calls and every schedule", "why_tests_cant": "Requests come from any thread while the reading thread waits, reads or delivers; the counter has 32 bits and is initialised from an int.", "anchors": ["cpp_utils/src/cpp/event/StdinEventHandler.cpp: stdin_listener_thread_routine_, read_one_more_line, StdinEventHandler"]}
{"id": "C88", "title": "Each line read is delivered once, in order", "statement": "Each line that the user ends is passed to the callback exactly once and in order, and the lines that are not empty are added to the history of commands.", "quantifier": "every sequence of lines and every schedule of set_callback, unset_callback, read_one_more_line and the reading thread", "why_tests_cant": "A line may be ended at any moment of set_callback and unset_callback.", "anchors": ["cpp_utils/src/cpp/event/StdinEventHandler.cpp: stdin_listener_thread_routine_", "cpp_utils/include/cpp_utils/event/impl/EventHandler.ipp: event_occurred_"]}
{"id": "C89", "title": "The callback of a standard input handler is called only while set", "statement": "The callback of a StdinEventHandler is called only between set_callback and unset_callback; once unset_callback returned, it is not running and the handler has no thread.", "quantifier": "every schedule and any number of threads", "why_tests_cant": "The reading thread may be at any point when unset_callback is called.", "anchors": ["cpp_utils/src/cpp/event/StdinEventHandler.cpp: callback_set_nts_, callback_unset_nts_", "cpp_utils/include/cpp_utils/event/impl/EventHandler.ipp: set_callback, unset_callback, event_occurred_"]}
{"id": "C90", "title": "unset_callback of a standard input handler returns", "statement": "unset_callback and the destructor of a StdinEventHandler return.", "quantifier": "every moment at which they are called, every schedule", "why_tests_cant": "They wait for a thread that may be waiting for the user.", "anchors": ["cpp_utils/src/cpp/event/StdinEventHandler.cpp: callback_unset_nts_, ~StdinEventHandler"]}
{"id": "C91", "title": "The callback of a standard input handler may use its handler", "statement": "The callback of a StdinEventHandler may call read_one_more_line, set_callback and unset_callback of its own handler.", "quantifier": "every schedule and any other threads using the handler", "why_tests_cant": "The callback runs in the thread that unset_callback waits for, with a mutex locked that the others need.", "anchors": ["cpp_utils/src/cpp/event/StdinEventHandler.cpp: callback_unset_nts_, read_one_more_line", "cpp_utils/include/cpp_utils/event/impl/EventHandler.ipp: set_callback, unset_callback, event_occurred_"]}
{"id": "C92", "title": "A standard input handler leaves the terminal as it was", "statement": "When no StdinEventHandler has a callback any more, the mode of the terminal is the one before the first was set.", "quantifier": "every initial mode, any number of handlers and every order in which they are set and unset", "why_tests_cant": "The mode is saved in a static variable shared by all handlers.", "anchors": ["cpp_utils/src/cpp/event/StdinEventHandler.cpp: set_terminal_mode_"]}
{"id": "C93", "title": "A standard input handler reads from the stream it is given", "statement": "A StdinEventHandler constructed with a stream reads its lines from that stream.", "quantifier": "every content of the stream", "why_tests_cant": "Tests type lines with simulated events.", "anchors": ["cpp_utils/src/cpp/event/StdinEventHandler.cpp: read_char, stdin_listener_thread_routine_", "cpp_utils/include/cpp_utils/event/StdinEventHandler.hpp: source_"]}
{"id": "C94", "title": "read_next_command returns the next line, and no line is read before it is called", "statement": "Each call of read_next_command gets exactly one line; lines are got in the order in which they were typed and none is skipped; a call returns once there are as many lines as calls; and no line is read ahead: while no call is in progress no line is being read and every line read was returned.", "quantifier": "any number of threads calling read_next_command, every sequence of lines and every schedule", "why_tests_cant": "The line goes through the reading thread, a queue and its counter.", "anchors": ["cpp_utils/include/cpp_utils/user_interface/impl/CommandReader.ipp: read_next_command, callback_", "cpp_utils/include/cpp_utils/user_interface/CommandReader.hpp: CommandReader"]}
{"id": "C95", "title": "A command reader can be destroyed at any time", "statement": "When no call of read_next_command is in progress, the destructor of a CommandReader returns, and nothing that was destroyed is used.", "quantifier": "every moment and every schedule of the reading thread", "why_tests_cant": "Members are destroyed one by one while the reading thread runs.", "anchors": ["cpp_utils/include/cpp_utils/user_interface/CommandReader.hpp: commands_read_, stdin_handler_", "cpp_utils/src/cpp/event/StdinEventHandler.cpp: ~StdinEventHandler"]}
{"id": "C96", "title": "Reason why a Python wait returns", "statement": "wait of the Python wait handlers returns disabled exactly when the handler is disabled at that moment, condition_met exactly when it is enabled and the predicate holds for the current value, and timeout only if the predicate does not hold and the whole timeout has passed since the wait began; the documentation gives timeout priority over condition_met.", "quantifier": "every construction, number of threads, predicate, timeout and interleaving of calls", "why_tests_cant": "The reason depends on what other threads do between the wake-up and the moment the lock is taken again.", "anchors": ["py_utils/py_utils/wait/WaitHandler.py: WaitHandler.wait", "py_utils/py_utils/wait/IntWaitHandler.py: wait_equal, wait_greater_equal, wait_greater", "py_utils/py_utils/wait/BooleanWaitHandler.py: wait"]}
{"id": "C97", "title": "Python waits lose no wake-up", "statement": "A thread stays blocked in wait of a Python wait handler only while the handler is enabled, its predicate is false for the current value and its timeout has not passed.", "quantifier": "every interleaving of waits, changes of the value and enabling/disabling by any number of threads", "why_tests_cant": "A lost wake-up shows only in one particular interleaving, as a hang.", "anchors": ["py_utils/py_utils/wait/WaitHandler.py: wait, set_value, disable", "py_utils/py_utils/wait/IntWaitHandler.py: increase, decrease"]}
{"id": "C98", "title": "disable frees all the threads waiting in a Python handler", "statement": "After disable, every thread that was blocked in wait returns disabled.", "quantifier": "every interleaving, including enabling again right afterwards", "why_tests_cant": "Depends on which thread gets the lock first after disable.", "anchors": ["py_utils/py_utils/wait/WaitHandler.py: disable, enable, wait"]}
{"id": "C99", "title": "blocking_disable of the Python handlers terminates", "statement": "blocking_disable disables the handler and returns once all the waiting threads have left.", "quantifier": "every state in which it may be called", "why_tests_cant": "It is a liveness property over all states of the handler: a hang is not an observable result of a test.", "anchors": ["py_utils/py_utils/wait/WaitHandler.py: blocking_disable, _blocking_disable_nts, wait"]}
{"id": "C100", "title": "No change of the value of a Python handler is lost", "statement": "The value is what all the calls of set_value, increase and decrease make of it in the order of their effects, and get_value returns the value at one moment.", "quantifier": "every interleaving of calls by any number of threads", "why_tests_cant": "Lost updates appear only with particular interleavings.", "anchors": ["py_utils/py_utils/wait/WaitHandler.py: get_value, set_value", "py_utils/py_utils/wait/IntWaitHandler.py: increase, decrease"]}
{"id": "C101", "title": "Lifetime of the objects of Heritable", "statement": "An object made for a Heritable exists exactly as long as some Heritable variable has it, and it is destroyed exactly once.", "quantifier": "every program of constructions, copies, moves, conversions, assignments and destructions of Heritable variables", "why_tests_cant": "Leaks and double deletions depend on the whole history of copies and moves.", "anchors": ["cpp_utils/include/cpp_utils/memory/impl/Heritable.ipp: constructors, operator =, destructor, make_heritable"]}
{"id": "C102", "title": "Heritable copies share one object", "statement": "Copying or assigning a Heritable shares the object: what is written through one variable is read through every variable that shares it and through no other; a move leaves the source without object; comparisons compare the objects.", "quantifier": "every state of the variables and objects and every operation", "why_tests_cant": "The aliasing between variables after arbitrary histories cannot be enumerated.", "anchors": ["cpp_utils/include/cpp_utils/memory/impl/Heritable.ipp: operator =, operator *, operator ==, operator <, get_reference"]}
{"id": "C103", "title": "Casts of a Heritable", "statement": "can_cast says exactly whether dyn_cast succeeds; dyn_cast gives the object of the variable or throws bad_cast; casts to the type of the variable and its bases always succeed.", "quantifier": "every class hierarchy with single inheritance, object and history", "why_tests_cant": "Quantifies over all hierarchies and conversions between variables.", "anchors": ["cpp_utils/include/cpp_utils/memory/impl/Heritable.ipp: can_cast, dyn_cast"]}
{"id": "C104", "title": "Programs with Heritable have no undefined behaviour", "statement": "Every program that compiles and uses only the functions of Heritable has defined behaviour.", "quantifier": "every program, class hierarchy and choice of virtual destructors", "why_tests_cant": "Undefined behaviour often gives the expected result in a test.", "anchors": ["cpp_utils/include/cpp_utils/memory/impl/Heritable.ipp: constructors, operator ==, can_cast", "cpp_utils/test/unittest/memory/HeritableTest.cpp"]}
{"id": "C105", "title": "A message of the Python logger is printed once, in the format set last", "statement": "Each message logged with a CustomLogger that passes its level is printed exactly once, in the format given to the last set_format.", "quantifier": "every sequence of set_format, set_log_level, activate_debug and log calls", "why_tests_cant": "The number of lines depends on the whole history of calls.", "anchors": ["py_utils/py_utils/logging/log_utils.py: CustomLogger.set_format, CustomLogger.__init__"]}
{"id": "C106", "title": "The level of the Python logger set last decides what is printed", "statement": "A message is printed if and only if its level is not below the level set last by the constructor, set_log_level or activate_debug.", "quantifier": "every sequence of calls, level and message", "why_tests_cant": "What a level does depends on which levels were used before it was set.", "anchors": ["py_utils/py_utils/logging/log_utils.py: CustomLogger.set_log_level, CustomLogger.activate_debug, CustomLogger.__init__"]}
{"id": "C107", "title": "The generator of enumerations reads the values given", "statement": "The values are the texts between semicolons (between commas if there is no semicolon), in order and without blanks.", "quantifier": "every list of texts", "why_tests_cant": "Quantifies over all texts and numbers of values.", "anchors": ["dev_utils/src/automatic_code_generator/cpp/enumeration_builder/enumeration_builder.py: parse_values"]}
{"id": "C108", "title": "The generated file is the template with its fields filled in", "statement": "Every field %name% of the template, and nothing else, is replaced by the text for it: name, values, names between quotes, their number, namespaces, command, file and year.", "quantifier": "every name, list of values and namespaces, file name and command line", "why_tests_cant": "Nine replacements are done one after the other on a text that already contains the arguments.", "anchors": ["dev_utils/src/automatic_code_generator/cpp/enumeration_builder/enumeration_builder.py: generate_file_text, replace_in_text, TEMPLATE_TEXT"]}
{"id": "C109", "title": "The generated enumeration converts to text and back", "statement": "In the generated code the values given are the enumerators, numbered from 0 in their order; to_string gives the name of each one, from_string gives the enumerator of each name and throws for any other text, and the vector of names and the number of values are those of the enumeration.", "quantifier": "every argument --values", "why_tests_cant": "Quantifies over all lists of values, and needs the meaning of the generated code.", "anchors": ["dev_utils/src/automatic_code_generator/cpp/enumeration_builder/enumeration_builder.py: TEMPLATE_TEXT (to_string, from_string_, string_vector_, N_VALUES_), parse_values, generate_file_text"]}
{"id": "C110", "title": "The generated file is well formed whatever the command line", "statement": "The comment with the command executed ends where the template ends it, and as many braces are closed as are opened.", "quantifier": "every command line, file name, names of values and of namespaces", "why_tests_cant": "Quantifies over all command lines.", "anchors": ["dev_utils/src/automatic_code_generator/cpp/enumeration_builder/enumeration_builder.py: get_command_executed, get_file_name_from_path, generate_file_text"]}
{"id": "C111", "title": "The sizes that Stats gives are enough for the parser", "statement": "Parsing the command lines that were given to Stats, with arrays of the sizes it gives, never writes outside them and leaves one slot of the buffer; with bufmax no command line whatsoever makes the parser write beyond it.", "quantifier": "every usage array with its check functions, sequence of command lines and flags", "why_tests_cant": "A write outside the arrays depends on the command line, which is an input of the user.", "anchors": ["thirdparty/optionparser/optionparser.h: Stats::add, CountOptionsAction, StoreOptionAction, Parser::parse"]}
{"id": "C112", "title": "The parser reads the command line by the rules", "statement": "The options and their arguments, the error, the non-options and the order in which argv is left are those of the documented rules for long and short options, abbreviations, groups, detached and attached arguments, -- and non-options; no argument is lost.", "quantifier": "every usage array with its check functions, flags, bufmax, command line and earlier calls", "why_tests_cant": "Quantifies over all command lines and usages.", "anchors": ["thirdparty/optionparser/optionparser.h: Parser::workhorse, Parser::parse, shift, streq, streqabbr"]}
{"id": "C113", "title": "The parser reads what Stats has reordered as the original command line", "statement": "Parsing the arguments that Stats with gnu left gives the options, non-options and error of the original arguments; the parser need not be given gnu again.", "quantifier": "every usage array with its check functions, flags and command line", "why_tests_cant": "Reordering changes what follows each option.", "anchors": ["thirdparty/optionparser/optionparser.h: Parser::parse (documentation of gnu), Stats::add, Parser::workhorse"]}
{"id": "C114", "title": "Lists of options", "statement": "options[i] and its next() are all the options with index i in the order of the command lines; first, last, next, prev and count agree with that list from each of its elements.", "quantifier": "every sequence of calls of parse with the same arrays, element of each list", "why_tests_cant": "The pointers are tagged and each append changes four of them.", "anchors": ["thirdparty/optionparser/optionparser.h: Option::append, Option::first, Option::last, Option::next, Option::prev, Option::count, StoreOptionAction::perform"]}
{"id": "C115", "title": "Different ways to write options are read alike", "statement": "-abc is read as -a -bc if a takes no argument, -ofile as -o file, and --name=value as --name value.", "quantifier": "every usage array, command line after them, flags and earlier calls", "why_tests_cant": "Relates two runs of the parser over all command lines.", "anchors": ["thirdparty/optionparser/optionparser.h: Parser::workhorse"]}
{"id": "C116", "title": "A long option is the one of its name", "statement": "--name and --name=value are read as the first option with this name, otherwise as the only one whose name it abbreviates, otherwise as an unknown option; never as one without long name.", "quantifier": "every usage array, name and value", "why_tests_cant": "Quantifies over all names and usages.", "anchors": ["thirdparty/optionparser/optionparser.h: streq, streqabbr, Parser::workhorse"]}
{"id": "C117", "title": "match_pattern decides the language of wildcards", "statement": "match_pattern is true exactly if the text can be cut into pieces, one for each element of the pattern: itself for an ordinary character (also a backslash), one character for ?, one of the set for a bracket expression and any text for *.", "quantifier": "every pattern and text", "why_tests_cant": "Patterns with several * need a search over all the ways of cutting the text.", "anchors": ["cpp_utils/src/cpp/utils.cpp: match_pattern", "cpp_utils/include/cpp_utils/utils.hpp: match_pattern"]}
{"id": "C118", "title": "Every text can be matched exactly", "statement": "For every text there is a pattern that matches it and no other text; without wildcards it is the text itself.", "quantifier": "every pair of texts", "why_tests_cant": "Quantifies over all texts.", "anchors": ["cpp_utils/src/cpp/utils.cpp: match_pattern"]}
{"id": "C119", "title": "Access modes are combined and compared as sets", "statement": "| of two access modes is an access mode that has both, and & gives what they have in common.", "quantifier": "every pair of access modes", "why_tests_cant": "Finite, but no test covers the pairs.", "anchors": ["cpp_utils/src/cpp/utils.cpp: operator |, operator &", "cpp_utils/include/cpp_utils/utils.hpp: FileAccessMode"]}
{"id": "C120", "title": "The Python timer measures the time since it was created or reset", "statement": "elapsed returns the time since the creation or the last reset, to within three microseconds; it is never negative and never decreases between resets.", "quantifier": "every creation, sequence of resets and readings of the clock", "why_tests_cant": "Quantifies over all readings of the clock and needs the rounding of doubles.", "anchors": ["py_utils/py_utils/time/Timer.py: Timer"]}
{"id": "C121", "title": "A function with the debug decorator is the same function", "statement": "Calling a decorated function calls the function once with the same arguments, and gives its result or its exception and its effects; it adds a message before and a message after a call that returns, nested like the calls.", "quantifier": "every function, arguments, state and nesting of calls", "why_tests_cant": "Quantifies over all functions and their exceptions.", "anchors": ["py_utils/py_utils/debugging/debug_utils.py: debug_function_decorator"]}
{"id": "C122", "title": "Printing the usage text ends", "statement": "Printing the usage of any array of descriptors, with any line width and percentages, returns: it does not loop and does not read or compute anything undefined.", "quantifier": "every array of descriptors with any texts (any bytes, tabs, vertical tabs and line ends), every width and percentages", "why_tests_cant": "Quantifies over all texts and widths; the loops search for widths that fit and for the next part of a text.", "anchors": ["thirdparty/optionparser/optionparser.h: PrintUsageImplementation::printUsage, LinePartIterator, LineWrapper"]}
{"id": "C123", "title": "The usage text has all the characters of the descriptors", "statement": "The usage text is that of the rows of the descriptors in their order, each in whole lines. But for spaces and line ends, the lines of a row have the characters of its columns, those of each column in their order, and no others.", "quantifier": "every array of descriptors, width and percentages", "why_tests_cant": "Depends on the state of a ring buffer of fifteen pieces for each row, and on all ways of cutting texts.", "anchors": ["thirdparty/optionparser/optionparser.h: PrintUsageImplementation::printUsage, LineWrapper::process, LineWrapper::flush"]}
{"id": "C124", "title": "The usage text keeps to the width", "statement": "No line of the usage text takes more columns on the screen than the width asked for, wide and multi-byte characters included.", "quantifier": "every array of descriptors, width and percentages", "why_tests_cant": "Quantifies over all texts, including invalid UTF-8, and all widths.", "anchors": ["thirdparty/optionparser/optionparser.h: LineWrapper::process, LinePartIterator::update_length, PrintUsageImplementation::indent"]}
{"id": "C125", "title": "The usage text is aligned", "statement": "If the cells of a table fit into the width, each row is printed on one line, each column starting at the same place in all rows, whatever the rows in between that are not split into cells.", "quantifier": "every array of descriptors whose tables fit", "why_tests_cant": "Quantifies over all tables; the columns are measured over all rows in repeated passes.", "anchors": ["thirdparty/optionparser/optionparser.h: PrintUsageImplementation::printUsage, PrintUsageImplementation::indent"]}
{"id": "C126", "title": "A task may use the pool that executes it", "statement": "Inside a task emit and slot return, whatever the other threads are doing and without the end of any task; so do disable and wait_all_consumed.", "quantifier": "every number of clients and threads, every schedule and history of calls", "why_tests_cant": "A deadlock between a task and its own pool depends on the schedule and on what is in the queue.", "anchors": ["cpp_utils/src/cpp/thread_pool/pool/SlotThreadPool.cpp: SlotThreadPool::emit, SlotThreadPool::slot, SlotThreadPool::disable, SlotThreadPool::thread_routine_", "cpp_utils/include/cpp_utils/wait/impl/DBQueueWaitHandler.ipp"]}
{"id": "C127", "title": "A task that throws does not harm the pool", "statement": "After a task that throws DisabledException the pool executes the tasks that are emitted, with as many threads as before.", "quantifier": "every number of clients and threads, every schedule, any tasks that throw", "why_tests_cant": "Which thread is lost, and whether tasks remain that nobody executes, depends on the history.", "anchors": ["cpp_utils/src/cpp/thread_pool/pool/SlotThreadPool.cpp: SlotThreadPool::thread_routine_"]}
{"id": "C128", "title": "Enumerations with explicit values convert to text and back", "statement": "For every enumeration that ENUMERATION_BUILDER builds, with or without explicit values, to_string gives the name of each enumerator, from_string gives it back, and the array of values has the enumerators.", "quantifier": "every list of enumerators and values", "why_tests_cant": "Values may be anything that compiles; reading beyond an array may seem to work.", "anchors": ["cpp_utils/include/cpp_utils/macros/custom_enumeration.hpp: ENUMERATION_BUILDER", "cpp_utils/include/cpp_utils/macros/macros.hpp: STRINGIFY_WITH_COMMA"]}
{"id": "C129", "title": "MAX and MIN give the maximum and the minimum", "statement": "MAX(x, y) and MIN(x, y) stand for the maximum and the minimum of their arguments, evaluating each argument once, in any expression.", "quantifier": "every pair of argument texts, surrounding expression and values of the variables", "why_tests_cant": "The meaning depends on how the tokens around and inside the arguments associate.", "anchors": ["cpp_utils/include/cpp_utils/macros/macros.hpp: MAX, MIN", "cpp_utils/include/cpp_utils/types/impl/Tree.ipp: depth"]}
{"id": "C130", "title": "what() gives the message of the exception", "statement": "The text of what() of any of the exceptions is the message given to its constructor, and copies have the same text.", "quantifier": "every message given as pointer, string or Formatter", "why_tests_cant": "Quantifies over all messages, including those with any bytes.", "anchors": ["cpp_utils/src/cpp/exception/Exception.cpp: Exception::Exception, Exception::what", "cpp_utils/include/cpp_utils/exception: classes derived from Exception"]}
{"id": "C131", "title": "Conversions of sets and maps lose nothing", "statement": "convert_set_to_shared gives one pointer to a new equal object for each element, whatever the allocator does; get_keys gives exactly the keys of the map.", "quantifier": "every set, map, order of keys and allocator", "why_tests_cant": "Addresses depend on the allocator, the order of an unordered_map on its hashes.", "anchors": ["cpp_utils/include/cpp_utils/impl/utils.ipp: convert_set_to_shared, get_keys"]}
{"id": "C132", "title": "The log macros can be used as statements", "statement": "Wherever a statement f(); may stand, logUser, logDebug and logDevError may stand, in every build; the message is evaluated only if it is logged, and the level is Info, as documented.", "quantifier": "every program of expressions, blocks, if and else, every build, verbosity and effect of the message", "why_tests_cant": "Whether a program compiles and to which if an else belongs depends on the tokens around the use; tests are compiled in one build.", "anchors": ["cpp_utils/include/cpp_utils/Log.hpp: logUser, logDebug, logDevError"]}
{"id": "C133", "title": "The log macros write the message", "statement": "The text that logUser, logDebug and logDevError write is that of the expressions given as message.", "quantifier": "every message made of numbers, texts, variables, operators and conditional expressions", "why_tests_cant": "The meaning depends on how the tokens of the message associate with those of the macro.", "anchors": ["cpp_utils/include/cpp_utils/Log.hpp: logUser, logDebug_, logDevError_"]}
{"id": "C134", "title": "The terminal shows the line being edited", "statement": "While a line is edited with the standard input handler, the terminal shows the prompt, the line and nothing else below it, with the cursor where the next character will be inserted.", "quantifier": "every sequence of keys, terminal size and initial screen", "why_tests_cant": "The display is kept up to date by differences over an unbounded history of keys, wrapped at any width.", "anchors": ["cpp_utils/src/cpp/event/StdinEventHandler.cpp: update_line, clear_lines, compute_lines_needed, stdin_listener_thread_routine_"]}
{"id": "C135", "title": "Editing leaves what is above the prompt", "statement": "The keys typed in the line editor never change what the terminal shows above the prompt.", "quantifier": "every sequence of keys, terminal size and initial screen", "why_tests_cant": "A wrong count of rows erases output of the application, only for some widths, lengths and cursor positions.", "anchors": ["cpp_utils/src/cpp/event/StdinEventHandler.cpp: update_line, clear_lines, compute_lines_needed, stdin_listener_thread_routine_"]}
{"id": "C136", "title": "A file is accessible when all that is asked is granted", "statement": "is_file_accessible answers yes if and only if the file exists and grants everything asked for by the access modes composed with |; and & finds a mode in a composition if and only if it asks for nothing else.", "quantifier": "every file and every composition of access modes, of any length and order", "why_tests_cant": "Compositions are unbounded in length and combine with every set of permissions.", "anchors": ["cpp_utils/src/cpp/utils.cpp: is_file_accessible, operator |, operator &", "cpp_utils/include/cpp_utils/utils.hpp: FileAccessMode"]}
{"id": "C137", "title": "A raw copy is independent of its source", "statement": "copy_to_void_ptr returns new memory that holds the bytes of the source; nothing else changes, and later changes of the source or of the copy leave the other as it is.", "quantifier": "every object, size, memory and allocator", "why_tests_cant": "Aliasing and exhaustion of memory depend on the allocator.", "anchors": ["cpp_utils/include/cpp_utils/impl/utils.ipp: copy_to_void_ptr"]}
{"id": "C138", "title": "The double buffered queue keeps what is pushed, in order", "statement": "Whatever threads use a DBQueue, its functions take effect one at a time, without data races or deadlocks. With one reader that swaps only when it has found nothing to read, what is pushed is read once, in order, no element is read that does not exist, and the reference that front returns stays valid until the next call of the reader.", "quantifier": "every number of threads, history of calls and interleaving of their locks and accesses", "why_tests_cant": "Two mutexes and two exchanged buffers: what is lost or read twice depends on the interleaving; a reference is used without any lock.", "anchors": ["cpp_utils/include/cpp_utils/queue/DBQueue.hpp: DBQueue"]}
{"id": "C139", "title": "A time out lasts as long as asked", "statement": "A wait with a time out returns timeout not before that time has passed since the call, and its thread is woken once it has passed, whatever happens to the date and time of the computer.", "quantifier": "every wait handler, number of threads, interleaving and moments at which the clock is set", "why_tests_cant": "Tests do not set the clock of the computer.", "anchors": ["cpp_utils/include/cpp_utils/wait/impl/WaitHandler.ipp: blocking_wait_", "cpp_utils/src/cpp/wait/CounterWaitHandler.cpp: wait_threshold_reached", "cpp_utils/include/cpp_utils/time/time_utils.hpp: Timeclock"]}
{"id": "C140", "title": "A guarded object is used by one thread at a time", "statement": "What a thread does with an Atomicable object while it holds a guard takes effect as if no other thread used the object, readers with shared guards may overlap, no access is a data race, and every use can end.", "quantifier": "every type of object and its methods, sequence of method calls depending on earlier results, number of threads and interleaving", "why_tests_cant": "Tests run few schedules of one type of object; a data race shows rarely.", "anchors": ["cpp_utils/include/cpp_utils/types/Atomicable.hpp: Atomicable, SharedAtomicable"]}
{"id": "C141", "title": "The version of a package is the one in its version file", "statement": "A project that reads its version file gets the numbers in it, and the version made of them, in the documented form.", "quantifier": "every content of the version file, and whether a version has been read before", "why_tests_cant": "Tests read the one file there is; other texts, and a second package in the same build, are never tried.", "anchors": ["cmake_utils/cmake/project/read_version.cmake: read_version"]}
{"id": "C142", "title": "A test has the labels of the files that list it", "statement": "A test gets the labels of exactly the files that list it, in the order in which the files were given, after those it has.", "quantifier": "every sequence of label files, their lines, labels and test names", "why_tests_cant": "What a label file gives depends on all files and directories before it; tests use one list.", "anchors": ["cmake_utils/cmake/test/test_labels.cmake: set_test_label_file, check_and_add_tests_label, set_test_labels"]}
{"id": "C143", "title": "The options of a build have their documented defaults", "statement": "Options that are given keep their values, and each of the others has the documented default.", "quantifier": "every set of given options and their values, and whether they are given in the cache or by the project", "why_tests_cant": "There are exponentially many combinations of given options, and a second configuration begins from the first.", "anchors": ["cmake_utils/cmake/project/cmake_options.cmake: configure_cmake_options"]}
{"id": "C144", "title": "Local timestamps survive the conversion to text", "statement": "A timestamp converted to text in the local time zone and back is the same to the second, and the texts sort in time order.", "quantifier": "every time zone and its changes, every timestamp and every format with all fields", "why_tests_cant": "The zone of the machine that tests is one of many, and the hours that its clocks repeat or skip are few.", "anchors": ["cpp_utils/src/cpp/time/time_utils.cpp: timestamp_to_string, string_to_timestamp"]}
{"id": "C145", "title": "A package has the settings of its settings file", "statement": "After loading the settings of a package, what its settings file sets has that value, and each other variable its documented default.", "quantifier": "every settings file, values, scope in which it is loaded and argument", "why_tests_cant": "Packages are tested with the files they have, each in a build of its own.", "anchors": ["cmake_utils/cmake/project/load_project_settings.cmake: load_project_settings"]}
{"id": "C146", "title": "The usage text splits no character", "statement": "If the texts of the descriptors are in UTF-8, the usage text and each of its lines is in UTF-8: no character is split or broken by the wrapping.", "quantifier": "every properly ended array of descriptors with short options and texts in UTF-8, every width, and percentages up to 214748", "why_tests_cant": "Where a line is wrapped depends on the widths of all characters, cells and columns.", "anchors": ["thirdparty/optionparser/optionparser.h: LineWrapper::process, LinePartIterator::update_length, PrintUsageImplementation::isWideChar"]}
{"id": "C147", "title": "A required minimum version of a package is asked for", "statement": "Configuring a C++ package looks for each package of MODULE_FIND_PACKAGES, in their order, and goes on only if each is found; for one whose <package>_MINIMUM_VERSION is set it asks for that version.", "quantifier": "every list of packages, minimum versions, scope, compiler and answers of find_package", "why_tests_cant": "Tests configure with the packages and versions of one machine, where any version is new enough.", "anchors": ["cmake_utils/cmake/cpp_common/find_external.cmake: find_external_projects", "cmake_utils/README.md: Minimum Package Version"]}
{"id": "C148", "title": "Configuring a C++ package sets the standard and the flags that are asked for", "statement": "A supported MODULE_CPP_VERSION becomes the C++ standard and without one the standard stays; coverage and sanitizers add exactly their flags for the compiler, never both sanitizers; nothing else changes, and it stops only for the documented reasons.", "quantifier": "every scope, compiler, answers of the compiler and of find_package, and value of the options", "why_tests_cant": "Tests configure with one compiler and a few combinations of the options.", "anchors": ["cmake_utils/cmake/cpp_common/configure_project_cpp.cmake: configure_project_cpp", "cmake_utils/cmake/cpp_common/force_cpp.cmake: force_cpp", "cmake_utils/cmake/cpp_common/asan.cmake, tsan.cmake, code_coverage.cmake, cpp_flags.cmake, cmake_build_type.cmake"]}
{"id": "C149", "title": "Each listed test case is a test of CTest that runs exactly its tests", "statement": "Registering an executable of tests with a list of cases adds one test for each case, which runs the plain, typed and parameterised tests of that case, and no other test of the list runs them; without a list there is one test that runs all.", "quantifier": "every name of a suite, list of cases, tests that exist already, and tests in the executable", "why_tests_cant": "A filter that selects nothing, or too much, passes silently.", "anchors": ["cmake_utils/cmake/test/test_target.cmake: add_test_executable, add_unittest_executable, add_blackbox_executable"]}
{"id": "C150", "title": "Packages are installed into the directories that are given or documented", "statement": "The installation directories that are given are used; each other is the documented default; the license goes to the directory of the package.", "quantifier": "every scope, cache and platform, and every number of packages in a build", "why_tests_cant": "Tests install one package with the defaults.", "anchors": ["cmake_utils/cmake/project/installation_paths.cmake: set_installation_paths", "cmake_utils/README.md: installation paths"]}
{"id": "C151", "title": "Tests on Windows are run with the directories of all their libraries in PATH", "statement": "The PATH with which a test is run is the directory of every library that the test depends on, directly or not, each once, followed by the directories of the environment.", "quantifier": "every graph of targets and every environment", "why_tests_cant": "The project's tests have few libraries; a missing directory shows only on Windows and only when the library is in no other directory of PATH.", "anchors": ["cmake_utils/cmake/test/test_requirements.cmake: get_win32_path_dependencies"]}
{"id": "C152", "title": "Disabling a thread pool returns", "statement": "Whatever the other threads are doing, a call of disable() on a thread pool returns: each thread of the pool ends once its current task has ended, and no other call, time out or wake-up is needed.", "quantifier": "every number of client and pool threads, every reachable state, every sequence of emit, slot, enable, disable and wait calls", "why_tests_cant": "A lost notification or a lock held in the wrong place would hang only under some schedules.", "anchors": ["cpp_utils/src/cpp/thread_pool/pool/SlotThreadPool.cpp: disable, thread_routine_", "cpp_utils/include/cpp_utils/wait/impl/ConsumerWaitHandler.ipp: consume"]}
{"id": "C153", "title": "Every emitted task is executed while the pool is enabled", "statement": "In whatever order the threads of a thread pool and its clients go on, they come to rest after finitely many steps unless somebody calls something; then, if a thread of the pool is left and the pool has not been disabled, every emitted task has been executed and every call of emit, slot and wait_all_consumed has returned.", "quantifier": "every number of client and pool threads, every schedule and every sequence of calls with fewer than 2^32 tasks in the queue at a time", "why_tests_cant": "A lost wake-up leaves a task in the queue only under some schedules.", "anchors": ["cpp_utils/src/cpp/thread_pool/pool/SlotThreadPool.cpp: emit, thread_routine_, wait_all_consumed", "cpp_utils/include/cpp_utils/wait/impl/ConsumerWaitHandler.ipp: produce, consume", "cpp_utils/src/cpp/wait/CounterWaitHandler.cpp: operator ++, wait_and_decrement"]}
{"id": "C154", "title": "Consumers wait only while there is nothing to consume", "statement": "Whatever threads call produce, consume, wait_all_consumed, elements_ready_to_consume, enable and disable of a queue wait handler, and in whatever order they go on, they come to rest after finitely many steps unless somebody calls something; then every call of produce, elements_ready_to_consume, enable and disable has returned, a thread is still inside consume only if the handler is enabled and everything produced has been consumed, and a thread is still inside wait_all_consumed only if something produced has not been consumed.", "quantifier": "every number of threads, every schedule and every sequence of calls with fewer than 2^32 elements in the queue at a time; coming to rest: without blocking_disable and stop_and_continue", "why_tests_cant": "A consumer that sleeps beside a full queue is seen only under some schedules of several producers and consumers.", "anchors": ["cpp_utils/include/cpp_utils/wait/impl/ConsumerWaitHandler.ipp: produce, consume, wait_all_consumed", "cpp_utils/include/cpp_utils/wait/impl/DBQueueWaitHandler.ipp: get_next_value_, add_value_", "cpp_utils/src/cpp/wait/CounterWaitHandler.cpp: operator ++, wait_and_decrement, wait_threshold_reached"]}
{"id": "C155", "title": "Libraries, tools and tests are built from the given sources or from all those of their directory", "statement": "A library or tool is built from exactly the source files given for it, or, if none are given, from exactly the C and C++ files below its source directory, at any depth and each once; with Visual Studio the header files given for a library, or all those below its include and source directories, are added; a test is built from its own sources, those of the library at any depth and the common ones of tests; include directories given for a tool are added to that tool.", "quantifier": "every tree of directories and files, every list of given files, every chain of functions that call each other", "why_tests_cant": "The project itself is one tree of directories; files that are missing in other trees are noticed only when something does not link.", "anchors": ["cmake_utils/cmake/compilation/compile_library.cmake: compile_library", "cmake_utils/cmake/compilation/compile_tool.cmake: compile_tool", "cmake_utils/cmake/test/test_utils.cmake: all_library_sources"]}
{"id": "C156", "title": "Signal handling comes to rest with everything done", "statement": "Whatever threads call functions of the signal manager and of signal handlers, and whatever signals arrive, the threads come to rest after finitely many steps unless somebody calls a function or another signal arrives; then every function has returned, including the destructor of the manager, and every signal that arrived before has been dispatched.", "quantifier": "every number of threads, signal handlers, callbacks and signals, every schedule", "why_tests_cant": "A thread that stays blocked, or a signal that is not dispatched, needs a schedule that tests do not choose.", "anchors": ["cpp_utils/include/cpp_utils/event/impl/SignalManager.ipp: signal_handler_thread_routine_, signal_handler_routine_, ~SignalManager", "cpp_utils/include/cpp_utils/event/impl/SignalEventHandler.ipp: callback_set_nts_, callback_unset_nts_"]}
{"id": "C157", "title": "A periodic event handler comes to rest, and goes on after each period", "statement": "Whatever threads call set_callback, unset_callback and simulate_event_occurred of a periodic event handler, the threads come to rest after finitely many steps unless somebody calls a function or time passes; then every function has returned, and the thread of the handler waits for the end of the current period if the callback is set and has ended otherwise; if then a period passes the callback is called, in whatever order the threads go on.", "quantifier": "every period, number of threads and sequence of calls, every schedule and passing of time", "why_tests_cant": "A thread that stays blocked, or a period after which nothing is called, needs a schedule that tests do not choose.", "anchors": ["cpp_utils/src/cpp/event/PeriodicEventHandler.cpp: period_thread_routine_, start_period_thread_nts_, stop_period_thread_nts_", "cpp_utils/include/cpp_utils/event/impl/EventHandler.ipp: set_callback, unset_callback, simulate_event_occurred"]}
{"id": "C158", "title": "A file watcher comes to rest with everything done", "statement": "Whatever threads call set_callback, unset_callback and simulate_event_occurred of a file watcher handler, and whatever happens to the watched file, the threads come to rest after finitely many steps unless somebody calls a function or something more happens to the files; then every function has returned, the callback has been called for every modification that was reported if it is set, and there is no watcher if it is not.", "quantifier": "every number of threads, sequence of calls, sequence of changes of the files and filter, every schedule", "why_tests_cant": "A thread that stays blocked or a modification that nobody delivers needs a schedule that tests do not choose.", "anchors": ["cpp_utils/src/cpp/event/FileWatcherHandler.cpp: start_filewatcher_nts_, stop_filewatcher_nts_", "thirdparty/filewatch/FileWatch.hpp: monitor_directory, callback_thread, destroy", "cpp_utils/include/cpp_utils/event/impl/EventHandler.ipp: set_callback, unset_callback"]}
{"id": "C159", "title": "Configuring a package gives it the version, commit and settings that it states", "statement": "configure_project stops if the build directory is the source directory; otherwise a name and a version file are enough for it to finish, and then every setting of project_settings.cmake has the value stated there, the version and its numbers are those that are given, or those of the version file if they are not given, with the version string v and the version, and the commit is the given one or else that of the repository.", "quantifier": "every settings file, version file, directory, set of variables of the caller and of the cache, policy and operating system", "why_tests_cant": "A test configures one package with one settings file; the combinations of given and missing variables, and packages that are configured inside the build of another, are not tried.", "anchors": ["cmake_utils/cmake/project/configure_project.cmake: configure_project", "cmake_utils/cmake/project/in_source_build_prevention.cmake: in_source_build_prevention", "cmake_utils/cmake/project/read_commit_hash.cmake: read_commit_hash", "cmake_utils/cmake/project/read_version.cmake: read_version", "cmake_utils/README.md"]}
{"id": "C160", "title": "The package that is made has the name, version, texts, licence and resources of the module", "statement": "eprosima_packaging tells CPack the name of the project, the version of the module and its numbers, its summary and its description; it installs the licence in the directory for licences and, exactly if a path of resources is given, the resources in the directory for data. It changes no variables but those of CPack.", "quantifier": "every set of variables of the package and of the cache, version file and settings file, with and without Visual Studio", "why_tests_cant": "A test packages one module; what holds for all values of the variables, with lists and missing ones, and of the composition with the configuration, needs a proof.", "anchors": ["cmake_utils/cmake/packaging/eProsima_packaging.cmake: eprosima_packaging", "cmake_utils/cmake/packaging/install_resources.cmake: install_resources, eprosima_install_resources", "cmake_utils/README.md"]}
{"id": "C161", "title": "Exactly the parts of a package that the options ask for are built", "statement": "The library and the tool are built unless they are switched off; tests exactly if they are switched on or, with nothing said of them, if all tests are; the documentation exactly if it is switched on or, with nothing said of it, if its tests or everything are.", "quantifier": "every combination of options that are ON, OFF or not given, in the cache, in normal variables or both, with either policy for cache entries", "why_tests_cant": "Eight options of three values in two places give more combinations than any build matrix tries, and the statement is about all of them together with whatever other variables there are.", "anchors": ["cmake_utils/cmake/project/cmake_options.cmake: configure_cmake_options", "cmake_utils/cmake/compilation/compile_library.cmake: compile_library", "cmake_utils/cmake/compilation/compile_tool.cmake: compile_tool", "cmake_utils/cmake/compilation/compile_test.cmake: compile_test_library, compile_test_documentation, compile_test_tool", "cmake_utils/cmake/compilation/compile_documentation.cmake: compile_documentation", "cmake_utils/README.md"]}
{"id": "C162", "title": "The headers of a library say how it is linked", "statement": "Including the header of a library for its linkage marks its declarations as exported from a DLL inside the library, as imported outside and as neither if there is no DLL; it tells Visual Studio to link the file that was built for the library, and other compilers and the library itself nothing; it is an error exactly if the macros contradict one another, and including it again changes nothing.", "quantifier": "every module, set of macros defined before, compiler, build type and kind of library", "why_tests_cant": "A build tries one compiler and one set of macros, and the branches for Windows are not even compiled elsewhere; the names agree with those of CMake for some build types only.", "anchors": ["cmake_utils/templates/cpp/library/library_dll.h.in", "cmake_utils/templates/cpp/library/eProsima_auto_link.h.in", "cmake_utils/templates/cpp/library/config.h.in", "cmake_utils/cmake/compilation/compile_library.cmake: compile_library"]}
{"id": "C163", "title": "The tests listed as expected to fail have the label for it", "statement": "After add_xfail_label (or add_xtsan_label) with a file, exactly the tests that its lines name have the label in addition, every other test is left alone, and a name that is not a test is an error; without the file nothing changes, and the list for Windows has an effect on Windows only.", "quantifier": "every file, set of tests, labels they have and order of the calls", "why_tests_cant": "A test has one list of tests; that nothing else is touched for all lists and labels, and what happens to tests in several lists, is not seen in it.", "anchors": ["cmake_utils/cmake/test/gtest.cmake: add_xfail_label, add_windows_xfail_label, add_xtsan_label"]}
