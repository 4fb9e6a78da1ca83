{
"C01": {
"note": "Result characterised for every call that returns. The claim that it always returns is false (refuted with a witness, and a family of diverging calls); termination proved when the replacement is shorter or has fewer copies of some character."
},
"C02": {
"note": "Full for non-empty delimiters. With an empty delimiter the call never returns (refuted)."
},
"C03": {
"note": "Full for the default set and all sets of single characters; for longer strings the claim is false (witness), only termination holds."
},
"C04": {
"note": "For every byte string, with int arithmetic wrapping as on the supported compilers (see C61)."
},
"C05": {
"note": "Against an independent bit-level definition of RFC 4648."
},
"C06": {
"note": "For every byte string."
},
"C11": {
"note": "C locale."
},
"C61": {
"note": "Strict C++11/14/17 reading of signed shifts: undefined for 5 bytes and more (witness), defined up to 4 bytes."
},
"C07": {
"note": "All 2^64 pairs, with and without assertions; divisor zero characterised."
},
"C08": {
"note": "All pairs of unsigned ints."
},
"C09": {
"note": "The result is characterised exactly (sum modulo 2^31); the claim for sums between 2^31 and 2^32 is false (witness)."
},
"C10": {
"note": "Full with allow_more_chars. The rejection test is right only for non-negative values and 1 to 9 characters; wrong at 10 characters (witness), divides by zero from 32 characters on, rejects every negative value."
},
"C14": {
"note": "Every string."
},
"C15": {
"note": "Round trip for packages without ':' and without a segment ending in dds_; false otherwise (witness). The empty type name is undefined behaviour (witness)."
},
"C16": {
"note": "Demangling full. Mangling rejects every service in a nested namespace (proved for all such names)."
},
"C17": {
"note": "Well-formed names full; a name whose _Request_ is not at the end is accepted (witness)."
},
"C18": {
"note": "Unsafe exactly when get_next_command is called twice before any non-empty command is added (fewer than 2^63 calls); the full claim is false (witness)."
},
"C19": {
"note": "Every safe sequence of fewer than 2^63 calls."
},
"C20": {
"note": "Cursor inside the line for every byte sequence. Every sequence of well-formed keys on terminals of positive width; fails with two Down arrows on an empty history and with width 0 (witnesses). What is written to the terminal is C134 and C135."
},
"C21": {
"note": "Every argument not starting with a space; always wrong for a quoted argument starting with a space."
},
"C22": {
"note": "Exact arithmetic and a clock that does not go backwards; for any arithmetic the result is the ordered sum of the measured playing intervals. The clock in use can go backwards (witness) and the millisecond count is undefined after 2^32 ms (witness)."
},
"C23": {
"note": "Equivalence and negation full. The documented equality holds only for levels below 0 or equal levels from 20 on; two refutations."
},
"C24": {
"note": "Verbosity and filters: every sequence of settings. An incomplete filter is partly applied before the exception (witness)."
},
"C52": {
"note": "Acceptance full, regular expression search a parameter. Severe handlers: exact while no later handler has a more severe threshold; otherwise entries are lost (witness)."
},
"C59": {
"note": "Also when entries arrive between the two readings."
},
"C25": {
"note": "Maps are association lists in iteration order. refactor_values on a map of keys to values does not compile when instantiated and is left out."
},
"C26": {
"note": "Round trips under pairwise different enumerator names; the preprocessor macros COUNT_ARGUMENTS and APPLY_MACRO_FOR_EACH are modelled as selection of an argument, right up to 18 enumerators."
},
"C27": {
"note": "leaf and all_nodes proved; depth() is false of the code: it never adds one and is 0 for every tree."
},
"C28": {
"note": "False as stated: two pointers to equal values in the first set make the answer wrong and not symmetric (refuted). Proved when the first set points to pairwise different values."
},
"C53": {
"note": "False as stated: the text is cut at the first NUL character (refuted); proved for text without NUL and the exact text given otherwise."
},
"C54": {
"note": "Proved for every content and flags; carriage returns inside a line are removed too when stripping (refuted witness)."
},
"C60": {
"note": "container_to_stream for every container and separator; the mask text determines the mask except empty versus the invalid policy. The numeric order of Fast DDS policy identifiers is assumed."
},
"C31": {
"note": "For every handler, any number of threads and every schedule, including spurious wake-ups and time outs: what wait returns is true at the moment it returns (for wait_and_decrement, before the unit was taken)."
},
"C32": {
"note": "Proved: handler disabled, counter zero, nobody blocked in the condition variable. Refuted as stated: blocking_disable reads threads_waiting_ without the mutex, so it may return while a waiter is still inside wait and still owns the mutex (destruction then destroys an owned mutex)."
},
"C33": {
"note": "Plain handlers: proved for clients that never set a value fulfilling a waited condition with notify=false. Counters: proved for unit waiters. Threshold waiters: proved when increments do not reach the threshold, refuted otherwise (operator++ never notifies threshold_reached_cv_)."
},
"C34": {
"note": "Proved for threads waiting for a value or a unit, including that blocking_disable can always go on to return when nobody sleeps until the threshold. Refuted for threads waiting for the threshold: disable notifies only wait_condition_variable_, so an untimed wait_threshold_reached and blocking_disable wait for ever."
},
"C29": {
"note": "Detailed model: the counter of C31-C34 with the double-buffered queue at the granularity of its mutexes. Holds for every initial value."
},
"C30": {
"note": "Proved for handlers created with value 0, for any number of elements (also when the counter overflows). Refuted for a positive initial value, which the constructor accepts."
},
"C62": {
"note": "Right modulo 2^32; refuted when 2^32 elements are queued: the count is then 0."
},
"C63": {
"note": "All histories."
},
"C64": {
"note": "All trees."
},
"C35": {
"note": "Every task executed was emitted and registered, at most once per emission, and the threads take tasks in the order of emission. Order of execution: proved for a pool of one thread, refuted for two (a thread can be overtaken between taking and running its task)."
},
"C36": {
"note": "Refuted for a pool that is enabled again: disable leaves the queue disabled for ever, so after the first disable nothing is ever executed although emit and enable succeed. Proved for the pool before its first disable: when all its threads are asleep everything emitted has been executed."
},
"C37": {
"note": "Refuted: wait_all_consumed can report success before the last task has started. Proved: at most one task per thread of the pool (plus those of emit calls in progress) has not started."
},
"C49": {
"note": "RandomManager: every sequence of calls. TSafeRandomManager: every interleaving is linearizable, without deadlock. std::mt19937 is an arbitrary generator."
},
"C50": {
"note": "SafeInitializableSingleton: linearizable, one instance, one success, no deadlock; constructors may throw. Refuted for InitializableSingleton, whose second initialisation replaces the instance (it is documented for static initialisation only). Singleton rests on the language's guarantee for static variables."
},
"C51": {
"note": "Order, equality, success and printing proved for all codes. Faithfulness refuted: nine middleware codes become one, the order of codes changes, and a code rebuilt from its own number differs."
},
"C56": {
"note": "Proved up to 2^32 calls, and shown that the bound is exact."
},
"C38": {
"note": "Linearizable to an ordinary map with no data race for every interleaving of any number of threads, with find iterators that are not copied; no deadlock when shared locks need not wait for waiting writers. Refuted parts: find takes the shared lock twice, so with a writer-priority mutex it deadlocks with a writer; a thread that keeps an iterator and modifies waits for itself."
},
"C39": {
"note": "Proved: while an uncopied iterator exists no step changes the map; an iterator returned by find stays valid. Refuted: begin/end read the map before locking (race and dangling iterator); copying an iterator does not lock but destroying the copy unlocks."
},
"C40": {
"note": "Proved for every type, child class, configuration and sequence of loans, uses and returns: distinctness, loans never fail and are as new, number of allocations, destruction. Partial: with fewer than 2^32 elements returns work and returns of nothing are rejected. Refuted: double returns accepted when another element is on loan; 2^32 elements; leaked loans at destruction; initial size ignored without a child class; destructor never uses the overridden delete_element_."
},
"C41": {
"note": "Proved for every number of threads and every interleaving of owners (reset, move, move-assignment), lessees, guards: a guard with data has data that is not destroyed, destruction never happens under a guard, exactly once per data when no owner has it, nothing is obtained afterwards, no deadlock between lessees. Partial: no use of destroyed data if -> of lessees is not used; no data race if operator bool of lessees is not used. Refuted: operator bool of a lessee races with reset and may say true for destroyed data."
},
"C42": {
"note": "Refuted: operator-> drops its guard before the method runs, so the owner may destroy the data meanwhile (use after free). Partial: the pointer is valid when it is read."
},
"C43": {
"note": "Partial: with guards that are moved and destroyed, reset can go on as soon as no guard is left. Refuted: move-assigning over a guard with data (the compiler-made operator) keeps its lock for ever and reset never returns."
},
"C44": {
"note": "Proved for any number of threads and handlers and every interleaving: count + decrements = counted events modulo 2^32 since the last reset, exactly below 2^32 (partial); each callback call is counted once when it returns; only the set callback is called; an empty one never. Refuted: a callback running across reset_event_count is counted after it; after 2^32 calls the count is 0. wait_mutex_ critical sections are atomic steps."
},
"C45": {
"note": "Proved for every interleaving: after unset_callback returned, only callbacks set later are called; when it returns nobody is blocked in wait_for_event. Partial: the callback is not running and not replaced while running if callbacks call no handler function; no deadlock if moreover handlers forward to each other without cycles. Refuted otherwise: a callback that unsets its own handler (another unset returns while it is running, its std::function is assigned while running, or both deadlock), and two handlers forwarding to each other."
},
"C46": {
"note": "Partial: the answer is exactly whether the counted events minus decrements reach n (below 2^32 events); false only if the callback was not set at some moment of the call or the counter was reset or decremented meanwhile. Proved: a blocked waiter lacks events or somebody is about to wake it. Refuted: reset between the event and the answer."
},
"C48": {
"note": "Partial: for any number of handlers, multiple handlers registered in one another to any depth, events and threads, when no event is being handled, the count of a multiple handler is the sum of the counts of its handlers modulo 2^32, provided nobody resets, decrements or simulates events of multiple handlers, or changes the forwarding callbacks. C48_reset_refuted: resetting a handler's own counter breaks the sum."
},
"C55": {
"note": "Partial: for every whole second of the nanosecond clock (1677-2262) but 1969-12-31 23:59:59, and every format with all six fields, writing and reading is the identity; date_to_timestamp counts the seconds of an independently specified calendar. Refuted: the second before 1970 cannot be read back; dates outside 1677-2262 overflow. Local time is C144; Windows and other format directives are not modelled; gmtime, timegm, put_time and get_time are models of glibc and libstdc++."
},
"C65": {
"note": "Proved for all timestamps of the clock."
},
"C66": {
"note": "Partial: provided the result is representable; C66_today_refuted: otherwise the behaviour is undefined."
},
"C67": {
"note": "Partial from 1970 on; refuted before 1970 (truncation towards zero)."
},
"C68": {
"note": "Refuted: non-existing days, trailing characters and years of two digits are not rejected. Proved: whatever is not rejected begins with the digits of a date whose numbers are in their ranges, and the timestamp read is that date if it exists."
},
"C69": {
"note": "Proved when a single thread calls enable and disable. Refuted in general: a second, concurrent call to disable returns at once while tasks are still running."
},
"C47": {
"note": "Each dispatch calls all registered callbacks once in order of identifiers; arrivals = dispatches + pending modulo 2^32. Full claim refuted: the notification is sent without the mutex, so a signal may stay undispatched until the next one; identifiers repeat after 2^32 registrations."
},
"C70": {
"note": "Full, for any schedule of the model."
},
"C71": {
"note": "Full; calls made during or after destruction are not modelled."
},
"C72": {
"note": "For fewer than 2^32 registrations and if nobody else unregisters identifiers; refuted without that: unset_callback throws in a noexcept function."
},
"C73": {
"note": "Progress of some thread when callbacks call no function of the manager; refuted otherwise (the mutex of the callbacks is not recursive and is locked while they run)."
},
"C12": {
"note": "Exact when the number and the result are doubles (53 binary digits) and the amount is at most the integer part of (2^64-1)/unit; otherwise within one byte and relative error 2^-51. Full claim refuted: 1.001KB gives 1000, 9007199254740993B loses one byte, 16383.5PiB fits but is refused, 2^64-1 B is undefined behaviour, out_of_range for numbers std::stod refuses."
},
"C13": {
"note": "Multiples of the unit exact for all 64-bit numbers; every number within 1/99 (no decimals) or 1/199 (two decimals) with the right unit. Refuted: 1009 prints 1KB, 999999 prints 1000.00KB, 2^64-1 cannot be read back."
},
"C74": {
"note": "One thread, calls only while set, unset waits: for everything. Progress, return of unset_callback and further calls: for callbacks that do not use their own handler; C76_unset_refuted and C76_set_refuted show why."
},
"C75": {
"note": "Never sooner than a period after the last call returned, and exactly then without delays; so a callback that takes as long as the period is called every second period (refuted). Zero rejected."
},
"C76": {
"note": "Refuted: unset from the callback blocks for ever holding the mutex of the handler; set from the callback blocks for ever if another thread has begun to set or unset. Partial: set works while no other thread is inside."
},
"C57": {
"note": "C57_watched_partial: if the last set_callback created the watcher (no constructor failure) and no call is in progress, both threads run and the inotify watch exists; callbacks that use their own handler excluded. C57_failure_refuted: when the constructor of the watcher throws, set_callback returns normally (the InitializationException is constructed and not thrown), the started flag is set, and the file is not watched until unset_callback is called, however often set_callback is called again."
},
"C77": {
"note": "Full, including callbacks that use their own handler."
},
"C78": {
"note": "C78_in_order: full (prefix, all schedules). C78_delivered_partial: callbacks that do not use their own handler (C80_unset_refuted and C80_set_refuted show why); bound on the steps of the watcher alone; inotify queue overflow not modelled."
},
"C79": {
"note": "C79_progress_partial: with callbacks that do not use their own handler, some step of the threads of the library is enabled, except in two situations; C79_deaf_partial: the first one needs the watched directory to have been removed; C79_awake_partial: the second one needs something to come between the test of the condition and the wait. Both are refuted: a notification lost between the test and the wait (the destroyed flag is set without the mutex), and a watched directory that was removed (inotify_rm_watch then wakes nobody)."
},
"C80": {
"note": "C80_unset_refuted: unset_callback from the callback joins its own thread: exception out of a noexcept function, std::terminate. C80_set_refuted: set_callback from the callback blocks for ever together with set_callback or unset_callback of another thread. C80_no_terminate_partial: otherwise never terminate."
},
"C81": {
"note": "C81_single_file: full. C81_folder_partial: exactly the names without line feed and carriage return; C81_folder_refuted: other names never reported (regex .* does not match them)."
},
"C82": {
"note": "Refuted: C82_leak shows every failure after inotify_init leaves a descriptor open."
},
"C58": {
"note": "C58_refuted: the entries are a member declared after the connection with the log, so they are destroyed first, and the thread of the log may store an entry in between (both classes). C58_window: only then. C58_after, C58_after_inside: nothing of the handler is touched after the connection is closed. C58_partial: entries given only between construction and destruction."
},
"C83": {
"note": "C83_threshold_partial for entries given between the end of the constructor and the start of the destructor; refuted for entries given during construction or destruction (virtual call goes to the base class), and the threshold may be read before it is initialised."
},
"C84": {
"note": "C84_order, C84_only_set, C84_unset: full. C84_each_partial: entries given to a complete handler; C84_construction_refuted shows why. One owner thread."
},
"C85": {
"note": "Full: bound on the steps of the threads, and when none is possible the owner is not inside a function."
},
"C86": {
"note": "C86_reached_partial when no other severe handler is constructed; refuted when another handler with a lower threshold is constructed later, and construction with threshold Warning lowers a verbosity Info."
},
"C87": {
"note": "Proved for lines_to_read >= 0 and fewer than 2^32 requests. Refuted otherwise: a negative number makes the handler read, and 2^32 requests are none."
},
"C88": {
"note": "Order and exactly-once proved; a line ended while unset_callback runs is dropped (refuted), and only such lines are."
},
"C89": {
"note": "Proved."
},
"C90": {
"note": "Proved unless a line is being read; then it returns exactly when the user ends that line. Refuted when nobody types."
},
"C91": {
"note": "read_one_more_line may be called. Refuted for unset_callback (the thread joins itself: terminate) and for set_callback (deadlock with another thread inside set_callback or unset_callback)."
},
"C92": {
"note": "Partial: one handler at a time, or several without overlap; while a line is read exactly echo, line editing and signals are off. Refuted for handlers that overlap: the static variable with the saved mode is overwritten with the raw mode."
},
"C93": {
"note": "Refuted: nothing is ever read from the stream, so a line available there is not delivered."
},
"C94": {
"note": "Order and one line per call proved for all runs; not reading ahead and returning proved when lines are requested with read_next_command only (stdin_handler().read_one_more_line() is public, and C94_ahead_refuted uses it)."
},
"C95": {
"note": "Proved when lines are requested with read_next_command only. Refuted with stdin_handler().read_one_more_line(): the queue is destroyed before the handler, whose thread may use it or wait for the user."
},
"C96": {
"note": "The reasons are exactly the state of the handler when wait returns. The documented priority of timeout over condition_met is refuted."
},
"C97": {
"note": "Sleeping threads always have a false condition, unconditionally; all threads come to rest in a bounded number of their own steps unless blocking_disable is used (C97_progress_refuted, C99)."
},
"C98": {
"note": "Partial: as long as the handler stays disabled until the threads have taken the lock. Refuted when it is enabled again before that."
},
"C99": {
"note": "Refuted: it never returns, nor does any other function of the handler, when a thread is waiting (it spins with the lock the threads need) or when a predicate ever raised an exception (the counter of waiting threads stays incremented). Partial: returns at once otherwise."
},
"C100": {
"note": "Replay of the history of effects."
},
"C101": {
"note": "All programs without undefined behaviour; single thread."
},
"C102": {
"note": "Stated for each operation from any state."
},
"C103": {
"note": "Single non-virtual inheritance."
},
"C104": {
"note": "Refuted: comparing or casting a moved-from variable, implicit conversion to a derived class that is not that of the object, and objects of derived classes of a base without virtual destructor (as in the library's own unit test). Partial: programs that avoid the three have none."
},
"C105": {
"note": "Proved: a message printed is printed once per format ever set (with the constructor's), in that order; exactly once with the default format when set_format is never called. Refuted: set_format adds a handler instead of replacing it, so messages are printed twice after one call. The standard library's logging module is modelled after its source (CPython 3.11); one thread; validity of formats is a parameter."
},
"C106": {
"note": "Proved: whether a level is printed is decided by the settings when that level was first used; levels not used before follow the level set last. Refuted: the constructor bypasses logging.getLogger, so setLevel does not clear this logger's cache: activate_debug has no effect on DEBUG messages once one was logged, and raising the level does not stop INFO messages."
},
"C107": {
"note": "Proved for all lists of texts whose only white space are blanks, with either separator; no value has a semicolon or a blank for any text."
},
"C108": {
"note": "Proved when no argument has a %: the text is the template with all fields filled in simultaneously, and the enumeration, array of names and number of values stand in it in the stated form. Refuted with a field name between % in the output file name. ASCII texts."
},
"C109": {
"note": "Proved for all lists of different identifiers with either separator, with enumerators and names read from the generated text. Refuted for a trailing separator, for values with numbers (to_string undefined) and for both separators together. Whether identifiers are C++ keywords is not modelled."
},
"C110": {
"note": "Proved: the command closes the comment only if an argument with a - has */; the file name never does; braces balance when the arguments have none. Refuted with --output=gen*/E.hpp."
},
"C111": {
"note": "Proved for any sequence of calls when no option takes some next elements and ignores others (or gnu is off), indices are below 2^31 and fewer than 2^31-1 options are counted; refuted for check functions that depend on the next element with gnu (more options are stored than counted) and for index 2^32-1. With bufmax no write outside the arrays at all."
},
"C112": {
"note": "Declarative reading relation; all theorems hold after any number of earlier calls and for all check functions. Names without '='."
},
"C113": {
"note": "Proved when every option either ignores the next element or must have one; refuted for optional detached arguments, and the documented remark that gnu is needed for Stats only is refuted for command lines with an error."
},
"C114": {
"note": "Tagged pointers modelled; built = any sequence of calls of parse."
},
"C115": {
"note": "The names under which the options were written differ, which alike leaves out."
},
"C116": {
"note": "Refuted for the empty name: --=v is read as the first option with only a short name."
},
"C117": {
"note": "fnmatch modelled after glibc's algorithm (FNM_NOESCAPE, C locale); reading bracket expressions is a parameter."
},
"C118": {
"note": "Partial: texts with wildcards do not match themselves, a backslash does not quote, and what follows a NUL is not looked at (refuted)."
},
"C119": {
"note": "Values of the enumeration as ints."
},
"C120": {
"note": "Proved within three microseconds for clocks from 1970 to 2106 that do not go back; refuted when the system clock is set back (time.time() is not monotonic): the elapsed time is negative; times below the resolution measure 0."
},
"C121": {
"note": "Proved when repr of the arguments does not raise. Refuted otherwise (the texts are made even if the level is off, and the function is not called), and the name of a decorated function is lost (no functools.wraps)."
},
"C122": {
"note": "Proved for every properly ended array of descriptors with short options (possibly empty), texts without byte 0xFF, every width, and percentages up to 214748. Refuted otherwise: byte 0xFF is clz(0); a missing last element is read beyond; percentages overflow; an entry without short options loops for ever."
},
"C123": {
"note": "Proved for the first eight columns: the lines of a row are an interleaving of the columns. Refuted for a ninth column, which is dropped."
},
"C124": {
"note": "Proved when the columns before the last one leave two columns of the width and the own line of the last column has two, with wide and multi-byte characters and invalid UTF-8. Refuted for cells before the last column that do not fit, and for width 1. The columns counted are those of the characters of texts in UTF-8, with the documented wide ones (C124_columns)."
},
"C125": {
"note": "Proved exactly, character by character, for tables of rows of single lines that fit. Refuted when the last column is empty in all rows, and for cells after one that does not fit (the position is not reset at column 0)."
},
"C126": {
"note": "Proved of emit and slot, from every reachable state and with steps only of threads that are inside the pool, not of tasks. Refuted of disable (the task joins its own thread; in the code join throws resource_deadlock_would_occur inside a noexcept function) and of wait_all_consumed with another task in the queue of a pool of one thread."
},
"C127": {
"note": "Proved: while the queue is enabled the pool has lost exactly one thread per task that threw, and a pool without threads executes nothing until it is disabled, also if enable is called again. Refuted: the only thread of a pool is lost, and a task that emit accepts is never executed. Missing: exceptions other than DisabledException end the program."
},
"C128": {
"note": "Exact conditions proved for all enumerators; the property holds without explicit values. Refuted with explicit values: text read beyond the array of names, another enumerator's text, and values that no enumerator has."
},
"C129": {
"note": "Proved for arguments without effects, whose operators bind tighter than <, when the use is the whole expression or in parentheses. Refuted for a use inside a sum, for nested uses and for arguments with effects. Tree::depth is a use of the first kind."
},
"C130": {
"note": "Proved for messages without NUL characters; refuted for messages with one and for null pointers (libstdc++)."
},
"C131": {
"note": "Proved for every allocator, and for keys ordered by < consistently with ==; for other orders one key of each class remains, a refutation for unordered_map."
},
"C132": {
"note": "Proved for programs without 'use ; else', and exactly those compile; entries are queued only with verbosity Info, and the message is evaluated only then. Refuted: if (c) logDebug(..); else compiles only in builds without logDebug, with logUser never; logDevError queues a warning, and logUser ignores the verbosity."
},
"C133": {
"note": "Proved for messages of items between << whose operators bind tighter. Refuted for conditional expressions without parentheses, which compile and write the condition instead of the value; a shift writes both operands."
},
"C134": {
"note": "Missing: cursor movements from or to the position behind a line that fills its last row, keys that leave a line from a row that is not its last, lines higher than the screen (all three refuted), other characters than printable ASCII, a width that changes."
},
"C135": {
"note": "Missing: as for C134; Left behind a full row and history keys in the first row of a long line are refuted."
},
"C136": {
"note": "access(2) is modelled after POSIX for a process that may or may not read, write and execute the file; other errors than missing files and missing permissions are not modelled."
},
"C137": {
"note": "Missing: allocation failure (refuted: undefined behaviour)."
},
"C138": {
"note": "Full for the documented use (many writers, one reader): linearizability, absence of data races and deadlocks for any use (C138_linear, C138_content, C138_progress); order, no undefined reads and validity of references for one reader that swaps when there is nothing to read (C138_order, C138_defined, C138_both_empty, C138_reference). The refutations show what goes wrong outside this use: two readers, and a swap with elements left."
},
"C139": {
"note": "Partial: not early if the clock is never set forward (C139_not_early_partial), not late if it is never set back (C139_not_late_partial). The general claim is false, because the deadline is a moment of the system clock: with the clock set forward a wait of any length times out at once (C139_early_refuted), with the clock set back a wait of a millisecond lasts arbitrarily long (C139_late_refuted)."
},
"C140": {
"note": "Full: linearizability of whole guarded uses and absence of data races (C140_atomic), the object between uses (C140_object), every use can end (C140_returns). C140_guard_needed: the class does not force its users to take a guard, and without one, or with a shared one for writing, there are data races."
},
"C141": {
"note": "Proved for files with each key once, a number after it, and no semicolon, in any order and with any other text, and for the documented file. Refuted: the string has a v although it is documented without; a second file in the same scope gives its numbers and the old version; a key that ends in the same way takes the place of the right one; a file without a key gives a version without a number and no error; semicolons disappear."
},
"C142": {
"note": "Proved for files that are there, labels that are not empty and without special characters, test names without brackets or backslashes, and no variable with the name of the test. Each of these is needed: refuted for a file that is not there, which drops the labels after it; for labels with a semicolon; for empty labels; for such a variable; and for two directories of a project, the second of which replaces the labels of the first."
},
"C143": {
"note": "Proved for all options but BUILD_DOCS and LOG_INFO, and what these two are instead. Refuted: BUILD_DOCS follows BUILD_ALL too; LOG_INFO is ON in debug builds; LOG_INFO set by a project is taken away under the old policy CMP0126, so that a second package turns it off; a build that becomes a debug build has no logs, because set(LOG_INFO CACHE BOOL OFF) stores an empty value with OFF as its description."
},
"C144": {
"note": "Proved: what is read from the text of a timestamp has the same text; it is the same timestamp to the second if the clocks of the zone show its local time once and it is not one second before 1970 in UTC; in a zone without changes each is shown once; texts sort as the local times do. Refuted: an hour that clocks repeat does not survive, whatever mktime does, and its texts do not sort in time order; the second before 1970 is taken for a failure. The zone and mktime are parameters; what the standard says of mktime is a hypothesis."
},
"C145": {
"note": "Proved: what the file sets is kept unless CMake takes its text for false; what neither the file nor the scope sets has its documented default unless that is a list; a name is enough to succeed. Refuted: texts such as NO are replaced by the default; a package in a subdirectory inherits what its file does not say from the package around it; a summary with a semicolon at its end loses it as the description. Also proved: the default paths of thirdparties, version file and licence, of the target name, and of the dependencies from the list of packages. Refuted: the default of the summary is not the large name, as the documentation says."
},
"C146": {
"note": "Proved, on the model of printUsage of C122 to C125 (short options and a proper end: see the refutations of C122)."
},
"C147": {
"note": "Every package is looked for, in order. A minimum version of one or two numbers that is not zero is asked for. A version such as 3.0.0, the documented example, is neither a number nor a variable for the condition of find_external.cmake, so no version is asked for: C147_minimum_refuted. C147_calls says exactly what is asked for when minimum versions are numbers with points between them."
},
"C148": {
"note": "The standard, the flags, the defaults, what stays and when it stops are all proved. The documented default of MODULE_CPP_VERSION, the empty text, stops CMake when it is given: C148_empty_refuted."
},
"C149": {
"note": "Proved for lists that CMake does not take for false. Refuted: a single case whose name is a false constant of CMake, such as no, has no test of its own; instances of tests with type parameters are run by none; a test also runs the cases of the same name of suites whose name begins with its own."
},
"C150": {
"note": "Given directories and the documented defaults are proved. The documented default share/ of the license directory is refuted: it is share//NAME, or . on Windows. Refuted also: a second package of the same build has the license directory of the first, because it stays in the cache."
},
"C151": {
"note": "Proved: the path is the directories of the libraries reached through libraries with files, each once, then those of the environment; all of them if interface libraries are linked to nothing; there is a path if no library depends on itself. Refuted: libraries reached only through interface libraries are missing, and with libraries that depend on each other, which CMake admits for static ones, the function has no end."
},
"C152": {
"note": "In every reachable state of the pool, with any numbers of clients and of threads and any calls, a client inside disable has a continuation, made only of threads going on with what they are doing, after which its call has returned; each thread of a pool whose queue is disabled has such a continuation to its end. And every such continuation, in any order, is of bounded length, and when no thread can go on no call of disable is left: so disable returns under every schedule that does not stop while a thread can go on. The end of a task is one step, so tasks are assumed to end; a task that disables its own pool never returns, see C126."
},
"C153": {
"note": "A potential decreases with each step of any thread, so that without further calls the threads come to rest in any order. At rest, with a thread of the pool left and the queue enabled, the emitted tasks are those that started and those that ended, and no call of emit, slot or the wait for tasks is left. Tasks are assumed to end, and an exception counts as the end of a task. After disable the queue stays disabled for ever, see C36, and when all threads were ended by exceptions nothing is executed, see C127."
},
"C154": {
"note": "Proved for every schedule: a potential bounds the number of steps, and the states in which no thread can go on are characterised. blocking_disable and stop_and_continue are left out of the bound only, since their loop waits for the waiting threads to leave (C34)."
},
"C155": {
"note": "Libraries and tools: the sources found are exactly all C and C++ files at any depth, or exactly the given ones. Partial and refuted: the patterns for header files (Visual Studio) and for the sources of tests have two asterisks, which CMake takes as one directory, so files directly in the directory are missing (compile_library.cmake:61-66, test_utils.cmake:23-28); header files given as fourth argument are ignored, the sources are used twice (compile_library.cmake:69); ARGV2 of a calling function is taken for the sources if there is none; include directories of a tool are added to the target named like the project (compile_tool.cmake:61). The order of found files and links are not modelled."
},
"C156": {
"note": "C156_rest_partial: for callbacks that call no function of the manager, bound on the steps of the threads, and at rest every function has returned. C156_dispatched_partial: while the manager lives, all signals are dispatched for fewer than 2^32 signals unless a notification came between the test and the wait. Both restrictions are needed: C156_nested_refuted, C156_lost_refuted."
},
"C157": {
"note": "For callbacks that do not use their own handler: bound on the steps of the threads, what holds when none is possible, and the call after a period under every schedule. Refuted without that restriction: a callback that unsets its own handler blocks everybody."
},
"C158": {
"note": "While the directory is there and for callbacks that do not use their own handler: bound on the steps of the threads; when none is possible everything is done, unless the thread that calls was forgotten in its sleep, which does not happen when nothing comes between its test and its sleep. Refuted without these restrictions: a lost notification, and a removed directory, leave unset_callback blocked for ever."
},
"C159": {
"note": "Proved: a build in the sources stops; a name and a version file suffice; settings that are not false keep their value but for LOG_INFO, the directories that are always set and the numbers of the version; the version is kept if the version and all numbers are given, and is that of the file if none is; the commit is the given one or that of the source directory of the build. Refuted otherwise: a number given alone is replaced by that of the file; a version given alone disagrees with the numbers; there is no version string if all else is given; a package configured below another one has the version of that one and the commit of the top directory."
},
"C160": {
"note": "Proved: name, version and numbers, description, licence, resources with a relative path of one element, no other variables; the version of the version file for a configured package. Refuted: the summary of the module is not used, so that of the package is empty; an absolute path of resources; an empty path stops CMake; of two paths the second is taken as the destination."
},
"C161": {
"note": "Proved for options that are ON or OFF if given. Refuted: tests of a library that is not built are left out; BUILD_ALL ON builds everything (it builds no tests); BUILD_ALL OFF (documented as: build package) leaves the library out. The search for GoogleTest and Sphinx is not modelled."
},
"C162": {
"note": "Proved for all macros defined before: exported or imported, errors, what is linked; for CMake builds the file is that of the library with Release and Debug. Refuted: MinSizeRel and RelWithDebInfo are linked with a file that does not exist; of two libraries only the first is linked (the guard of eProsima_auto_link.h is common to all modules); EPROSIMA_ALL_DYN_LINK with EPROSIMA_ALL_STATIC_LINK is no error; EPROSIMA_USER_DLL_EXPORT, that CMake defines, is not the macro that the header tests."
},
"C163": {
"note": "Proved for lines that are empty or have no characters special in lists: the label, the other tests, errors. Refuted: the label replaces those a test has, so a test of both lists has only the last label."
}
}
