# Formal model of eProsima/dev-utils in Rocq (Coq 8.16.1)

## 1. What is here

* `properties.jsonl`: the semantic properties (C01, C02, ...).
* `rocq/theories/`: the model, the proofs and the property theorems.
* `MANIFEST.json`: property -> theorems.
* `seeded/LOG.jsonl`: seeded wrong programs and the theorems that rejected them.

Each area `X` is split in up to four files:

| file | content |
|---|---|
| `X_model.v` | Gallina transcription of the C++ (each definition cites file and lines) |
| `X_spec.v` | small independent vocabulary used by the statements (absent when the standard library suffices) |
| `X_proofs.v` | lemmas |
| `X_props.v` | only the property theorems, each closed by `exact`, each followed by `Print Assumptions` and by an `Example` showing that its hypotheses are met |

## 2. Modelling conventions

* **Bytes and strings.** `std::string` is `list ascii` (a `char` is a byte); literals are written with `s "..."`.
  Positions are `nat`; `npos` is `None`. Lengths near 2^64 are out of scope (a string that long does not fit in memory),
  except where the code itself computes with wrapping `size_t` values (history index), which is modelled with explicit
  `mod 2^64`.
* **Integers.** `unsigned int` is `Z` or `N` with explicit reduction modulo 2^32; `int` conversions are explicit.
* **Undefined behaviour, exceptions, divergence** are separate outcomes, never default values. Loops that may not
  terminate are fuelled functions returning `None` when out of fuel; theorems quantify the fuel ("for all fuel it is
  still running", "for some fuel it returns r, and for every larger fuel as well").
* **Concurrency.** A class protected by mutexes is a labelled transition system. One step is one critical section (or one
  atomic access, or one externally visible point between two critical sections). Thread-local state (program counter,
  locals) is part of the state. Executions are arbitrary finite sequences of labels: every number of threads, every
  schedule, every choice of which waiter is woken, spurious wake-ups included where the property must tolerate them.
  Sequentially consistent atomics (all atomics in the code use the default order). Mutex fairness and termination of
  user callbacks are not modelled.
* **External code** (regular expressions, Mersenne twister, `fnmatch`, the OS, Fast DDS) appears as an explicit function
  argument (a `Section` variable generalised on `End`), never as an axiom.
* **Findings.** When the code violates a property as a user would state it, the full statement is refuted by a theorem with
  suffix `_refuted` exhibiting a witness, and the strongest guarded statement found is proved with suffix `_partial`.
  The manifest marks such a property `partial`.

## 3. Trusted base

* Coq 8.16.1 kernel (`coqc`), including `vm_compute` conversion.
* The reading of the C++ by the author: no extraction and no execution of /repo code takes place.
* Axioms: see section 6 (result of `Print Assumptions`).

## 4. Plan per property

| id | model | proof |
|---|---|---|
| C01 | `find`, `replace_first`, `replace_all` on byte lists, fuelled loop | invariant over the loop; termination measure: number of occurrences of a character, or length; divergence witness by invariant over all fuel |
| C02 | `split_string` fuelled loop, fold over delimiter set | induction on the fuel; joins; empty delimiter diverges |
| C03 | fold of `replace_all` with empty replacement | default set = `filter`; counterexample set for the general claim |
| C04-C06 | bit accumulators with 32-bit two's complement wrap | invariant relating accumulator low bits to the bit string; spec = list of booleans cut in sixes |
| C07-C09 | 32-bit `Z` arithmetic, fuel-free recursion on positives | `Z.land` lemmas, strong induction; overflow witness |
| C10 | decimal printer, unsigned check | length of decimal printing; witnesses for wrap and division by zero |
| C11 | per-byte maps | finite sweep over 256 bytes lifted by `Forall` |
| C12, C13 | parser on bytes; binary64 arithmetic with explicit rounding | exactness lemma for integers below 2^53; witnesses for rounding and boundary |
| C14-C17 | string functions on byte lists | list lemmas on `find`/prefix/suffix |
| C18, C19 | record (commands, index mod 2^64), UB outcome | invariant by induction over calls; refinement to list-with-cursor |
| C20 | key automaton over (line, cursor, history) | refinement to a zipper |
| C21 | split + join of quoted tokens | induction over arguments |
| C22 | clock readings as inputs | refinement to sum of playing intervals |
| C23, C24 | level/value records, set fold | case analysis, induction over settings |
| C25, C26 | association lists | induction |
| C27 | rose tree | nested induction, `Permutation` |
| C28 | pointer identity + pointee | witness and guarded theorem |
| C29, C30 | LTS of producers/consumers over counter + double buffered queue | invariant: history of pushes = history of pops ++ queue contents; counter <= queued |
| C31-C34 | LTS of waiters, writers, enable/disable with condition variables | invariants; stuck state witness for C34 |
| C35-C37 | LTS of pool threads on top of the queue | invariant; absorbing state for C36; witness for C37 |
| C38, C39 | LTS with reader/writer lock | simulation to sequential map; witness for the `begin` race |
| C40 | record (free, reserved, loaned) | invariant by induction |
| C41-C43 | LTS with shared/exclusive lock, guards, owner | invariant; witnesses |
| C44-C48 | LTS of event handler(s) | invariants; witnesses |
| C49 | abstract generator | non-interference by induction |
| C50 | state machine | induction |
| C51, C52, C59, C60 | tables and decision functions | case analysis, induction on lists |
| C53, C54 | streams as byte lists | induction |
| C55 | civil calendar arithmetic on `Z`, fixed format printer/parser | round trip by arithmetic on eras |
| C56 | atomic counter | induction |
| C57, C77-C82 | LTS of the watcher: handler, FileWatch with its two threads, inotify queue; regular expression as a parameter | invariants over reachable states; hang by lost notification refuted by a schedule; leak and wrong-file witnesses |
| C58, C83-C86 | LTS of one owner thread, the log thread of Fast DDS, vptr as an atomic word | invariants; schedules for use after the derived part is gone |
| C61 | shifts and additions of base64 with range checks | every operation in range for short inputs; overflow witness |
| C62 | consumer LTS with 32-bit counters | invariant; overflow witness at 2^32 by induction over schedules |
| C63, C64 | Fuzzy and Tree operations | case analysis, induction |
| C65-C68 | calendar model of C55 | monotonicity of printing; day arithmetic; refutation by witnesses |
| C69 | pool stop LTS | invariant |
| C70-C73 | signal manager LTS with its thread and condition variable | invariants, refutations by schedules (deadlocks) |
| C74-C76 | periodic handler LTS, time in milliseconds | invariants; drift bound; schedules for self-calls |
| C87-C93 | standard input handler LTS, terminal flags as a bit mask | invariants; refutations by schedules |
| C94, C95 | command reader on top of the standard input handler | invariants |
| C96-C100 | Python wait handlers on top of CPython's `threading.Condition` | invariants; refutations by schedules |
| C101-C104 | Heritable: variables, control blocks, class hierarchy | invariant (reference counts), refinement; witnesses for undefined behaviour |
| C105, C106 | CPython `logging` with its level cache | refinement to last setting; witnesses |
| C107-C110 | Python text functions and the template; reading of the generated C++ | list lemmas; witnesses |
| C111-C116 | option parser: `workhorse` on the array, check functions as parameters, tagged linked lists in two arrays | bridge function `scan` on lists; declarative relation `reading`; storage invariant; witnesses for the overrun |
| C117-C119 | glibc's `fnmatch` loop on elements of the pattern | equivalence with the declarative language; leftmost search suffices |
| C120 | `Timer.py`: `time.time()` as CPython makes it of a nanosecond clock, doubles as in C12 | rounding is monotone and has a small error; the clock going back refutes the rest |
| C121 | the decorator of `debug_utils.py` on arbitrary functions with results, exceptions, state and messages | case analysis; refuted for arguments whose `repr` raises |
| C122-C125 | `printUsage` of `optionparser.h`: the iterator over tables, rows and parts (with undefined behaviour for `clz(0)` and reading beyond the array), the ring buffer of the line wrapper, the search for column widths and the printing of rows; the writer is a text | the iterator yields the cells of `split_on` (induction over the text); the ring buffer is a queue; invariant of a row: what is written is an interleaving of the columns, what waits in the buffer being the rest of the last one; `columns` is subadditive, so that lines stay within the width; refuted for byte 0xFF, entries without short options, a ninth column, cells that do not fit |
| C126, C127 | the pool LTS of C35 with tasks that call the pool (clients tied to a thread) and that throw | every step of the pool has one of few shapes; from any state the holder of each mutex can go on, so that emit and slot return in at most 12 steps of threads inside the pool; joining the own thread, waiting for the own queue and losing the only thread are absorbing |
| C128 | `ENUMERATION_BUILDER` on arguments with values: their spelling for the preprocessor, their numbers for the compiler | induction over the enumerators; exact conditions, and witnesses where they fail |
| C129 | `MAX` and `MIN` as functions on lists of tokens, with a parser of C++ expressions (from primary to conditional) and their evaluation | the parser reads a prefix alike whatever follows that cannot continue it (induction on its steps); witnesses for uses in larger expressions |
| C130 | constructors and `what` of `Exception.cpp` | induction over the text |
| C131 | `get_keys` on ordered insertion with any strict weak order, `convert_set_to_shared` on a heap with any allocator | induction over the set or map |
| C132 | the three macros of `Log.hpp` and the choice of their definitions as functions on lists of tokens, with a parser of C++ statements (expressions, blocks, `if`, `else`) and their execution in any world | simulation between the parses with and without expansion; an automaton over the tokens shows that a semicolon after a complete statement is never before `else` |
| C133 | the message inside the expansion as tokens, with a parser from primary to conditional expressions, types and evaluation | as C129; induction over the items of the message |
| C134, C135 | what each key writes to the terminal, and a terminal of any size with wrapping and scrolling | invariant: the rows from the prompt on show the line; refutations by keys |
| C136 | the enumeration and its operators on integers, `access` of POSIX | induction over the composition, bit by bit |
| C137 | `malloc` and `memcpy` on a memory of bytes with any allocator | induction over the bytes |
| C138 | transition system with the two mutexes and the two exchanged queues, overlapping accesses recorded; references are numbers of elements | invariant with linearization points; a second invariant of what the reader knows from `empty` and `front` |
| C139 | the wait handlers of C29-C34 with a system clock that somebody may set, beside the time that really passes | invariants of the deadlines of the waiting threads; executions with the clock set forward and back refute the general claim |
| C140 | transition system of an object of any type, its methods in two steps, and its mutex with unique and shared guards; programs of method calls that depend on earlier results | invariant: what remains of each program, from the object as it is, gives what the whole program gives from the linearized object; the holders can always run to their end |
| C141 | `read_version` as a function of the text of the file and of what is defined before | the first place of a key, when the key occurs once; witnesses for the rest |
| C142 | the variables of a directory, lists as texts with semicolons, and the four steps of the macros | splitting undoes joining and escaping; an invariant relates indices, labels and files |
| C143 | the normal variables and the cache as maps; `configure_cmake_options` in four parts | what each step leaves alone; case analysis of the options |
| C144 | the zone as the function of what it adds to UTC, `mktime` as any function of which the theorems assume what the standard says | the lemmas of C67, for years one day further |
| C145 | settings files as lists of set commands; `load_project_settings` on the variables of C143 and the lists of C141 | what each step leaves alone |
| C146 | as C122 | texts in UTF-8 are closed under concatenation, cutting at ASCII characters and cutting where the wrapper cuts |
| C147 | `find_external_projects` on the variables of C143; `find_package` as any function that says which calls find their package | what conditions take versions for; the variables that are set are no versions |
| C148 | `configure_project_cpp` and the modules it calls; the compiler as a record with the flags it accepts | what each step leaves alone; case analysis of the options |
| C149 | the tests and filters that `add_test_executable` registers; the filters of GoogleTest as an inductive relation of its own | what each pattern matches; names have one point |
| C150 | `set_installation_paths` on the variables and cache of C143 | what each step leaves alone |
| C151 | the collection of the directories of linked libraries, calls to itself by fuel | what is in the list after each library; levels of targets for the end |
| C152 | the pool LTS of C35 and C69 | a measure of how far a pool thread is from its end, which the owner of the lock it needs, or the thread itself, decreases; then of the calls of disable |
| C153 | the same LTS | a potential that each step of a thread makes smaller, for every schedule; what is known of a state in which no thread can make a step |
| C154 | the LTS of C29 | the potential of C153 for the queue alone, with enable; which steps are possible for each place a thread can be at |
| C155 | compile_library, compile_tool and all_library_sources with file(GLOB_RECURSE) over trees of directories, and ARGVn that falls through to the caller (CmakeSrc_model) | induction over trees: what the patterns find is exactly the files of all depths (below the first level for patterns with two asterisks); given lists through the list lemmas of C141; refuted: header files directly in the include directory, given header files, arguments of callers, tests without the sources directly in the source directory, include directories of tools |
| C156 | the LTS of C47 | a potential, linear in the pending signals, that every step of the threads decreases; with C73 this gives what holds when no step is possible; refuted for lost notifications and for callbacks that use the manager |
| C157 | the LTS of C74 | a potential that every step of the threads decreases while no time passes; with C74 this gives what holds when no step is possible; an invariant from the end of the wait to the call; refuted for callbacks that unset their own handler |
| C158 | the LTS of C77 to C80 | a potential that every step of the threads decreases; with C77 to C79 this gives what holds when no step is possible; refuted where C79 is |
| C159 | configure_project as the composition of the models of C141, C143, C145 and C150, with git and the files as arguments (CmakeProj_model) | what each step leaves alone, from the lemmas of those properties; refuted by concrete packages |
| C160 | eprosima_packaging and eprosima_install_resources on the variables of C143, calls of install as lists of arguments (CmakePack_model) | what each step leaves alone; composed with C159; refuted by concrete packages |
| C161 | the conditions of compile_library, compile_tool, compile_test_*, compile_documentation after the options of C143 (CmakeParts_model) | cases on what is given, from the defaults of C143; refuted by concrete command lines |
| C162 | the three headers as programs of a small preprocessor, what CMake and the compiler define, and the names CMake gives to the library (Dll_model) | each part of the header for all macros, with what it leaves alone; composed; refuted by the names of two build types and by a program with two libraries |
| C163 | the three macros on the labels of tests, with lists and files of C142 (CmakeXfail_model) | induction on the lines; refuted by a test that is in two lists |

## 5. Not modelled

* Windows branches but for those of C162; colours, and characters that do not take one column of the terminal (C134 and C135 are about printable ASCII); `qos_utils` apart from
  the mask text (C60); macros other than counting and for-each (C26), enumerations (C26, C128), `MAX`/`MIN` (C129) and logging (C132, C133); CMake files but for C141, C142, C143, C145, C147 to C151, C155 and C159 to C163; Python packaging;
  `debug_object_introspection`.
* Memory allocation failure, stack overflow (recursion of `std::regex`, of `Tree` and of `fast_exponential`), performance.
* Code that cannot be instantiated, and is therefore not modelled: `refactor_values` does not compile; `create_pool` does not
  compile because of private inheritance; `LesseePtr(const OwnerPtr&)` is declared but not defined.

Simplifications per area (also in the header comment of each model file):

* *Waiting*: fewer than 2^32 threads; clients use only the public functions of the counter.
* *Thread pool*: the calls that a task makes are those of a client tied to the thread that executes it (`task_rules` of `PoolTask_spec`, C126); a thread that joins itself waits forever, where `std::thread::join` would throw and, in `disable`, end the program. An exception of a task other than `DisabledException` ends the program; the model lets the other threads go on. The destructor running concurrently with other calls is not modelled.
* *Random numbers*: the Mersenne twister is an arbitrary state machine. *Singletons*: the guard of function-local statics is atomic.
* *Owner pointers*: one `OwnerPtr` variable is used by one thread at a time.
* *Event handlers*: sections under `wait_mutex_` are atomic. *Signals*: no calls after the destruction of the manager.
* *Return codes*: the numbers are those of Fast DDS.
* *Times*: glibc and libstdc++ behaviour of `gmtime_r`, `timegm`, `put_time`, `get_time`; local time for any zone and any `mktime` that finds a time with the given local date and time if there is one (C144); nanosecond system clock.
* *Bytes*: binary64 with rounding to nearest; "C" locale; `std::regex` has no stack overflow; glibc's `strtod` reports a range
  error below 2^-1022 only when inexact.
* *Periodic handler*: time in steps of a millisecond, the clock does not jump.
* *File watcher*: Linux; the inotify queue does not overflow; `.` of libstdc++'s regular expressions excludes line ends.
* *Log events*: one owner thread; the log thread and the verbosity of Fast DDS are external; the vptr is an atomic word.
* *Standard input*: POSIX; creating threads succeeds; operations of the activation counter are atomic; `c_lflag` bits 1, 2 and 8.
* *Command reader*: fewer than 2^32 outstanding requests; destroyed with no thread inside.
* *Python*: CPython 3.11 `threading.Condition` and `logging`; predicates do not use their handler; one thread for the logger; `repr` has no side effects (C121).
* *Enumeration generator*: ASCII texts; `argparse` and writing the file left out; C++ keywords not modelled.
* *Heritable*: single non-virtual inheritance; one thread; `shared_ptr` as in the standard; `static_pointer_cast` moves only since C++20 (parameter).
* *Option parser*: argv strings distinct and not overlapping; check functions are functions of name and argument; names are not null.
* *Log macros*: `using namespace` inside the macros changes no name; `std::endl` is a text and the stream is good.
* *CMake*: list expansion, `file(READ)`, `file(STRINGS)`, `IN_LIST`, scopes, `set` and the cache as in the manual and source of CMake; values with semicolons and numbers other than 0 and 1 as conditions are left out of C143, and numbers that are not decimal, minimum versions that are lists or keywords, and variables set by packages out of C147; paths with semicolons are left out of C150; policy CMP0126 is a parameter; the filters of GoogleTest (C149) are as documented.
* *Linkage headers*: the macro of a module is an identifier other than `EPROSIMA` and `EPROSIMA_ALL`; Visual Studio's runtime is that CMake chooses; `project()` has the version of the module (C162).
* *Wildcards*: reading of bracket expressions is a parameter.

## 6. Assumptions reported by Coq

* Every theorem named in `MANIFEST.json` is followed by `Print Assumptions`; all of them answer
  `Closed under the global context`: no axiom, neither own ones nor of the standard library.
* `coqchk -o` lists, as context of the libraries loaded, seven parameters `Coq.ssr.ssrunder.Under_rel.*` of the standard library
  (parameters of a module type for the `under` tactic). No theorem depends on them.
* No file uses `Admitted`, `Axiom`, `Parameter`, section-less `Variable`, functors, module types, or switched-off checks.
