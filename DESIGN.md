# Formal model of falconpl/Falcon2 in Rocq (Coq 8.16.1)

Source: /repo at the pinned commit. The code is read as text, never built or run.
Theories: `rocq/theories/`, logical name `Verif`.
Properties: `properties.jsonl`. Theorem names per property: `MANIFEST.json`.
Wrong programs tried against the theorems: `seeded/LOG.jsonl`.

## 1. Conventions

* One model file per component (`*Model.v`) without proofs, one small specification
  (`*Spec.v`) that does not use the code of the model, proof files, and a file
  (`*Props.v`) that holds only the property theorems. Each theorem is closed by a lemma, has
  a concrete case that meets its hypotheses beside it (`Example`), and is followed by
  `Print Assumptions`.
* Every definition of a model has a comment with the file and lines it models and what it
  simplifies.
* Undefined behaviour, failed `assert`, uncaught exceptions, `std::terminate` and deadlock
  on the own lock are explicit outcomes (`Base.v: bad`), never default values.
* Concurrency is a transition system with labels chosen by an arbitrary scheduler;
  theorems quantify over all schedules, any number of threads and any programs.
* What the code calls but does not define (regular expressions, tests, callbacks, element
  copies that throw, allocation failures, the clock, big numbers) is a parameter or a choice of
  the environment, over which the theorems quantify.
* Where the English property is false of the code, a theorem with suffix `_refuted` proves
  that, universally where possible, and what does hold is proved next to it, with suffix
  `_partial` when it is a part of the property. Such a property has the status `partial`.

## 2. Files

| files | code modelled |
|-------|---------------|
| `Base`, `ListFacts`, `TextModel`, `TextSpec`, `TextFacts` | outcomes; lists; how streams print numbers and padded fields (Item, FUT, LogStream) |
| `PagedStackModel`, `Exec`, `Spec`, `Proofs`, `Iter`, `More`, `Frame`, `Blocks`, `Copy`, `Misc`, `Props` | `engine/pagedstack.h`: all stack calls, iterators, reverse iterators, implicit copy (C01..C10, C15..C20) |
| `PagedStackSync`, `SyncSpec`, `SyncProps`, `SyncCopySpec`, `SyncCopy` | its synchronised iterators and deferred shrink (C11..C14); the last two: copied iterators |
| `PagedStackThreads*` | several threads on one stack (C94) |
| `PagedStackSyncThreads*` | synchronised iterators of several threads (C121) |
| `PagedStackAssert*` | builds with assertions: the assertion of a call is a section of its own (C124) |
| `PagedStackSyncIdeal*` | synchronised iterators as positions; loops over a stack others use (C122, C123) |
| `FutHelp*` | refused command lines (C115) |
| `FutexFair*` | fair schedules (C116) |
| `PagedStackSafe*` | histories that are not careful (C117) |
| `PagedStackMark*` | iterators kept over later calls (C114) |
| `PagedStackValue*` | several stacks: moved, swapped, copied, destroyed (C113) |
| `PagedStackThrow*` | failing element copies and allocations (C95) |
| `PagedStackTests` | the tests of `test/engine/pagedstack.fut.cpp` run in the model |
| `RepoTests` | the other tests of `test/engine` and `test/fut` run in the models; the futex tests for every schedule |
| `FutexModel`, `Spec`, `Proofs`, `More`, `Props` | `futex.h`, `futex.cpp`: Futex and RFutex (C21..C27) |
| `FutexMem*` | Futex under the C++11 memory model (C96) |
| `LogModel`, `LogSpec`, `LogProofs`, `LogOrder`, `LogFilter`, `LogSettings`, `LogCount`, `LogDiag`, `LogStop`, `LogLive`, `LogFair`, `LogProps` | `logsystem.h`, `logsystem.cpp` (C28..C42, C44, C100) |
| `LogLock*` | critical sections of `LogSystem` statement by statement (C125) |
| `LogAccess`, `LogRace` | table of its shared accesses and locks (C43) |
| `LogEndModel`, `LogEnd`, `LogEndProps` | its destructor, exceptions of listeners (C97, C98) |
| `Listener*` | one listener's settings shared by threads, with `m_mtxCategory` explicit (C118) |
| `Lines*` | `LogStreamListener::onMessage` by several threads, one step per insertion, `localtime`'s shared object (C119) |
| `LogMem*` | it and its constructor when memory runs out (C107) |
| `LoggerMem*` | log statements when memory runs out (C108) |
| `LoggerModel`, `LoggerSpec`, `LoggerProofs`, `LoggerFilter`, `LoggerProps` | `logger.h`, `logger.cpp`: macros and composer, filters (C45..C53) |
| `LogOut`, `LogOutProps` | what `checkCategory` writes on standard output (C103) |
| `LoggerThrowSpec`, `LoggerThrow`, `LoggerThrowProps` | log statements whose operands throw (C102, C48) |
| `WholeModel`, `WholeSpec`, `WholeProofs`, `WholeFair`, `WholeProps` | the three together: statements to listeners and lines (C101) |
| `StreamModel` | std::ostream: format state, manipulators, failure (C104, C105) |
| `FutConsole`, `FutConsoleSpec`, `FutReport`, `FutReportSpec`, `FutMacro*`, `FutTimes`, `FutTimesSpec`, `FutConsoleProps`, `FutTimesProps` | everything a test program shows (C110, C81), the XML report read as a document (C109), the times that are reported (C112), the check macros with arbitrary expressions (C111) |
| `FutFmt*` | reports of the test framework on std::cout in any state (C106) |
| `LoggerFmt*` | log statements with formatted operands (C105) |
| `LogFmt*` | log lines on streams in any state (C104) |
| `LogStream*` | `logstream.h`, `logstream.cpp`, `logproxy.h` (C54..C56) |
| `Code*` | `code.h`, `code.cpp`, `compiler.h`, `compiler.cpp` (C57..C59) |
| `Item*` | `item.h`, `itemdata.h`, `handler.h`, `*handler.h`, `handlerfactory.*` (C60..C66) |
| `FutModel`, `FutSpec`, `FutProofs`, `FutRun`, `FutClose`, `FutQuiet`, `FutXml`, `FutArgs`, `FutFloat`, `FutMore`, `FutProps` | `fut/*.cpp`, `fut/*.h`: test runner, reports, command line, check macros (C67..C84, C91..C93) |
| `MarkTime*` | `marktime-unix.c++`, `marktime-win.c++`, `timelapse.h` in machine arithmetic (C120) |
| `Atomic*` | `atomic_gcc.h`, `atomic_vc.h` (C85, C86, C89, C90) |
| `Misc*` | `singleton.h`, `distribute.h` (C87, C88) |

## 3. Properties

| id | status | model and proof | theorems |
|----|--------|-----------------|----------|
| C01 | proved | step function `exec` over operation histories, simulation with a plain list (`PagedStackSpec`), induction over the history | `C01_lifo` |
| C02 | proved | same simulation; multi-push then multi-pop from every reachable stack | `C02_multi_push_pop` |
| C03 | proved | same simulation; peeks return the list value and the unchanged state | `C03_peeks` |
| C04 | partial | exact effect of `internal_discard` on the page list; simulation for the histories without the page-boundary hazard; refuted from every reachable stack otherwise | `C04_pop_reverse_partial`, `C04_pop_reverse_refuted` |
| C05 | partial | as C04, with the iterator given as (page, offset) | `C05_discard_iterator_partial`, `C05_discard_iterator_refuted`, `C05_header_comment_refuted` |
| C06 | partial | exact state after `clear()`; refuted for every non-empty stack | `C06_clear_refuted`, `C06_clear_partial` |
| C07 | proved | loop `begin()..end()` as an inductive relation (deterministic); induction over the pages | `C07_forward_iteration`, `C07_forward_iteration_careful`, `C07_loop_deterministic` |
| C08 | partial | same loop for the reverse iterators; refuted as soon as a spare page exists | `C08_reverse_iteration_partial`, `C08_reverse_iteration_refuted` |
| C09 | proved | same loop started at `from_top(n)` | `C09_from_top`, `C09_loop_deterministic` |
| C10 | proved | case analysis on offsets and page borders of `++`/`--` | `C10_forward_inverse`, `C10_reverse_inverse` |
| C11 | partial | histories mixing stack calls and sync iterators; invariant: counter = live iterators, page nodes alive, offsets inside the used part, page and data of an iterator differ only after an exception; the three hazards characterised exactly | `C11_sync_iterators_partial`, `C11_hazards_refuted`, `C11_is_sync_end`, `C11_is_sync_begin`, `C11_after_throw_refuted` |
| C12 | partial | same histories, which go on after an exception; the iterator getters throw iff the stack is empty | `C12_throws_iff_empty`, `C12_empty_throws_partial`, `C11_after_throw_refuted` |
| C13 | proved | same histories against a small deferred-shrink specification (`sspec_step`) read through `getStats` | `C13_deferred_shrink`, `C11_sync_iterators_partial` |
| C14 | partial | implicit copy constructor of the iterator; refuted universally; the histories with copies are proved safe up to the use of an iterator whose page was released (invariant: count = live - copies made) | `C14_copy_refuted`, `C14_copies_partial`, `C14_hazards_refuted`, `C14_quiet`, `C14_no_shrink`, `C14_release` |
| C15 | proved | invariant over histories: capacity = pages * page size; pages are only released by shrink calls; a reference (node, offset) followed through histories with the marks of C114 | `C15_capacity`, `C15_stable`, `C15_references`, `C15_page_size_zero_refuted` |
| C16 | proved | pages carry allocation serials; number of blocks against the high-water mark | `C16_blocks`, `C16_high_water` |
| C17 | partial | two objects sharing a `std::list` node after the implicit copy; refuted | `C17_copy_refuted`, `C17_copy_size_refuted`, `C113_values` |
| C18 | proved | lock flag in the state, `Deadlock` as outcome; lock balance of each call proved in release and debug builds | `C18_lock_discipline`, `C18_free_call_meaning`, `C18_iterators`, `C18_acquires` |
| C19 | proved | invariant over histories; every field of `getStats` against the specification | `C19_stats`, `C19_stats_values` |
| C20 | partial | pre-allocation 0 leaves no current page: UB on first push; otherwise holds | `C20_construct_partial`, `C20_no_prealloc_refuted` |
| C21 | proved | LTS of any number of threads with weak CAS; invariant: at most one thread inside and the flag tells | `C21_mutual_exclusion`, `C21_no_acquisition_while_held` |
| C22 | proved | serialisation: the final memory is the sequential composition of the bodies in the order of acquisition | `C22_serialised`, `C22_program_order`, `C22_counter` |
| C23 | proved | from every reachable state in which the flag is free a CAS that does not fail spuriously acquires; `isLocked` exact | `C23_acquires_when_free`, `C23_isLocked`, `C23_can_finish` |
| C24 | partial | yield positions as function of the number of failures, with the 32-bit counter that is never reset | `C24_yields_actual`, `C24_first_attempts_partial`, `C24_no_spin`, `C24_documented_refuted` |
| C25 | partial | LTS of the RFutex loop; the loop condition never becomes false for an identity other than 0 | `C25_lock_never_returns_refuted`, `C25_alone_refuted` |
| C26 | partial | consequence of C25 | `C26_exclusive_partial`, `C26_never_released_refuted`, `C25_lock_never_returns_refuted` |
| C27 | partial | `isOwner` on reachable states | `C27_isOwner_partial`, `C27_isOwner_refuted` |
| C28 | proved | LTS with any number of clients and the log thread; ghost trace; invariant: accepted = dispatched ++ in dispatch ++ queue, with contents | `C28_fifo`, `C28_handed_current`, `C28_thread_order`, `C28_program_order` |
| C29 | proved | per-registration delivery list against `filter wants` of the dispatched messages; exact between dispatches | `C29_receives_what_it_wants`, `C29_new_listener`, `C29_once_per_registration`, `C29_only_added`, `C29_settings_in_force`, `C29_settings_now` |
| C30 | proved | trace of passed messages against the level read by each call | `C30_above_level_no_effect`, `C30_level_decides`, `C30_passes_exactly_once` |
| C31 | proved | ownership invariant: every message object is at exactly one place; pool size bounded | `C31_one_place`, `C31_pool_bounded` |
| C32 | partial | counters as functions of the trace | `C32_counters`, `C32_objects`, `C32_listeners`, `C32_enabled`, `C32_enabled_moment_refuted` |
| C33 | proved | explicit condition-variable state; invariant: no message while the log thread sleeps without a pending notification | `C33_no_lost_wakeup` |
| C34 | proved | decreasing measure for the log thread; infinite executions under weak fairness, with a lexicographic rank that other threads cannot raise | `C34_eventually_dispatched`, `C34_fair` |
| C35 | proved | no callback event after the return of `stop()`; all calls return in every fair infinite execution, by the work left to the clients and a rank of the log thread | `C35_no_callback_after_stop`, `C35_stop_can_return`, `C35_all_calls_return` |
| C36 | partial | what the log thread does once `m_isTerminated` is set; refuted for every non-empty queue | `C36_dispatch_completes_partial`, `C36_queue_dropped_refuted`, `C36_stop_delivers_refuted` |
| C37 | partial | `m_isTerminated` is never reset: refuted for every history | `C37_never_again_refuted`, `C37_restart_refuted` |
| C38 | partial | the initial value of `m_isTerminated` is a parameter of the initial state | `C38_garbage_refuted`, `C38_fresh_partial` |
| C39 | partial | delivery bound after detach() and silence after one dispatch; refuted as stated | `C39_detached_partial`, `C39_one_dispatch_partial`, `C39_detached_refuted` |
| C40 | proved | `std::regex` as parameters `compile`/`rmatch` | `C40_invalid_changes_nothing`, `C40_valid_replaces`, `C40_empty_accepts_all`, `C40_in_force` |
| C41 | partial | count of string sets constructed and destroyed along the trace | `C41_leak_refuted`, `C41_passed_partial` |
| C42 | partial | callbacks are arbitrary choices of the environment among the calls of the API; lock table | `C42_callback_goes_on`, `C42_stop_in_callback_refuted`, `C42_stop_terminates_refuted`, `C42_stop_deadlock_refuted` |
| C43 | partial | table of accesses with the locks held, happens-before by locks; all pairs checked | `C43_table_complete`, `C43_only_two_races_partial`, `C43_without_diags`, `C43_diags_race_refuted`, `C43_count_race_refuted`, `C43_stale_refuted`, `C43_received_race_refuted` |
| C44 | proved | total function on the level | `C44_four_characters`, `C44_distinct`, `C44_names` |
| C45 | proved | per-thread composer state machine driven by the primitive steps the macros expand to; programs of log statements, any schedule; trace against the list of statements | `C45_one_message_each`, `C45_test_meaning`, `C45_handed_over`, `C45_alone`, `C45_disabled_no_trace` |
| C46 | proved | same machine; projection of the interleaved run on one thread | `C46_own_run`, `C46_own_content`, `C45_one_message_each` |
| C47 | partial | nested statement in an operand; refuted for all texts and levels, text conservation proved | `C47_nested_refuted`, `C47_text_kept_partial` |
| C48 | partial | block statements with early exit | `C48_one_message`, `C48_early_exit_refuted`, `C48_exception_refuted`, `C48_disabled_no_trace`, `C45_one_message_each` |
| C49 | proved | category and level overrides in `Proxy` | `C49_own_message_only`, `C49_override`, `C45_one_message_each` |
| C50 | partial | guards of the macros against compile-time and run-time level | `C50_takes_effect_refuted`, `C50_guard_meaning`, `C50_takes_effect_partial` |
| C51 | proved | erasure of statements above the compile-time level, nested and left early included | `C51_compile_time_filter`, `C51_disable` |
| C52 | partial | exact level as a function of the sequence of filter calls | `C52_cleared_level_partial`, `C52_restored_refuted`, `C52_no_filter_refuted`, `C52_cleared_twice_refuted` |
| C53 | partial | same, through the listener settings | `C53_one_filter`, `C53_filter_in_force`, `C53_cleared`, `C53_widened_refuted` |
| C54 | proved | formatting function over byte strings; a separate reader recovers every field | `C54_date`, `C54_readable`, `C54_file`, `C44_distinct` |
| C55 | proved | ownership state machine of the destination stream | `C55_latest`, `C55_not_destroyed` |
| C56 | proved | function over the settings of each listener | `C56_own_filters_only`, `C56_no_other` |
| C57 | partial | heap of buffers (freed or not, 1000 bytes); writing past the end is UB | `C57_round_trip_partial`, `C57_long_refuted`, `C57_nul_refuted` |
| C58 | partial | programs over Code objects with implicit copy and move members | `C58_moves_partial`, `C58_double_free_refuted`, `C58_use_after_free_refuted`, `C58_leak_refuted`, `C58_moved_from_refuted` |
| C59 | partial | `operator>>` tokenisation, exceptions included | `C59_first_token_partial`, `C59_states_partial`, `C59_token_unique`, `C59_exceptions_refuted` |
| C60 | partial | union with last written member; integer conversions by 2^n wrap | `C60_integers_partial`, `C60_types`, `C60_uint64_refuted` |
| C61 | proved | round trip through the union | `C61_round_trip` |
| C62 | partial | strings on a heap; decimal printing and `stoll` parsing on bytes | `C62_text`, `C62_c_text`, `C62_null_refuted`, `C62_numeral_partial`, `C62_not_a_number_refuted`, `C62_out_of_range_refuted`, `C62_trailing_refuted` |
| C63 | partial | programs over items; alive/freed heap; refuted for owning items | `C63_no_owning_copies_partial`, `C63_copy_refuted`, `C63_assign_refuted` |
| C64 | partial | handlers as records; `DeepHandler::allocate` returns a dangling address | `C64_flat_partial`, `C64_deep_refuted` |
| C65 | proved | binary64 as `spec_float`; truncation to int64 against the exact rational value | `C65_zero`, `C65_truncation`, `C65_elsewhere` |
| C66 | proved | case analysis | `C66_nil`, `C66_bool`, `C66_other_types` |
| C67 | proved | tests are arbitrary scripts of primitive actions (output, checks, throws, time); runner modelled function by function; exit status against the verdicts | `C67_exit_status`, `C67_exit_final` |
| C68 | proved | execution trace against the selected list | `C68_runs_once` |
| C69 | partial | verdict against the script semantics | `C69_verdict_partial`, `C69_failed_check`, `C69_teardown_output_refuted` |
| C70 | partial | option state and capture flags | `C70_option_e_refuted`, `C70_stderr_fails_refuted`, `C70_uncaptured_partial` |
| C71 | partial | second run from the state the first left | `C71_rerun_partial`, `C71_rerun_refuted` |
| C72 | partial | k-fold repetition by induction | `C72_repeated_refuted`, `C72_first_partial` |
| C73 | partial | failed list against the statuses | `C73_failed_cases_partial`, `C73_not_run_refuted` |
| C74 | partial | output as a function of verbosity; sublist relation | `C74_louder`, `C74_silent_partial` |
| C75 | partial | counters of the report | `C75_counts_partial`, `C75_repeated_refuted` |
| C76 | partial | report text against an independent XML recogniser (`FutSpec`) | `C76_plain_partial`, `C76_less_refuted`, `C76_actual_refuted` |
| C77 | partial | argument parser against a grammar | `C77_accepts`, `C77_settings`, `C77_refuses`, `C77_accepts_only_partial`, `C77_level_refuted`, `C77_blank_level_refuted` |
| C78 | partial | FAIL macro | `C78_fail_partial`, `C78_returns_refuted` |
| C79 | partial | check macros: continuation or end of the body | `C79_stops`, `C79_fails_partial`, `C79_passing`, `C79_throw_checks_refuted`, `C79_last_refuted`, `C79_setup_refuted` |
| C80 | partial | EXPECT_FLOAT_EQ on binary64 with rounding, against rational differences | `C80_near_partial`, `C80_same_partial`, `C80_close_refuted`, `C80_small_refuted`, `C80_sum_refuted` |
| C81 | partial | redirection stack of cout/cerr restored by every path | `C81_one_test`, `C81_run`, `C81_restored`, `C81_read_partial`, `C81_nul_refuted` |
| C82 | partial | SetUp/TearDown trace | `C82_teardown_partial`, `C82_exception_refuted` |
| C83 | partial | clock readings along the script, midnight included | `C83_midnight`, `C83_forward`, `C83_test_time_partial`, `C83_setup_throws_refuted` |
| C84 | proved | string function against "last slash, first dot" | `C84_detect` |
| C85 | proved | interleavings of atomic steps, 32-bit wrap; induction over the schedule | `C85_no_lost_update`, `C85_own_value`, `C85_distinct`, `C85_program_order`, `C85_reduced_unique` |
| C86 | partial | the gcc and MSVC tables of primitives compared | `C86_agree_partial`, `C86_add_refuted` |
| C87 | partial | store keyed by type; creation on first access; programs of reads and writes against one value per type | `C87_reads`, `C87_created_once`, `C87_same_instance`, `C87_distinct_partial`, `C87_shared_refuted` |
| C88 | proved | iterator walk over a list; position of the iterator afterwards | `C88_stores`, `C88_ith`, `C88_too_short` |
| C89 | proved | compare-and-swap: one winner among competing threads, any schedule | `C89_one_winner` |
| C90 | proved | interleavings of exchanges: permutation of the values stored and returned | `C90_handed_over_once` |
| C91 | proved | main composed of the argument parser and the runner | `C91_refused`, `C91_accepted`, `C91_no_arguments` |
| C92 | proved | running one test by name | `C92_perform`, `C92_unknown` |
| C93 | proved | selection by component and name | `C93_registered`, `C93_selects` |
| C94 | proved | threads calling the same stack: each call takes the lock, runs the body, releases; linearisation by order of acquisition | `C94_linearizable` |
| C95 | partial | element copy and page allocation may fail at any point (oracle in the history); exact exception guarantee | `C95_exceptions_partial`, `C95_full_page_refuted` |
| C96 | proved | axiomatic C++11 executions of the futex (sb, rf, mo, sw, hb); data-race freedom and serial order derived from release/acquire | `C96_no_data_race`, `C96_serial` |
| C97 | partial | destructor run on every stopped state (`LogEndModel`) | `C97_every_message_deleted_once`, `C97_strings_leak_refuted` |
| C98 | partial | `CThrow` choice of a callback in the log thread | `C98_throw_terminates_refuted`, `C98_nobody_else_called_refuted`, `C98_only_cause_partial` |
| C99 | partial | the model of C52 and C53, from any history | `C99_invalid_filter_refuted`, `C99_no_filter_partial` |
| C100 | proved | the events of a client against its program: subsequence of the trace, invariant over steps | `C100_calls_take_effect` |
| C101 | proved | composition: each thread of statements drives a LogSystem client; simulation of LogSystem with a growing program, then C45, C28, C29, C55; fair executions: a measure on instructions and calls, then C34 | `C101_statements_to_calls`, `C101_statements_to_listener`, `C101_statements_to_lines`, `C101_threads_finish`, `C101_all_dispatched`, `C101_eventually` |
| C102 | partial | simulation: each step of the throwing program is a step, or no step, of the program cut short; then C45 | `C102_as_if_cut_partial`, `C102_messages_partial`, `C102_partial_text_sent_refuted` |
| C103 | partial | event of the model for each test of a category; the settings at that moment are those of C29 | `C103_silent_refuted`, `C103_silent_partial`, `C103_each_test` |
| C104 | partial | insertions of one line on a model of the format state of std::ostream; closed form for every state, then induction over the uses of the stream | `C104_same_line_partial`, `C104_shared_stream_partial`, `C104_left_refuted`, `C104_hex_refuted`, `C104_sign_refuted`, `C104_internal_refuted`, `C104_width_refuted`, `C104_failed_stream`, `C104_state_left`, `C104_state_kept_refuted` |
| C105 | partial | the thread-local stream of Logger with the format state of StreamModel; the invariant of C45 generalised to any insertions | `C105_own_text_partial`, `C105_no_manipulators`, `C105_failure_contained`, `C105_format_carried`, `C105_format_leaks_refuted` |
| C106 | partial | the insertions of beginTest and endTest on std::cout with the format state of StreamModel, shown to give the texts of FutModel in the default state; induction on the tests | `C106_reports_partial`, `C106_same_model`, `C106_hex_refuted`, `C106_wrong_case_refuted`, `C106_failed_refuted` |
| C107 | partial | the steps of LogModel plus steps in which an allocation fails; simulation: a run with failures is a run without, in which a client whose call throws stops for ever and a fresh one goes on, so the theorems of C28, C29 and C31 carry over | `C107_throw_partial`, `C107_each_message_partial`, `C107_fifo_partial`, `C107_delivered_partial`, `C107_settings_partial`, `C107_constructor_partial`, `C107_object_lost_refuted`, `C107_destructor_refuted`, `C107_created_refuted`, `C107_push_refuted`, `C107_log_thread_refuted`, `C107_category_refuted`, `C107_constructor_refuted` |
| C108 | partial | the instructions of LoggerModel plus instructions in which an allocation fails; induction over the statements of a program with a state that is ready before each; the converse by constructing the schedule of failures | `C108_statements_partial`, `C108_all_possible`, `C108_no_failure`, `C108_block_leaks_refuted`, `C108_line_terminates_refuted`, `C108_category_terminates_refuted`, `C108_cut_refuted`, `C108_category_lost_refuted`, `C108_width_refuted` |
| C109 | partial | the elements of the report read back as a list of entries; induction over the sorted components, then the lemmas of C68 and C69 about each test | `C109_report_partial`, `C109_test_partial`, `C109_document_partial`, `C109_twice_refuted` |
| C110 | partial | equation for the text of each line, then induction over the tests of a component and over the components (`FutConsole`) | `C110_console_partial`, `C110_single`, `C110_columns`, `C110_component_refuted`, `C110_nul_refuted` |
| C111 | partial | arguments as functions from state to value and state, or exception; by cases | `C111_passes`, `C111_pure_partial`, `C111_report_partial`, `C111_twice_refuted`, `C111_counter_refuted`, `C111_throw_refuted`, `C111_float_refuted` |
| C112 | partial | every reading of the clock is numbered; induction over tests and components that their intervals of readings are disjoint and nested (`FutTimes`) | `C112_total`, `C112_component_partial`, `C112_setup_refuted`, `C112_single` |
| C113 | proved | objects owning list nodes with identities; implicit moves hand the nodes over; invariant: a usable object's current page is one of its own nodes, then refinement to independent lists by C01 | `C113_values`, `C113_swap`, `C113_ownership` |
| C114 | proved | in a stack with full pages below the current one height j is page j/ps, offset j mod ps; induction over the history keeps the node of that page | `C114_mark` |
| C115 | proved | the model of C77 with the texts of usage() and the messages; case analysis on the culprit after the prefix lemma of C77 | `C115_explained`, `C115_silent`, `C115_complete`, `C115_accepted` |
| C116 | partial | infinite schedules as functions on nat; a measure of the remaining work that every acquisition, section step and release decreases and no attempt increases; from any unfinished state fairness gives a later state with less | `C116_fair_partial`, `C116_overtaken_refuted` |
| C117 | proved | the representation relation without the bound on page lengths is an invariant of every call; pushes are shown to expose only pages above the current one; the values in all pages are a sub-multiset of the values put in; the contents are observed by iteration | `C117_safe`, `C117_origin` |
| C118 | partial | threads whose calls are sequences of steps, one per access, with the mutex explicit; the invariant relates text and compiled expression to the filter set last, except inside the section of category(re); races are pairs of enabled conflicting accesses | `C118_filter_whole`, `C118_getters`, `C118_text_partial`, `C118_only_race_partial`, `C118_race_refuted` |
| C119 | partial | a step for localtime, for the copy of its object, for the lock and for every insertion; invariant: the stream is the emission of the insertions of complete lines and of those done of the line in progress; refutations by explicit schedules for all messages and for every merge of the insertions | `C119_whole_partial`, `C119_merge_refuted`, `C119_whole_refuted`, `C119_time_partial`, `C119_time_refuted` |
| C120 | partial | the arithmetic of markTime and waitTime in the C++ types of each platform, with overflow as undefined behaviour, against a time line in microseconds | `C120_readings`, `C120_32bit_refuted`, `C120_measure_partial`, `C120_measure_refuted`, `C120_wait_partial`, `C120_wait_refuted` |
| C121 | partial | as C94, with the events of C11 as sections: the live iterators of each thread are its own data, the serial execution of the sections is one history of C11 in which iterators are named by their position among all live ones | `C121_sync_threads_partial` |
| C122 | partial | an ideal iterator is a place (a number, or the end); a relation between the iterators of the model and places is kept by every event, because the pages below the top are full, so a place determines page and offset | `C122_ideal_iterators_partial` |
| C123 | proved | the discipline of the loop implies that the ideal of C122 is defined at every call; for the contents, induction over the elements left: others keep the base, so the element at the place is the next of the base | `C123_loop`, `C123_contents` |
| C124 | partial | each assertion and each call is a section under the lock (two_sections links this to the sequential model of C01); C94's argument for an order of sections, then induction over the order with an ideal stack that evaluates the assertions; for the refutation, a lemma that every order of sections in agreement with the programs is a schedule | `C124_two_sections`, `C124_assertions_partial`, `C124_alone`, `C124_shared_refuted`, `C124_pop_values_refuted` |
| C125 | partial | forward simulation: the state with the sections under way finished is a state of LogModel.v, the first (or the decisive) statement of a section is the step there and the others are none; backward, each step of LogModel.v is replayed by the section run in one go; infinite fair executions give infinite fair executions of LogModel.v, by the number of moves until a section ends | `C125_mutex`, `C125_same_traces`, `C125_same_states`, `C125_no_lost_wakeup`, `C125_released`, `C125_dispatched`, `C125_all_calls_return`, `C125_defined_partial`, `C125_without_diags`, `C125_defined_refuted` |

## 4. Trusted base

* The kernel of Coq 8.16.1, with `vm_compute` (used in examples and in checks of tables).
* `Print Assumptions` says "Closed under the global context" for every theorem of
  `MANIFEST.json`: no axiom is used, not even of the standard library. (`coqchk` and similar
  tools that list the axioms of all loaded libraries mention `Coq.ssr.ssrunder.Under_rel.*`:
  they come with the standard library's ssreflect files and no theorem depends on them.)
* No axioms, parameters, functors or module types are defined, and no kernel check is switched off.
  Section variables are discharged: they appear as quantifiers in the theorems.
* That the model says what the code does. The comment of each definition gives the lines; the tests of
  the repository run in the model are a check of this (`PagedStackTests.v` and the examples).

What the models take for granted:

* **Parameters.** `std::regex` is `compile : string -> option RE` (`None`: throws) and
  `rmatch : string -> RE -> bool`. Callbacks of listeners do any sequence of API calls, or
  throw. Big numbers and the text of a double are fields of `ItemModel.env`. What each test
  does in each run, the clock, the text of an elapsed time and which files can be opened are
  fields of `FutModel.env`.
* **Memory model.** The transition systems of Futex, LogSystem, Logger and the atomics are
  sequentially consistent. For data guarded by a Futex this is proved to be enough (C96); for
  LogSystem, C43 lists the two members that are accessed without a lock. For the
  `std::mutex` of LogSystem it is the guarantee of the standard.
* **Granularity.** A section of LogSystem under a mutex, inside which the code neither blocks nor takes
  another lock, is one step of `LogModel`; `LogLockModel` has them statement by statement, and C125 proves that the traces
  and the states outside the sections are the same. `m_mtxThread`, held during `join()`, is explicit.
* **Compiler built-ins.** `__sync_*` and `Interlocked*` have their documented effect, atomically.
* **Streams.** `StreamModel` is what the C++ standard says about the format state and the insertion of texts,
  characters and ints in the "C" locale; it is used for the log stream (C104)
  and for the stream in which log statements compose their texts (C45 to C51, C105), and for std::cout in the reports on single tests (C106). The other properties take streams in their default state that do not fail, except where a file cannot be opened.
* **C++17 evaluation order** (CMakeLists.txt L19): in `a << b`, `a` comes first.
* **Union.** Reading an `int64` member of the item union after writing the `uint64` one is
  taken to give the same bits.
* **Memory.** `new` succeeds, except in C95, C107 and C108. A destructed object is not used
  again by its owner.
* **Types.** `int` has 32 bits, `long` and pointers 64, `char` is a byte, `double` is IEEE binary64 with
  rounding to nearest.

## 5. Not modelled

* `std::regex`, `boost::multiprecision` and stream formatting of doubles, which are parameters.
* Weak memory behaviour of the two unprotected members found by C43 (a data race is
  undefined behaviour; the model shows the race).
* Exhaustion of memory outside PagedStack, LogSystem and log statements.
* `Item::get<T>`: no `T` makes it compile. `fut_main.cpp` only calls `UnitTest::main`.
* `error.h`, `parseerror.h` (empty classes), `types.h`, `setup.h`, `config.h.in` (type names and compiler switches).
* Build scripts, `tools/`, documentation.

## 6. What was found

Defects of the code that the proofs exposed; the property in brackets has the theorem.

PagedStack
* `pop_reverse` and `discard(iterator)` that end at the border of a page leave the page below marked as full
  but the current page unchanged: removed elements come back with the next push (C04, C05).
* `clear()` keeps the elements of the bottom page (C06).
* Reverse iteration visits spare pages that are empty and is then undefined (C08).
* `get`/`++` at `sync_end()` and `--` at the top are undefined in two situations (C11); copies of
  synchronised iterators are not counted (C14).
* A synchronised iterator that has thrown because the stack was empty is left half moved: its next
  use compares places of two different pages, or reads a slot that is not in use (C11, C12).
* A copied stack shares the current page of the original (C17).
* Page size 0 makes capacity meaningless (C15), pre-allocation 0 is undefined at the first push (C20).
* In builds with assertions a call is two separate sections under the lock, since the assertion calls
  `size()`; `top()` returns a reference that is used outside the lock. Both limit C94.
* A push whose element copy throws at the border of a page leaves an empty current page; `top`
  is then undefined. `top(value)` is `noexcept` and copies (C95).
* The assertion of `pop(a, b, ...)` asks for one element only; with two threads both may pass the
  assertion for the same last element, since it releases the lock before the call takes it (C124).

Futex
* The spin counter is never reset, so the documented alternation of spinning and yielding fails (C24).
* `RFutex::lock` never returns for an identity other than 0 (C25, C26); `isOwner` is true for a
  thread that never locked (C27).
* There is no bound on how often a waiting thread is overtaken (C116).

LogSystem
* `m_isTerminated` is not initialised (C38) and never reset: no restart (C37).
* `stop()` drops the queue (C36). `stop()` in a callback ends the program or deadlocks (C42).
* One set of strings leaks for each message, even after destruction (C41, C97).
* A detached listener can receive one more message (C39). A listener that throws ends the program (C98).
* A debugging line goes to standard output at every test of a category (C103).
* `getDiags` races with two counters (C43). With `log(Message*)` the number of discarded objects can
  exceed that of objects made outside the pool (C32).
* Without memory: a message object leaks when its strings cannot be copied, `m_msgsCreated` counts objects that were not
  made, and where the queue, the pool or the list of listeners cannot grow the program ends, as these functions are `noexcept` (C107).
* `category()` returns a reference that is read after its mutex is released (C118).
* `getDiags` asks the listeners one after the other whether they are enabled: with settings changed meanwhile
  `m_enabledListeners` can be a number that was right at no moment (C32).
* `getDiags` looks at the active listeners without a mutex while the log thread may be appending to them (C43, C125).
* Two listeners directed to one stream mix their lines, and `localtime` may give a line the time of another thread (C119).

Logger
* A nested log statement takes the text of the outer one (C47). Leaving LOG_BLOCK early
  gives its text to the next message (C48). A statement whose operand throws sends the text it has so far (C102). LOG_CATEGORY has no effect above the compile-time level (C50).
* A log line depends on the base, adjustment and width that the program left on the stream, and leaves it with the fill character 0 (C104).
* Without memory: a block leaves its text to the next message, a line or LOG_CATEGORY may end the program, and texts are cut without notice (C108).
* A manipulator in a log statement stays in force for the later statements of the thread (C105).
* `clearFilter` restores a wrong level from two filters on, and is undefined without one (C52);
  `categoryFilter` widens the default listener (C53), and with an invalid expression it throws after
  dropping the old filter and raising the level (C99).

Code, Compiler, Item
* Texts of 1000 characters overflow a buffer; copies share their buffer, which is then freed
  twice (C57..C59).
* `uint64` from 2^63 on reads negative (C60). `toInt` of a text that is no number ends the program (C62).
  Copies of items with strings free them twice (C63). `DeepHandler::allocate` returns a dangling
  address (C64).

FUT
* The reports of the test framework show the number of a case and the line of a failed check in the base that a test left in std::cout, and nothing if a test left it failed and output is not captured (C106).
* `-e` has no effect (C70). Captured output is not cleared by a second run (C71), and component lists
  double (C72). The list of failed tests names tests that did not run (C73).
* Descriptions are not escaped in the XML report (C76). `-v` accepts more than numbers, and a blank text is
  undefined (C77). FAIL and the exception checks do not return (C78, C79).
* EXPECT_FLOAT_EQ truncates instead of comparing with a tolerance, and does not parenthesise (C80).
* TearDown is skipped when the test throws (C82); a test whose SetUp throws gets a meaningless time (C83, C112).
* Captured text ends at its first NUL (C81, C110). A test selected twice gets two entries with the result of its last run (C109).
  A component that failed once is shown as failed after all later runs (C110).
* A failing check computes the actual value a second time and shows the second value (C111).

Other
* 32-bit times overflow, a clock set back yields nearly a day, and long waits are cut (C120).
* `atomicAdd` returns the old value on 32 bit Windows (C86). `Singleton` objects of one type share their
  instance (C87).

## 7. Wrong programs

`seeded/LOG.jsonl` has one line per fault put into a scratch copy of the model: the definition edited, the edit, the
claims it breaks and the theorems whose proofs failed. A fault is missed when no theorem of a
claim it breaks fails. Faults marked "a fix" repair a defect and must break the `_refuted` theorem. Missed faults led to
tighter theorems (C18_acquires, C32_objects, C32_listeners, C56_own_filters_only, C62_null_refuted, C66_other_types,
C99_invalid_filter_refuted, C100_calls_take_effect), named in the log.
