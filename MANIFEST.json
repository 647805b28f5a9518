{
 "claims": [
  {
   "property": "C01",
   "status": "proved",
   "theorems": [
    "C01_lifo"
   ],
   "note": "All core histories, any page size (0 included), any pre-allocation >= 1, debug and release builds."
  },
  {
   "property": "C02",
   "status": "proved",
   "theorems": [
    "C02_multi_push_pop"
   ],
   "note": "From every reachable stack."
  },
  {
   "property": "C03",
   "status": "proved",
   "theorems": [
    "C03_peeks"
   ],
   "note": "From every reachable stack; state returned unchanged."
  },
  {
   "property": "C04",
   "status": "partial",
   "theorems": [
    "C04_pop_reverse_partial",
    "C04_pop_reverse_refuted"
   ],
   "note": "Holds in histories where no push follows a page-boundary removal before shrink_to_fit; false otherwise (refuted from every reachable stack: removed elements come back)."
  },
  {
   "property": "C05",
   "status": "partial",
   "theorems": [
    "C05_discard_iterator_partial",
    "C05_discard_iterator_refuted",
    "C05_header_comment_refuted"
   ],
   "note": "Same boundary defect as C04; the header comment is also refuted."
  },
  {
   "property": "C06",
   "status": "partial",
   "theorems": [
    "C06_clear_refuted",
    "C06_clear_partial"
   ],
   "note": "False for every non-empty stack: clear() keeps the bottom page. What it does do is proved."
  },
  {
   "property": "C07",
   "status": "proved",
   "theorems": [
    "C07_forward_iteration",
    "C07_forward_iteration_careful",
    "C07_loop_deterministic"
   ],
   "note": ""
  },
  {
   "property": "C08",
   "status": "partial",
   "theorems": [
    "C08_reverse_iteration_partial",
    "C08_reverse_iteration_refuted"
   ],
   "note": "Proved when no spare page is allocated, refuted for every non-empty stack with a spare page."
  },
  {
   "property": "C09",
   "status": "proved",
   "theorems": [
    "C09_from_top",
    "C09_loop_deterministic"
   ],
   "note": ""
  },
  {
   "property": "C10",
   "status": "proved",
   "theorems": [
    "C10_forward_inverse",
    "C10_reverse_inverse"
   ],
   "note": ""
  },
  {
   "property": "C11",
   "status": "partial",
   "theorems": [
    "C11_sync_iterators_partial",
    "C11_hazards_refuted",
    "C11_is_sync_end",
    "C11_is_sync_begin",
    "C11_after_throw_refuted"
   ],
   "note": "Every event of every history completes safely outside three exactly characterised situations, in which the code always has undefined behaviour: get/++ of an iterator at sync_end() on a stack of more than one page; -- at the top with no spare page; and the use of an iterator that threw while it was not in the bottom page (synchronize() moves m_iBase before it throws and leaves m_iData)."
  },
  {
   "property": "C12",
   "status": "partial",
   "theorems": [
    "C12_throws_iff_empty",
    "C12_empty_throws_partial",
    "C11_after_throw_refuted"
   ],
   "note": "A call that completes throws iff the stack is empty and leaves it unchanged and unlocked. False of the code: on an empty stack, the second use of an iterator that threw away from the bottom page is undefined instead of throwing (C11_after_throw_refuted with no call in between); every other use on an empty stack throws."
  },
  {
   "property": "C13",
   "status": "proved",
   "theorems": [
    "C13_deferred_shrink",
    "C11_sync_iterators_partial"
   ],
   "note": "Stated by getStats against the deferred-shrink specification sspec_step."
  },
  {
   "property": "C14",
   "status": "partial",
   "theorems": [
    "C14_copy_refuted",
    "C14_copies_partial",
    "C14_hazards_refuted",
    "C14_quiet",
    "C14_no_shrink",
    "C14_release"
   ],
   "note": "False of the code: the implicit copy does not count; refuted for every reachable stack. Proved for all histories with copies: everything except the use of an iterator whose page was released (and the hazards of C11) is safe; no page is released under a live iterator without shrink_to_fit; which iterators lose their page is exactly characterised."
  },
  {
   "property": "C15",
   "status": "proved",
   "theorems": [
    "C15_capacity",
    "C15_stable",
    "C15_references",
    "C15_page_size_zero_refuted"
   ],
   "note": "For page sizes >= 1; page size 0 is refuted separately. C15_references follows a reference (page node and offset) through any further calls that do not remove its element, with an example beside it."
  },
  {
   "property": "C16",
   "status": "proved",
   "theorems": [
    "C16_blocks",
    "C16_high_water"
   ],
   "note": ""
  },
  {
   "property": "C17",
   "status": "partial",
   "theorems": [
    "C17_copy_refuted",
    "C17_copy_size_refuted",
    "C113_values"
   ],
   "note": "The property is false: the implicit copy shares the current page with the original. Proved (C113_values): making, destroying and overwriting copies, in any history, does not change the original as long as the copy is not called."
  },
  {
   "property": "C18",
   "status": "proved",
   "theorems": [
    "C18_lock_discipline",
    "C18_free_call_meaning",
    "C18_iterators",
    "C18_acquires"
   ],
   "note": ""
  },
  {
   "property": "C19",
   "status": "proved",
   "theorems": [
    "C19_stats",
    "C19_stats_values"
   ],
   "note": ""
  },
  {
   "property": "C20",
   "status": "partial",
   "theorems": [
    "C20_construct_partial",
    "C20_no_prealloc_refuted"
   ],
   "note": "True iff at least one page is pre-allocated; pre-allocation 0 is undefined behaviour on the first push."
  },
  {
   "property": "C21",
   "status": "proved",
   "theorems": [
    "C21_mutual_exclusion",
    "C21_no_acquisition_while_held"
   ],
   "note": ""
  },
  {
   "property": "C22",
   "status": "proved",
   "theorems": [
    "C22_serialised",
    "C22_program_order",
    "C22_counter"
   ],
   "note": ""
  },
  {
   "property": "C23",
   "status": "proved",
   "theorems": [
    "C23_acquires_when_free",
    "C23_isLocked",
    "C23_can_finish"
   ],
   "note": ""
  },
  {
   "property": "C24",
   "status": "partial",
   "theorems": [
    "C24_yields_actual",
    "C24_first_attempts_partial",
    "C24_no_spin",
    "C24_documented_refuted"
   ],
   "note": "The counter is never reset: exact behaviour proved; the documented one holds for spin count 0 and the first 2*spin-1 failures of a call and is refuted for every other spin count."
  },
  {
   "property": "C25",
   "status": "partial",
   "theorems": [
    "C25_lock_never_returns_refuted",
    "C25_alone_refuted"
   ],
   "note": "False of the code: the loop condition never becomes false for an identity other than 0. Fewer than 2^32 threads."
  },
  {
   "property": "C26",
   "status": "partial",
   "theorems": [
    "C26_exclusive_partial",
    "C26_never_released_refuted",
    "C25_lock_never_returns_refuted"
   ],
   "note": "Proved: at most one thread ever takes it. False of the code otherwise: lock never returns, so no re-entry or release is possible."
  },
  {
   "property": "C27",
   "status": "partial",
   "theorems": [
    "C27_isOwner_partial",
    "C27_isOwner_refuted"
   ],
   "note": "Exact for threads that called lock(); false for every other thread on a free futex."
  },
  {
   "property": "C28",
   "status": "proved",
   "theorems": [
    "C28_fifo",
    "C28_handed_current",
    "C28_thread_order",
    "C28_program_order"
   ],
   "note": "All threads, schedules and callback behaviours; contents included."
  },
  {
   "property": "C29",
   "status": "proved",
   "theorems": [
    "C29_receives_what_it_wants",
    "C29_new_listener",
    "C29_once_per_registration",
    "C29_only_added",
    "C29_settings_in_force",
    "C29_settings_now"
   ],
   "note": "Exact when no dispatch is in progress, a prefix otherwise. std::regex is a parameter."
  },
  {
   "property": "C30",
   "status": "proved",
   "theorems": [
    "C30_above_level_no_effect",
    "C30_level_decides",
    "C30_passes_exactly_once"
   ],
   "note": ""
  },
  {
   "property": "C31",
   "status": "proved",
   "theorems": [
    "C31_one_place",
    "C31_pool_bounded"
   ],
   "note": ""
  },
  {
   "property": "C32",
   "status": "partial",
   "theorems": [
    "C32_counters",
    "C32_objects",
    "C32_listeners",
    "C32_enabled",
    "C32_enabled_moment_refuted"
   ],
   "note": "Each field is exact at the moment it is read, except that the counters of created and discarded messages run ahead of the objects by those in the making and the one being deleted, and that the enabled listeners are counted by asking them one after the other: a change of settings meanwhile gives a number that was true at no moment (C32_enabled_moment_refuted; C32_enabled says what is true then). The fields are read one after the other. Sequentially consistent memory: see C43 for the unprotected reads."
  },
  {
   "property": "C33",
   "status": "proved",
   "theorems": [
    "C33_no_lost_wakeup"
   ],
   "note": ""
  },
  {
   "property": "C34",
   "status": "proved",
   "theorems": [
    "C34_eventually_dispatched",
    "C34_fair"
   ],
   "note": "For callbacks that return, do not throw and call neither stop() nor start(). C34_fair: infinite executions, weakly fair to the log thread, other threads unrestricted."
  },
  {
   "property": "C35",
   "status": "proved",
   "theorems": [
    "C35_no_callback_after_stop",
    "C35_stop_can_return",
    "C35_all_calls_return"
   ],
   "note": "C35_all_calls_return: in every infinite execution that is weakly fair to all threads, with callbacks that do not throw, stop or start."
  },
  {
   "property": "C36",
   "status": "partial",
   "theorems": [
    "C36_dispatch_completes_partial",
    "C36_queue_dropped_refuted",
    "C36_stop_delivers_refuted"
   ],
   "note": "False of the code: stop() drops the queue. What holds: the message in dispatch is served to the end."
  },
  {
   "property": "C37",
   "status": "partial",
   "theorems": [
    "C37_never_again_refuted",
    "C37_restart_refuted"
   ],
   "note": "False of the code, for every history: m_isTerminated is never reset."
  },
  {
   "property": "C38",
   "status": "partial",
   "theorems": [
    "C38_garbage_refuted",
    "C38_fresh_partial"
   ],
   "note": "False if the uninitialised m_isTerminated reads true; holds on zeroed memory."
  },
  {
   "property": "C39",
   "status": "partial",
   "theorems": [
    "C39_detached_partial",
    "C39_one_dispatch_partial",
    "C39_detached_refuted"
   ],
   "note": "False of the code: one more message per registration can arrive. Proved: that bound, and that nothing arrives once one dispatch begun after detach() is over."
  },
  {
   "property": "C40",
   "status": "proved",
   "theorems": [
    "C40_invalid_changes_nothing",
    "C40_valid_replaces",
    "C40_empty_accepts_all",
    "C40_in_force"
   ],
   "note": "std::regex is a parameter."
  },
  {
   "property": "C41",
   "status": "partial",
   "theorems": [
    "C41_leak_refuted",
    "C41_passed_partial"
   ],
   "note": "False of the code, for every history: the strings leak at each message logged with log(file, line, ...). Proved: messages passed as objects never leak."
  },
  {
   "property": "C42",
   "status": "partial",
   "theorems": [
    "C42_callback_goes_on",
    "C42_stop_in_callback_refuted",
    "C42_stop_terminates_refuted",
    "C42_stop_deadlock_refuted"
   ],
   "note": "log() and addListener() from callbacks: proved. stop() from a callback: false, it ends the program or deadlocks."
  },
  {
   "property": "C43",
   "status": "partial",
   "theorems": [
    "C43_table_complete",
    "C43_only_two_races_partial",
    "C43_without_diags",
    "C43_diags_race_refuted",
    "C43_count_race_refuted",
    "C43_stale_refuted",
    "C43_received_race_refuted"
   ],
   "note": "False of the code: getDiags races on two members. Proved: there are no other races in LogSystem, and none at all in a program whose threads do not call getDiags."
  },
  {
   "property": "C44",
   "status": "proved",
   "theorems": [
    "C44_four_characters",
    "C44_distinct",
    "C44_names"
   ],
   "note": ""
  },
  {
   "property": "C45",
   "status": "proved",
   "theorems": [
    "C45_one_message_each",
    "C45_test_meaning",
    "C45_handed_over",
    "C45_alone",
    "C45_disabled_no_trace"
   ],
   "note": "For all programs, threads and schedules; a message whose level was lowered by another thread between test and hand-over is dropped by log(), as C45_handed_over says. Exceptions in operands are not modelled."
  },
  {
   "property": "C46",
   "status": "proved",
   "theorems": [
    "C46_own_run",
    "C46_own_content",
    "C45_one_message_each"
   ],
   "note": ""
  },
  {
   "property": "C47",
   "status": "partial",
   "theorems": [
    "C47_nested_refuted",
    "C47_text_kept_partial"
   ],
   "note": "False of the code, for all texts and levels: the nested message takes the text before it and leaves its own file, line and level. Kept: no text is lost or repeated."
  },
  {
   "property": "C48",
   "status": "partial",
   "theorems": [
    "C48_one_message",
    "C48_early_exit_refuted",
    "C48_exception_refuted",
    "C48_disabled_no_trace",
    "C45_one_message_each"
   ],
   "note": "First half proved; early exit, by break, return or exception: false of the code, the text goes to the next message."
  },
  {
   "property": "C49",
   "status": "proved",
   "theorems": [
    "C49_own_message_only",
    "C49_override",
    "C45_one_message_each"
   ],
   "note": ""
  },
  {
   "property": "C50",
   "status": "partial",
   "theorems": [
    "C50_takes_effect_refuted",
    "C50_guard_meaning",
    "C50_takes_effect_partial"
   ],
   "note": "False of the code when the level is above the compile-time level; holds otherwise."
  },
  {
   "property": "C51",
   "status": "proved",
   "theorems": [
    "C51_compile_time_filter",
    "C51_disable"
   ],
   "note": "Any program, nested or left early."
  },
  {
   "property": "C52",
   "status": "partial",
   "theorems": [
    "C52_cleared_level_partial",
    "C52_restored_refuted",
    "C52_no_filter_refuted",
    "C52_cleared_twice_refuted"
   ],
   "note": "False of the code from two filters on, and clearFilter without filter is undefined behaviour. The exact level after any sequence is proved."
  },
  {
   "property": "C53",
   "status": "partial",
   "theorems": [
    "C53_one_filter",
    "C53_filter_in_force",
    "C53_cleared",
    "C53_widened_refuted"
   ],
   "note": "At most one filter: proved. The default listener is widened: false of the code."
  },
  {
   "property": "C54",
   "status": "proved",
   "theorems": [
    "C54_date",
    "C54_readable",
    "C54_file",
    "C44_distinct"
   ],
   "note": "Stream in its default format state; years 1000 to 9999. With C44_distinct the level is read back too."
  },
  {
   "property": "C55",
   "status": "proved",
   "theorems": [
    "C55_latest",
    "C55_not_destroyed"
   ],
   "note": "For programs that pass no null pointer (null is undefined behaviour at the next message)."
  },
  {
   "property": "C56",
   "status": "proved",
   "theorems": [
    "C56_own_filters_only",
    "C56_no_other"
   ],
   "note": ""
  },
  {
   "property": "C57",
   "status": "partial",
   "theorems": [
    "C57_round_trip_partial",
    "C57_long_refuted",
    "C57_nul_refuted"
   ],
   "note": "False of the code from 1000 characters on (buffer overflow) and for texts with NUL; proved for all others."
  },
  {
   "property": "C58",
   "status": "partial",
   "theorems": [
    "C58_moves_partial",
    "C58_double_free_refuted",
    "C58_use_after_free_refuted",
    "C58_leak_refuted",
    "C58_moved_from_refuted"
   ],
   "note": "False of the code for copies, assignments and moved-from objects; proved for programs that only create, move, read and destroy."
  },
  {
   "property": "C59",
   "status": "partial",
   "theorems": [
    "C59_first_token_partial",
    "C59_states_partial",
    "C59_token_unique",
    "C59_exceptions_refuted"
   ],
   "note": "Proved for tokens of fewer than 1000 characters (up to their first NUL); longer ones overflow the buffer."
  },
  {
   "property": "C60",
   "status": "partial",
   "theorems": [
    "C60_integers_partial",
    "C60_types",
    "C60_uint64_refuted"
   ],
   "note": "False of the code for uint64 values of 2^63 and more, which read as negative; proved for every other value of every accepted integer type."
  },
  {
   "property": "C61",
   "status": "proved",
   "theorems": [
    "C61_round_trip"
   ],
   "note": ""
  },
  {
   "property": "C62",
   "status": "partial",
   "theorems": [
    "C62_text",
    "C62_c_text",
    "C62_null_refuted",
    "C62_numeral_partial",
    "C62_not_a_number_refuted",
    "C62_out_of_range_refuted",
    "C62_trailing_refuted"
   ],
   "note": "toString and toBool proved. False of the code for toInt: texts that are no numbers end the program, and what follows a number is ignored."
  },
  {
   "property": "C63",
   "status": "partial",
   "theorems": [
    "C63_no_owning_copies_partial",
    "C63_copy_refuted",
    "C63_assign_refuted"
   ],
   "note": "False of the code for copies and assignments of items with strings or big numbers; proved for all other programs."
  },
  {
   "property": "C64",
   "status": "partial",
   "theorems": [
    "C64_flat_partial",
    "C64_deep_refuted"
   ],
   "note": "False of the code for strings and big numbers; proved for the other handlers."
  },
  {
   "property": "C65",
   "status": "proved",
   "theorems": [
    "C65_zero",
    "C65_truncation",
    "C65_elsewhere"
   ],
   "note": ""
  },
  {
   "property": "C66",
   "status": "proved",
   "theorems": [
    "C66_nil",
    "C66_bool",
    "C66_other_types"
   ],
   "note": ""
  },
  {
   "property": "C67",
   "status": "proved",
   "theorems": [
    "C67_exit_status",
    "C67_exit_final"
   ],
   "note": ""
  },
  {
   "property": "C68",
   "status": "proved",
   "theorems": [
    "C68_runs_once"
   ],
   "note": ""
  },
  {
   "property": "C69",
   "status": "partial",
   "theorems": [
    "C69_verdict_partial",
    "C69_failed_check",
    "C69_teardown_output_refuted"
   ],
   "note": "Proved, except that output on stderr by TearDown alone does not count, and that a test may set its status by hand."
  },
  {
   "property": "C70",
   "status": "partial",
   "theorems": [
    "C70_option_e_refuted",
    "C70_stderr_fails_refuted",
    "C70_uncaptured_partial"
   ],
   "note": "False of the code: -e has no effect, stderr output always fails a captured test."
  },
  {
   "property": "C71",
   "status": "partial",
   "theorems": [
    "C71_rerun_partial",
    "C71_rerun_refuted"
   ],
   "note": "False of the code once a test has written on stderr; proved otherwise."
  },
  {
   "property": "C72",
   "status": "partial",
   "theorems": [
    "C72_repeated_refuted",
    "C72_first_partial"
   ],
   "note": "False of the code: call k+1 runs every test k+1 times."
  },
  {
   "property": "C73",
   "status": "partial",
   "theorems": [
    "C73_failed_cases_partial",
    "C73_not_run_refuted"
   ],
   "note": "Proved when all tests are selected; false of the code with -t."
  },
  {
   "property": "C74",
   "status": "partial",
   "theorems": [
    "C74_louder",
    "C74_silent_partial"
   ],
   "note": "Proved, except that a report that cannot be saved is announced at verbosity 0."
  },
  {
   "property": "C75",
   "status": "partial",
   "theorems": [
    "C75_counts_partial",
    "C75_repeated_refuted"
   ],
   "note": "Proved for the first run; false of the code for later ones."
  },
  {
   "property": "C76",
   "status": "partial",
   "theorems": [
    "C76_plain_partial",
    "C76_less_refuted",
    "C76_actual_refuted"
   ],
   "note": "Well formed when no name or description has a special character. False otherwise: descriptions are written into attributes unescaped, so any report with a failed EXPECT_LT or with a failed comparison that prints its actual value is not well formed."
  },
  {
   "property": "C77",
   "status": "partial",
   "theorems": [
    "C77_accepts",
    "C77_settings",
    "C77_refuses",
    "C77_accepts_only_partial",
    "C77_level_refuted",
    "C77_blank_level_refuted"
   ],
   "note": "Proved, except for the text of the verbosity level: more is accepted than numbers, and a blank text is undefined behaviour."
  },
  {
   "property": "C78",
   "status": "partial",
   "theorems": [
    "C78_fail_partial",
    "C78_returns_refuted"
   ],
   "note": "False of the code: FAIL does not return."
  },
  {
   "property": "C79",
   "status": "partial",
   "theorems": [
    "C79_stops",
    "C79_fails_partial",
    "C79_passing",
    "C79_throw_checks_refuted",
    "C79_last_refuted",
    "C79_setup_refuted"
   ],
   "note": "Proved for comparisons in the body; the exception checks do not end it, a check in SetUp does not stop the test, and the last failure is recorded."
  },
  {
   "property": "C80",
   "status": "partial",
   "theorems": [
    "C80_near_partial",
    "C80_same_partial",
    "C80_close_refuted",
    "C80_small_refuted",
    "C80_sum_refuted"
   ],
   "note": "Accepted values differ by less than 1/10000 up to double rounding (2/10000 around zero). The converse is false: values 2^-22 apart are rejected next to every whole number up to 200000; and the macro does not parenthesise its arguments."
  },
  {
   "property": "C81",
   "status": "partial",
   "theorems": [
    "C81_one_test",
    "C81_run",
    "C81_restored",
    "C81_read_partial",
    "C81_nul_refuted"
   ],
   "note": "Recorded and restored in all cases. What capturedOut() and capturedErr() give ends at the first NUL of the text (C81_nul_refuted)."
  },
  {
   "property": "C82",
   "status": "partial",
   "theorems": [
    "C82_teardown_partial",
    "C82_exception_refuted"
   ],
   "note": "False of the code when SetUp or the body throws; proved otherwise."
  },
  {
   "property": "C83",
   "status": "partial",
   "theorems": [
    "C83_midnight",
    "C83_forward",
    "C83_test_time_partial",
    "C83_setup_throws_refuted"
   ],
   "note": "Proved, except that a test whose SetUp throws is given an earlier beginning, or 0."
  },
  {
   "property": "C84",
   "status": "proved",
   "theorems": [
    "C84_detect"
   ],
   "note": ""
  },
  {
   "property": "C85",
   "status": "proved",
   "theorems": [
    "C85_no_lost_update",
    "C85_own_value",
    "C85_distinct",
    "C85_program_order",
    "C85_reduced_unique"
   ],
   "note": "The built-ins are taken to be atomic as documented."
  },
  {
   "property": "C86",
   "status": "partial",
   "theorems": [
    "C86_agree_partial",
    "C86_add_refuted"
   ],
   "note": "False of the code for atomicAdd on 32 bit Windows, which returns the old value; proved for all other primitives."
  },
  {
   "property": "C87",
   "status": "partial",
   "theorems": [
    "C87_reads",
    "C87_created_once",
    "C87_same_instance",
    "C87_distinct_partial",
    "C87_shared_refuted"
   ],
   "note": "All proved except that Singleton objects of one type share their instance."
  },
  {
   "property": "C88",
   "status": "proved",
   "theorems": [
    "C88_stores",
    "C88_ith",
    "C88_too_short"
   ],
   "note": ""
  },
  {
   "property": "C89",
   "status": "proved",
   "theorems": [
    "C89_one_winner"
   ],
   "note": ""
  },
  {
   "property": "C90",
   "status": "proved",
   "theorems": [
    "C90_handed_over_once"
   ],
   "note": ""
  },
  {
   "property": "C91",
   "status": "proved",
   "theorems": [
    "C91_refused",
    "C91_accepted",
    "C91_no_arguments"
   ],
   "note": ""
  },
  {
   "property": "C92",
   "status": "proved",
   "theorems": [
    "C92_perform",
    "C92_unknown"
   ],
   "note": ""
  },
  {
   "property": "C93",
   "status": "proved",
   "theorems": [
    "C93_registered",
    "C93_selects"
   ],
   "note": ""
  },
  {
   "property": "C94",
   "status": "proved",
   "theorems": [
    "C94_linearizable"
   ],
   "note": "Also proved for pop_reverse and clear in the histories of C04 and C06. Not part of it: top() and discard(iterator), whose effect is partly outside the lock, and builds with assertions, where a call takes the lock twice."
  },
  {
   "property": "C95",
   "status": "partial",
   "theorems": [
    "C95_exceptions_partial",
    "C95_full_page_refuted"
   ],
   "note": "Proved for all histories in which a failure to store the first element of a new page is followed by a push or a discard(n) before the top is used; otherwise false: the top is then undefined behaviour although the stack is not empty."
  },
  {
   "property": "C96",
   "status": "proved",
   "theorems": [
    "C96_no_data_race",
    "C96_serial"
   ],
   "note": "For finite executions. Orders of coherence that concern reads are not assumed, which admits more executions than the standard."
  },
  {
   "property": "C97",
   "status": "partial",
   "theorems": [
    "C97_every_message_deleted_once",
    "C97_strings_leak_refuted"
   ],
   "note": "Every message object is deleted exactly once. False of the code: the strings that log() constructed over those of a pooled message are leaked, one set for each message."
  },
  {
   "property": "C98",
   "status": "partial",
   "theorems": [
    "C98_throw_terminates_refuted",
    "C98_nobody_else_called_refuted",
    "C98_only_cause_partial"
   ],
   "note": "False of the code, in every state: the exception leaves a noexcept function and ends the program. Proved: nothing else ends it, save a callback that calls stop()."
  },
  {
   "property": "C99",
   "status": "partial",
   "theorems": [
    "C99_invalid_filter_refuted",
    "C99_no_filter_partial"
   ],
   "note": "False of the code: the exception is thrown, but the previous filter has been detached and the general level raised. Universal over the histories of filter calls."
  },
  {
   "property": "C100",
   "status": "proved",
   "theorems": [
    "C100_calls_take_effect"
   ],
   "note": "For the client threads; what each event then means for the listeners and the counters is C28 to C43."
  },
  {
   "property": "C101",
   "status": "proved",
   "theorems": [
    "C101_statements_to_calls",
    "C101_statements_to_listener",
    "C101_statements_to_lines",
    "C101_threads_finish",
    "C101_all_dispatched",
    "C101_eventually"
   ],
   "note": "Composes the models of Logger, LogSystem and the log stream. C101_eventually: in every fair execution the listener has received everything from some time on; programs whose operands log are C47, those whose operands throw C102."
  },
  {
   "property": "C102",
   "status": "partial",
   "theorems": [
    "C102_as_if_cut_partial",
    "C102_messages_partial",
    "C102_partial_text_sent_refuted"
   ],
   "note": "The exception reaches the handler and all other statements are undisturbed: proved, as equivalence with the program cut short. No message for the statement: false of the code, the partial text is sent as if it were complete (the destructor commits)."
  },
  {
   "property": "C103",
   "status": "partial",
   "theorems": [
    "C103_silent_refuted",
    "C103_silent_partial",
    "C103_each_test"
   ],
   "note": "False of the code: a debugging line is written for every message with a category that a listener with a category filter is asked about. Silent otherwise."
  },
  {
   "property": "C104",
   "status": "partial",
   "theorems": [
    "C104_same_line_partial",
    "C104_shared_stream_partial",
    "C104_left_refuted",
    "C104_hex_refuted",
    "C104_sign_refuted",
    "C104_internal_refuted",
    "C104_width_refuted",
    "C104_failed_stream",
    "C104_state_left",
    "C104_state_kept_refuted"
   ],
   "note": "Proved for streams in decimal, right or internal adjustment, without showpos and with a pending width of at most four, whatever the rest of the state and whatever the program inserts that keeps it so. False of the code otherwise (left adjustment, other bases, wider widths), and each line leaves the fill character 0."
  },
  {
   "property": "C105",
   "status": "partial",
   "theorems": [
    "C105_own_text_partial",
    "C105_no_manipulators",
    "C105_failure_contained",
    "C105_format_carried",
    "C105_format_leaks_refuted"
   ],
   "note": "Proved for threads whose statements leave the default format as they found it, in particular those without manipulators; failures are contained. False of the code otherwise: readyStream() does not reset the format of the thread-local stream. C105_format_carried says exactly what is sent in every case."
  },
  {
   "property": "C106",
   "status": "partial",
   "theorems": [
    "C106_reports_partial",
    "C106_same_model",
    "C106_hex_refuted",
    "C106_wrong_case_refuted",
    "C106_failed_refuted"
   ],
   "note": "Proved for tests that leave std::cout in plain decimal and, without capture, usable. False otherwise: beginTest and endTest exchange the buffer of std::cout only, so the reports show case and line numbers in hexadecimal after a test that left std::hex, and nothing at all after one that left std::cout failed while output is not captured."
  },
  {
   "property": "C107",
   "status": "partial",
   "theorems": [
    "C107_throw_partial",
    "C107_each_message_partial",
    "C107_fifo_partial",
    "C107_delivered_partial",
    "C107_settings_partial",
    "C107_constructor_partial",
    "C107_object_lost_refuted",
    "C107_destructor_refuted",
    "C107_created_refuted",
    "C107_push_refuted",
    "C107_log_thread_refuted",
    "C107_category_refuted",
    "C107_constructor_refuted"
   ],
   "note": "As long as the program goes on, calls that throw leave no trace in the queue, the listeners and the locks, and everything else is queued, ordered and delivered as without them, by simulation. False of the code: a message object is leaked when its strings cannot be copied, the counter of created messages is wrong, the program ends when the queue or pool cannot grow, category() can be left half done, a failing constructor leaks. Simplifications: any push_back may fail; callbacks do not catch std::bad_alloc."
  },
  {
   "property": "C108",
   "status": "partial",
   "theorems": [
    "C108_statements_partial",
    "C108_all_possible",
    "C108_no_failure",
    "C108_block_leaks_refuted",
    "C108_line_terminates_refuted",
    "C108_category_terminates_refuted",
    "C108_cut_refuted",
    "C108_category_lost_refuted",
    "C108_width_refuted"
   ],
   "note": "False as stated. Proved: in any run that is not terminated and in which no commit fails, each statement does what it says, or throws and does nothing, or throws and sends a message without its category and text, or sends a message cut short, and a failure harms its own statement only; each of these outcomes is possible. Refuted for all texts: a block whose commit fails leaves its text to the next message; a line whose commit fails, or LOG_CATEGORY, may end the process although there is a handler; a text may be cut anywhere without an exception; the temporary category may be lost; a width stays for the next message."
  },
  {
   "property": "C109",
   "status": "partial",
   "theorems": [
    "C109_report_partial",
    "C109_test_partial",
    "C109_document_partial",
    "C109_twice_refuted"
   ],
   "note": "Proved, also for the text of the file read as an XML document, for the first run if no test is selected twice. Otherwise false: a test selected twice gets two entries that both tell its last run (C109_twice_refuted), and the report of a later run lists the tests again for each earlier run (C75_repeated_refuted)."
  },
  {
   "property": "C110",
   "status": "partial",
   "theorems": [
    "C110_console_partial",
    "C110_single",
    "C110_columns",
    "C110_component_refuted",
    "C110_nul_refuted"
   ],
   "note": "The complete output of the first run of a program. False of the code: a component that failed once is shown as failed after all later runs, and captured text is shown up to the first NUL only, without any notice if it begins with one."
  },
  {
   "property": "C111",
   "status": "partial",
   "theorems": [
    "C111_passes",
    "C111_pure_partial",
    "C111_report_partial",
    "C111_twice_refuted",
    "C111_counter_refuted",
    "C111_throw_refuted",
    "C111_float_refuted"
   ],
   "note": "Proved for checks that pass and for arguments without effects. A failing check computes the actual value a second time and shows the second value, for all expressions; if that throws, the failure is lost; EXPECT_FLOAT_EQ shows 10000 times the value. Simplification: comparison and insertion operators have no effects."
  },
  {
   "property": "C112",
   "status": "partial",
   "theorems": [
    "C112_total",
    "C112_component_partial",
    "C112_setup_refuted",
    "C112_single"
   ],
   "note": "False for a test whose SetUp throws: its beginning is never read, so in a first run its time is the time on the clock, more than the whole run took. Proved for all others; the run and its components are right in every case."
  },
  {
   "property": "C113",
   "status": "proved",
   "theorems": [
    "C113_values",
    "C113_swap",
    "C113_ownership"
   ],
   "note": "Default mutex and std::allocator; calls of the core interface (those of C01); no synchronised iterators alive."
  },
  {
   "property": "C114",
   "status": "proved",
   "theorems": [
    "C114_mark"
   ],
   "note": "Page sizes from 1 on; histories that are careful in the sense of C04-C06 (no push after a removal through an iterator that ended on a page boundary, no clear() of a non-empty stack). Forward iterators."
  },
  {
   "property": "C115",
   "status": "proved",
   "theorems": [
    "C115_explained",
    "C115_silent",
    "C115_complete",
    "C115_accepted"
   ],
   "note": "Bad levels are those written as decimal numbers (other texts: C77)."
  },
  {
   "property": "C116",
   "status": "partial",
   "theorems": [
    "C116_fair_partial",
    "C116_overtaken_refuted"
   ],
   "note": "Every lock() call returns under every fair schedule when each thread has a finite number of critical sections. False: there is no bound on overtaking; the lock is not a queue."
  },
  {
   "property": "C117",
   "status": "proved",
   "theorems": [
    "C117_safe",
    "C117_origin"
   ],
   "note": "The deviations of C04-C06 (values coming back, clear() keeping a page) are part of the statement, as the only ones."
  },
  {
   "property": "C118",
   "status": "partial",
   "theorems": [
    "C118_filter_whole",
    "C118_getters",
    "C118_text_partial",
    "C118_only_race_partial",
    "C118_race_refuted"
   ],
   "note": "False in one point: category() returns a reference that is read after the mutex is released, a data race with category(re). That is shown to be the only race; the rest holds."
  },
  {
   "property": "C119",
   "status": "partial",
   "theorems": [
    "C119_whole_partial",
    "C119_merge_refuted",
    "C119_whole_refuted",
    "C119_time_partial",
    "C119_time_refuted"
   ],
   "note": "Holds when only one listener is directed to the stream, and, for the time, when one thread makes all the calls. False otherwise: listeners lock their own mutex, not the stream, and localtime returns an object shared by all threads."
  },
  {
   "property": "C120",
   "status": "partial",
   "theorems": [
    "C120_readings",
    "C120_32bit_refuted",
    "C120_measure_partial",
    "C120_measure_refuted",
    "C120_wait_partial",
    "C120_wait_refuted"
   ],
   "note": "Holds on Unix with 64-bit times when the clock is not set back, on Windows for intervals below a day, and for waits below 2^32 microseconds (Unix) or 2^32 - 1 milliseconds (Windows). False otherwise: 32-bit times overflow, a clock set back yields nearly a day, long waits are cut."
  },
  {
   "property": "C121",
   "status": "partial",
   "theorems": [
    "C121_sync_threads_partial"
   ],
   "note": "Proved for all schedules and programs whose calls, in the order of lock acquisition, avoid the three hazards of C11, which are undefined behaviour (C11_hazards_refuted). Not part of it: copying an iterator (C14) and the calls C94 leaves out."
  },
  {
   "property": "C122",
   "status": "partial",
   "theorems": [
    "C122_ideal_iterators_partial"
   ],
   "note": "Proved for all histories in which the position has a meaning. Not covered, because undefined or lost in the code: get() and ++ at the end of a stack of more than one page, an iterator whose last use threw while it was above the bottom page, -- from the top when there is no further page (C11_hazards_refuted, C11_after_throw_refuted); when -- from the top finds a page, the position is that page's first, and the end of a stack of at most one page is taken for its top: the specification says so. Copies: C14."
  },
  {
   "property": "C123",
   "status": "proved",
   "theorems": [
    "C123_loop",
    "C123_contents"
   ],
   "note": "C123_loop is for any number of iterators and calls of others that are legal in the sense of C11 (clear(), discard of positions and pop_reverse, which break the stack itself, are excluded there: C04-C06)."
  },
  {
   "property": "C124",
   "status": "partial",
   "theorems": [
    "C124_two_sections",
    "C124_assertions_partial",
    "C124_alone",
    "C124_shared_refuted",
    "C124_pop_values_refuted"
   ],
   "note": "No false alarm, for all schedules; with one thread, no call outside its domain goes on (C124_alone), except pop(a, b, ...), whose assertion asks for one element only (C124_pop_values_refuted). With two threads false: the assertion releases the lock before the call takes it, so both threads may pass the assertion for the same last element (C124_shared_refuted). Not part of it: pop_reverse, clear, top() and discard of positions."
  },
  {
   "property": "C125",
   "status": "partial",
   "theorems": [
    "C125_mutex",
    "C125_same_traces",
    "C125_same_states",
    "C125_no_lost_wakeup",
    "C125_released",
    "C125_dispatched",
    "C125_all_calls_return",
    "C125_defined_partial",
    "C125_without_diags",
    "C125_defined_refuted"
   ],
   "note": "False in one point: getDiags() looks at the active listeners without a mutex while the log thread may be appending to them; shown to be the only way to undefined behaviour in the sections (the races with the removal of listeners, which is not in a section, and of a loop of getDiags() that goes on after the change, are in C43). m_mtxThread is held during join() and is part of LogModel.v (C35, C42); m_mtxCategory: C118. C125_dispatched and C125_all_calls_return take scheduler and mutexes to be fair: a thread that is able to go on again and again goes on."
  }
 ]
}