{
 "claims": [
  {
   "property": "C01",
   "status": "proved",
   "theorems": [
    "C01_abandon_discards_exactly_future",
    "C01_abandon_limit_defined",
    "C01_abandon_limit_overflow_refuted",
    "C01_exactly_once",
    "C01_queue_conserves_commands"
   ],
   "note": "Conservation over every history, including clear and abandonFutureCommands; limit arithmetic with int overflow as undefined behaviour."
  },
  {
   "property": "C02",
   "status": "partial",
   "theorems": [
    "C02_queue_order_with_abandon_paid",
    "C02_queue_order_with_abandon_partial",
    "C02_queue_order_with_abandon_refuted",
    "C02_queue_refines_priority_list"
   ],
   "note": "Full refinement for every history without abandonFutureCommands; with it gets keep the order up to equal timeouts except at most one per abandoned command (C02_queue_order_with_abandon_paid), and the full claim is refuted (stale timeout entries)."
  },
  {
   "property": "C03",
   "status": "proved",
   "theorems": [
    "C03_blocked_iff_over_limit",
    "C03_command_block_lasts_exactly",
    "C03_get_marks_exactly_blocked",
    "C03_huge_duration_refuted",
    "C03_identifier_block_lasts_exactly",
    "C03_push_refused_iff_blocked",
    "C03_window_enlarged_refuted"
   ],
   "note": "Exact blocking for every realistic history; push/get behaviour; exact block length. The claim without the window-not-enlarged and no-overflow assumptions is refuted by witnesses."
  },
  {
   "property": "C04",
   "status": "proved",
   "theorems": [
    "C04_blocked_is_union",
    "C04_command_isolated",
    "C04_disabled_never_blocks",
    "C04_empty_never_blocked",
    "C04_identifier_isolated"
   ],
   "note": "Non-interference: deleting all calls not about the key does not change its status, for every history."
  },
  {
   "property": "C05",
   "status": "proved",
   "theorems": [
    "C05_accepted_exactly_once",
    "C05_capacity",
    "C05_everything_is_received",
    "C05_fifo",
    "C05_no_data_race",
    "C05_refused_only_when_full",
    "C05_refused_only_when_full_refuted",
    "C05_two_shutdowns_refuted"
   ],
   "note": "FIFO, exactly-once, race freedom, capacity, drain, for every interleaving with at most one shutdown call; the refusal claim holds for up-to-date index loads and is refuted by a witness otherwise (wrap-around), as is the claim with two shutdowns."
  },
  {
   "property": "C06",
   "status": "proved",
   "theorems": [
    "C06_fifo",
    "C06_full_pipe_blocks_refuted",
    "C06_never_sleeps_on_work",
    "C06_push_wakes"
   ],
   "note": "FIFO and no-sleep-on-work for every interleaving; a full wake-up pipe blocks push under the mutex (refuted witness for every capacity)."
  },
  {
   "property": "C07",
   "status": "proved",
   "theorems": [
    "C07_allocator_independent",
    "C07_buffer_is_byte_string",
    "C07_print_without_nul",
    "C07_size_and_empty"
   ],
   "note": "Every operation sequence agrees with the byte string; printing stops at NUL (stated)."
  },
  {
   "property": "C08",
   "status": "proved",
   "theorems": [
    "C08_answer_depends_on_content_only",
    "C08_chunking_independent",
    "C08_consumed_byte_leaks_refuted"
   ],
   "note": "Answer is a function of the logical content given the byte before it; the unconditional claim is refuted by a witness (a consumed byte leaks into the look-behind)."
  },
  {
   "property": "C09",
   "status": "proved",
   "theorems": [
    "C09_bytes_roundtrip",
    "C09_hex_injective",
    "C09_hex_roundtrip",
    "C09_integer_roundtrip",
    "C09_reads_hex_number",
    "C09_trailing_garbage",
    "C09_trailing_garbage_16_refuted"
   ],
   "note": "Round trips for every string and integer; number reader; trailing garbage refuted at 16 digits."
  },
  {
   "property": "C10",
   "status": "proved",
   "theorems": [
    "C10_component_roundtrip",
    "C10_encoding_is_safe",
    "C10_uri_path_roundtrip"
   ],
   "note": "Round trip for every byte string and for whole paths with parameters."
  },
  {
   "property": "C11",
   "status": "proved",
   "theorems": [
    "C11_integer_list_alphabet",
    "C11_integer_list_is_integers",
    "C11_nul_truncates_refuted",
    "C11_quoted_list",
    "C11_quoted_string_is_one_literal",
    "C11_value_is_exact"
   ],
   "note": "For every string the quoted form lexes as exactly one SQL literal whatever follows; integer lists contain only integers. The value is cut at NUL (refuted witness)."
  },
  {
   "property": "C12",
   "status": "proved",
   "theorems": [
    "C12_found_flag_refuted",
    "C12_list_roundtrip",
    "C12_parse_idempotent",
    "C12_parse_wellformed"
   ],
   "note": "Round trip and idempotence for every text; the found flag claim is refuted."
  },
  {
   "property": "C13",
   "status": "proved",
   "theorems": [
    "C13_capitals_refuted",
    "C13_missing_element_refuted",
    "C13_model_terminates",
    "C13_name_injection_refuted",
    "C13_nul_aborts_refuted",
    "C13_nul_cut_refuted",
    "C13_parser_never_aborts",
    "C13_reads_array",
    "C13_reads_object",
    "C13_string_roundtrip",
    "C13_surrogate_pair_refuted",
    "C13_trailing_garbage",
    "C13_trailing_garbage_object",
    "C13_truncated_accepted_refuted",
    "C13_unbalanced_value_refuted"
   ],
   "note": "Against the JSON grammar: the composer writes JSON, and the parser reads every JSON text (any white space, escapes, nesting) as the values it denotes. Values with a NUL, literals in capitals, values that look like arrays but break off, and quotes in names are _refuted witnesses; so are the texts the parser accepts although they are not JSON, the abort at a NUL and surrogate pairs. What %.6f prints is a parameter."
  },
  {
   "property": "C14",
   "status": "proved",
   "theorems": [
    "C14_chunked_header_refuted",
    "C14_composable",
    "C14_cookie_injection_refuted",
    "C14_exact",
    "C14_name_injection_refuted",
    "C14_no_length_refuted",
    "C14_pipelined_refuted",
    "C14_requests_in_order",
    "C14_roundtrip",
    "C14_stream",
    "C14_waiting_client"
   ],
   "note": "Any legal message (header names without colon or line end, cookies as in a cookie list, no Transfer-Encoding: chunked), any bytes after it, any division of a sequence of messages into pieces. Values arrive up to the first NUL and without surrounding spaces. Illegal names and cookies, messages without Content-Length and pipelined requests are _refuted witnesses."
  },
  {
   "property": "C15",
   "status": "proved",
   "theorems": [
    "C15_blank_line_test",
    "C15_command_port_waits",
    "C15_last_byte_refuted",
    "C15_truncated_waits"
   ],
   "note": "Exact: the parser waits for every proper prefix except that of a message without body that lacks only its last line feed (_refuted); on the command port the blank-line test removes the exception."
  },
  {
   "property": "C16",
   "status": "proved",
   "theorems": [
    "C16_commit_is_next",
    "C16_data_is_replay",
    "C16_history",
    "C16_partial_write_refuted",
    "C16_read_back",
    "C16_restart",
    "C16_shared_thread_refuted"
   ],
   "note": "Any number of handles, threads with one handle each, every interleaving of calls, conflicts, failures, crashes. Caller rules (listed with j_misuse) are needed: the unrestricted claims are refuted by witnesses (failed multi-statement write then commit; one thread with two handles)."
  },
  {
   "property": "C17",
   "status": "proved",
   "theorems": [
    "C17_begin_failure_leaks_refuted",
    "C17_lock_free_when_idle",
    "C17_nested_begin_leaks_refuted",
    "C17_no_trace",
    "C17_rollback_clean"
   ],
   "note": "Frame theorem for every call other than a successful COMMIT; lock release under no leak; the two ways beginTransaction leaks the lock are refuted witnesses."
  },
  {
   "property": "C18",
   "status": "proved",
   "theorems": [
    "C18_commit_needs_enabled",
    "C18_disabled_stays_still"
   ],
   "note": "Nothing becomes durable between the return of a disabling call and the next enabling call or restart."
  },
  {
   "property": "C19",
   "status": "proved",
   "theorems": [
    "C19_only_old_removed",
    "C19_recent_kept"
   ],
   "note": "Latest maxJournalSize commits always readable; only rows older than that are ever removed."
  },
  {
   "property": "C20",
   "status": "proved",
   "theorems": [
    "C20_bounded",
    "C20_exclusive",
    "C20_granted_when_free",
    "C20_no_lost_wakeup",
    "C20_pool_of_one_refuted"
   ],
   "note": "Exclusivity, bounds, immediate grant when free, no lost wake-up, for every interleaving; a pool of one never grants (stated as _refuted)."
  },
  {
   "property": "C21",
   "status": "proved",
   "theorems": [
    "C21_exclusive",
    "C21_never_destroyed_in_use",
    "C21_only_same_identifier_blocks",
    "C21_table_bounded",
    "C21_zero_and_release_never_block"
   ],
   "note": "Exclusion, no destruction while referenced, only the same identifier blocks, table bound, for every interleaving."
  },
  {
   "property": "C22",
   "status": "proved",
   "theorems": [
    "C22_always_within_limit",
    "C22_ascii_bytes",
    "C22_bytes_refuted",
    "C22_clearing_ends",
    "C22_configured_size",
    "C22_empty_name_aborts_refuted",
    "C22_evicts_least_recently_used",
    "C22_lost_write_order_refuted",
    "C22_never_aborts",
    "C22_nul_value_refuted",
    "C22_overwrite_aborts_refuted",
    "C22_read_after_write",
    "C22_restart_order_refuted",
    "C22_within_limit"
   ],
   "note": "Any history of committed and lost writes, reads and restarts. The order of eviction is proved for histories without restarts and lost writes; the exact account and the absence of the abort for connections with recursive triggers. The other cases are _refuted witnesses."
  },
  {
   "property": "C23",
   "status": "proved",
   "theorems": [
    "C23_auto_retry_waits",
    "C23_cancel_refuted",
    "C23_failed_but_returned_refuted",
    "C23_handed_out_once",
    "C23_no_duplicates",
    "C23_taken_by_nobody_refuted"
   ],
   "note": "Any history of plugin commands. The exact list of commands that release a job is in the statement; three ways in which a job is handed twice or to nobody are shown as _refuted (CancelJob of a RUNQUEUED job, blacklisted or worn-out jobs, FailJob of a mock)."
  },
  {
   "property": "C24",
   "status": "proved",
   "theorems": [
    "C24_cancel_child",
    "C24_failed_child_refuted",
    "C24_finish_child",
    "C24_finish_parent",
    "C24_never_side_by_side",
    "C24_no_grandchildren",
    "C24_requeue_side_by_side_refuted",
    "C24_state_changes",
    "C24_vanishes"
   ],
   "note": "Grandchildren, every state change and its cause, finish of child and parent, cancel. That parent and child never run side by side holds without RequeueJobs; with it, and with a failing last child, the _refuted theorems exhibit the histories."
  },
  {
   "property": "C25",
   "status": "proved",
   "theorems": [
    "C25_constant_interval",
    "C25_finish_reschedules",
    "C25_manual_refuted",
    "C25_missed_window",
    "C25_other_bases",
    "C25_otherwise",
    "C25_retry_never_crashes"
   ],
   "note": "Date arithmetic over seconds with SQLite's modifiers as parameters; the code's own re-anchoring is exact. A job named manual with retryAfter and a SCHEDULED repeat can never be finished (_refuted)."
  },
  {
   "property": "C26",
   "status": "proved",
   "theorems": [
    "C26_best_jobs_first",
    "C26_retry_priority_refuted",
    "C26_selection"
   ],
   "note": "Any history, any request; the taken jobs are the first n of a ranking of exactly the jobs asked for. A RetryJob priority that is not a number hides the job (_refuted)."
  },
  {
   "property": "C27",
   "status": "proved",
   "theorems": [
    "C27_exactly_once",
    "C27_future_commits",
    "C27_pass",
    "C27_shutdown"
   ],
   "note": "Every history of arrivals (with the commit count at that moment) and passes of the sync loop; the specification is one list in order of arrival. The same two-index structure as the command queue."
  },
  {
   "property": "C28",
   "status": "proved",
   "theorems": [
    "C28_flag_after_attach_refuted",
    "C28_flag_exact",
    "C28_lagging",
    "C28_lagging_other_peer_refuted",
    "C28_not_enough_threads_refuted",
    "C28_one_of_several",
    "C28_open_iff",
    "C28_open_only_unblocked",
    "C28_private_and_control",
    "C28_reopens",
    "C28_shutdown",
    "C28_state_change_refuted"
   ],
   "note": "The reasons for blocking and the port's state under every sequence of calls and iterations of the port loop; state changes that leave the flag wrong are _refuted witnesses."
  },
  {
   "property": "C29",
   "status": "proved",
   "theorems": [
    "C29_case_refuted",
    "C29_cut_report",
    "C29_exact",
    "C29_login",
    "C29_login_applies",
    "C29_nul_value_refuted",
    "C29_others_unaffected",
    "C29_report",
    "C29_spelling_refuted"
   ],
   "note": "Every history of crash reports and requests, including the way a report travels to the other nodes (a message inside a message) and what a new node is told at login. Names in other letter case, values with a NUL and other spellings of a header name are _refuted witnesses."
  },
  {
   "property": "C30",
   "status": "proved",
   "theorems": [
    "C30_chunked_smuggles_refuted",
    "C30_cookie_smuggles_refuted",
    "C30_exact",
    "C30_others_pass",
    "C30_passed_on",
    "C30_remote_refused",
    "C30_same_method_refuted"
   ],
   "note": "Every request, address and port, and requests passed on to another node (any bytes from the client). Requests that are passed on as two (Set-Cookie, Transfer-Encoding) are _refuted witnesses: there a client elsewhere gets a control command carried out."
  },
  {
   "property": "C31",
   "status": "proved",
   "theorems": [
    "C31_at_most_once",
    "C31_committed_and_sent_refuted",
    "C31_committed_but_expired_refuted",
    "C31_committed_twice_refuted",
    "C31_not_lost",
    "C31_one_reply",
    "C31_truthful"
   ],
   "note": "Any number of runs and passes, any conflict, state change, time-out and escalation outcome. One reply or one queue at the end of every run, one reply over the whole life. At most once except in the three cases of the statement, each with a _refuted witness (here and in C33)."
  },
  {
   "property": "C32",
   "status": "proved",
   "theorems": [
    "C32_attempt",
    "C32_begin_fails_refuted",
    "C32_commit",
    "C32_error_after_commit_refuted",
    "C32_fresh_reply",
    "C32_not_lost",
    "C32_peek",
    "C32_postprocess",
    "C32_prepeek",
    "C32_process",
    "C32_process_again",
    "C32_stale_reply_refuted",
    "C32_too_late_refuted",
    "C32_undone_refuted",
    "C32_undone_stops_refuted"
   ],
   "note": "Any writes, exceptions and time-outs at every stage, on shared and blocking threads, up to the commit and its failure; the reply of a peek comes from that peek alone. Conditions: the code does not go on after a database exception or a failure that made SQLite undo the transaction, and SQLite accepts the BEGIN; without them there are _refuted witnesses, as for the reply of a command with prePeek or postProcess."
  },
  {
   "property": "C33",
   "status": "proved",
   "theorems": [
    "C33_answer_arrives",
    "C33_at_most_once",
    "C33_bad_answer_refuted",
    "C33_by_name",
    "C33_control_character_refuted",
    "C33_no_made_up_answer",
    "C33_retry_is_safe",
    "C33_sent_means_complete",
    "C33_synchronizing_refuted",
    "C33_two_peers_refuted",
    "C33_two_places"
   ],
   "note": "Any sequence of attempts and any behaviour of the network in each; uses C14 and C15 for what a peer makes of the bytes. Sending twice on a follower of another version and while synchronizing, and requests that cannot be sent on, are _refuted witnesses."
  },
  {
   "property": "C34",
   "status": "proved",
   "theorems": [
    "C34_at_most_one_leader",
    "C34_booting_permafollowers_refuted",
    "C34_dropped_voter_refuted",
    "C34_shutdown_permafollowers_refuted",
    "C34_without_permafollowers"
   ],
   "note": "Any number of nodes, priorities and versions, every interleaving of connects, disconnects, deliveries, updates, priority changes and shutdowns. The two hypotheses are necessary: witnesses elect two leaders when a voter drops the leader, and when permafollowers are counted as voters because they announce -1 while booting or 1 while shutting down."
  },
  {
   "property": "C35",
   "status": "proved",
   "theorems": [
    "C35_keeps_leading_alone_refuted",
    "C35_leader_has_majority",
    "C35_majorities_meet",
    "C35_needs_approvals"
   ],
   "note": "Strict majority of approvals for this very standup behind whoever leads; step-level theorem without any assumption. That a majority stays connected while leading is refuted (a leader left alone keeps leading)."
  },
  {
   "property": "C36",
   "status": "proved",
   "theorems": [
    "C36_accepted_transaction",
    "C36_followers_agree",
    "C36_following_is_prefix",
    "C36_one_at_a_time"
   ],
   "note": "One leader term, any number of followers with arbitrary valid histories, any schedule, connection loss, restart and local failure. Stated as prefix or an exhibited digest collision. Condition: no local commit fails silently while COMMITs are received (the code ignores that result; C37_ignored_commit_result_refuted)."
  },
  {
   "property": "C37",
   "status": "proved",
   "theorems": [
    "C37_commits_checked",
    "C37_converges",
    "C37_fork_detected",
    "C37_ignored_commit_result_refuted",
    "C37_no_gap",
    "C37_round"
   ],
   "note": "The reply and its reception for any histories and any message; forks, trimmed journals, convergence in rounds of 101 commits. The SYNCHRONIZE exchange is modelled as functions, not inside the transition system."
  },
  {
   "property": "C38",
   "status": "proved",
   "theorems": [
    "C38_all_sent_when_stopped",
    "C38_caught_up",
    "C38_handover",
    "C38_never_rejected",
    "C38_popped_in_order",
    "C38_stream_exact"
   ],
   "note": "Source side: each commit is popped once and in order (Journal). Stream side: queue and flight continue the follower's history exactly, nothing is rejected, a handover delivers everything."
  },
  {
   "property": "C39",
   "status": "proved",
   "theorems": [
    "C39_answered",
    "C39_bounded",
    "C39_deadline",
    "C39_execute_time_refuted",
    "C39_later_refuted",
    "C39_lowered",
    "C39_not_later",
    "C39_not_performed",
    "C39_only_earlier",
    "C39_overflow_refuted",
    "C39_remaining",
    "C39_sent_on",
    "C39_sent_on_late_refuted",
    "C39_stays_expired"
   ],
   "note": "Deadline, what is left, lowering and sending on for every request and clock value; expired commands in the run loop and at every stage. Sending on after the deadline, commandExecuteTime, an overflow and the delay between two readings of the clock are _refuted witnesses."
  },
  {
   "property": "C40",
   "status": "proved",
   "theorems": [
    "C40_commits",
    "C40_leader_known",
    "C40_leading_from",
    "C40_transitions"
   ],
   "note": "Every step of every history; also the leader/sync peer bookkeeping and the disabling of commits."
  },
  {
   "property": "C41",
   "status": "proved",
   "theorems": [
    "C41_equals_is_equality",
    "C41_iequals",
    "C41_work_independent_of_input"
   ],
   "note": "Equality decision for every pair and comparison count independent of the input."
  },
  {
   "property": "C42",
   "status": "proved",
   "theorems": [
    "C42_escape_roundtrip",
    "C42_letters_refuted",
    "C42_unicode_escape"
   ],
   "note": "Round trip for every NUL-free string and admissible escaper/unsafe set; all unicode escapes; letters b f n r t u refuted."
  },
  {
   "property": "C43",
   "status": "partial",
   "theorems": [
    "C43_bad_length_throws_refuted",
    "C43_blank_first_line_refuted",
    "C43_huge_chunk_refuted",
    "C43_length_truncated_refuted",
    "C43_memory_safe_partial",
    "C43_spaces_first_exact",
    "C43_uses_what_is_there"
   ],
   "note": "The bytes used are bounded for every input. Memory safety is proved for input whose first line is not all spaces (such a line is always unsafe, C43_spaces_first_exact) and which has no eight hexadecimal digits in a row for a number of at least 2^32 less the length of the input; without this it is false (two _refuted witnesses). Exceptions and a truncated Content-Length are _refuted witnesses too."
  },
  {
   "property": "C44",
   "status": "proved",
   "theorems": [
    "C44_result_roundtrip"
   ],
   "note": "Object style of SQResult::deserialize. Same conditions on the cells as C13."
  },
  {
   "property": "C45",
   "status": "proved",
   "theorems": [
    "C45_capital_refuted",
    "C45_constructor_refuted",
    "C45_conversation",
    "C45_discarded_refuted",
    "C45_one_answer",
    "C45_plugin_header_refuted",
    "C45_plugin_swallows_refuted",
    "C45_silent"
   ],
   "note": "Any list of requests with numbers as times to run, any life of each command that ends in an answer (C31), any division of the bytes (C14). The header plugin (which ends the server or swallows the answer), letter case of close, requests discarded after they were acknowledged and commands a plugin fails to make are _refuted witnesses. Not modelled: a client that has gone, plugin ports."
  },
  {
   "property": "C46",
   "status": "proved",
   "theorems": [
    "C46_answer",
    "C46_bad_length_refuted",
    "C46_changes_refuted",
    "C46_complete",
    "C46_in_time",
    "C46_pauses",
    "C46_status",
    "C46_status_overflow_refuted",
    "C46_truncated",
    "C46_truncated_refuted",
    "C46_until_close",
    "C46_wait",
    "C46_wakes"
   ],
   "note": "Any requests, network events and clock readings; answers in any pieces (C14, C15). Answers with a wrong or missing length that are cut short by a closed connection, results that change after they were reported and status numbers outside int are _refuted witnesses. What poll reports for a socket is an input of the model."
  },
  {
   "property": "C47",
   "status": "proved",
   "theorems": [
    "C47_base64",
    "C47_empty_refuted",
    "C47_exact",
    "C47_forged_refuted",
    "C47_gzip_refuted",
    "C47_no_answer_refuted"
   ],
   "note": "Any list of requests whose messages are legal in the sense of C14; the text, the transfer over the wire and the command that is built. mbedtls is modelled from its documentation. A request without an answer, a compressed answer, results forged by a client and base64 of nothing are _refuted witnesses."
  },
  {
   "property": "C48",
   "status": "proved",
   "theorems": [
    "C48_begin_refuted",
    "C48_case_refuted",
    "C48_empty_text_refuted",
    "C48_escape_refuted",
    "C48_first_only_refuted",
    "C48_name",
    "C48_spelling_refuted",
    "C48_where_line_refuted",
    "C48_where_refuted"
   ],
   "note": "SQLite's parser is a function given to the model, floating point printing a pair of functions. Hypothesis of C48_command: no statement of the query controls the transaction; what happens otherwise, names that differ in case, empty texts, the gaps of the WHERE test and the statements that are not run are _refuted witnesses. Formatting of results is not modelled."
  },
  {
   "property": "C49",
   "status": "proved",
   "theorems": [
    "C49_busy_refuted",
    "C49_counter_refuted",
    "C49_failed_refuted",
    "C49_rewrite_refuted",
    "C49_uncounted_refuted"
   ],
   "note": "The database is any record of states, statements and effects. Hypotheses: busy only before the first statement of a write is done, no rewrite, statements count what they change, no crossing of a multiple of 2^32 rows within one write. Each of these hypotheses is needed: five _refuted witnesses. That the text of the journal splits into the same statements is C50."
  },
  {
   "property": "C50",
   "status": "proved",
   "theorems": [
    "C50_comment_refuted",
    "C50_digits_refuted",
    "C50_joined_refuted",
    "C50_minus_refuted",
    "C50_zero_refuted"
   ],
   "note": "SQLite's tokenizer is specified in Lex_Spec (words, comments, quotes, placeholders); CREATE TRIGGER, whose body holds semicolons, is left out. Hypotheses: each statement ends in a semicolon of its own, placeholders stand apart from their neighbours, text has no zero byte; each is needed: C50_comment, C50_minus, C50_joined, C50_zero, C50_digits _refuted. For doubles the words are those of the printed number."
  },
  {
   "property": "C51",
   "status": "proved",
   "theorems": [
    "C51_misnumbered_refuted",
    "C51_missing_dictionary_refuted",
    "C51_new_dictionary_refuted",
    "C51_raw_dictionary_refuted",
    "C51_round_trip_refuted"
   ],
   "note": "zstd is an interface with the laws of its documentation (zstd_ok); a stand-in that meets them is given. The dictionaries in use are known to all nodes and carry their number. Texts are those of C50 (C51_rows). Refuted without these: raw and misnumbered dictionaries, a dictionary that comes in by synchronization, a missing one, round trips of frames and of blobs."
  },
  {
   "property": "C52",
   "status": "proved",
   "theorems": [
    "C52_given_up_refuted",
    "C52_late_write_refuted",
    "C52_read_writes_refuted",
    "C52_stale_rewrite_refuted",
    "C52_volatile_refuted",
    "C52_volatile_write_refuted",
    "C52_whitelist_refuted"
   ],
   "note": "SQLite is an interface: statements, the actions it asks the authorizer about, results, what it gives up. Hypotheses: what is read does not write and depends only on the database unless it calls a function on the handle's list; the whitelist is set once; no write runs over its time or no read uses the functions refused in writes. Each is needed: seven _refuted theorems. After SQLite has given up a transaction, claims resume with the rollback."
  },
  {
   "property": "C53",
   "status": "proved",
   "theorems": [
    "C53_analyze_refuted",
    "C53_count_refuted"
   ],
   "note": "Rests on what SQLite documents of authorizer callbacks: a statement that only asks to read changes nothing, and its result depends only on the columns it asked for that are not ignored and on row counts. Rewriting is off. Refuted beyond that: row counts of unlisted tables show, ANALYZE is allowed, a whitelist set in mid-transaction (C52_whitelist_refuted)."
  },
  {
   "property": "C54",
   "status": "proved",
   "theorems": [
    "C54_blob",
    "C54_bytes_refuted",
    "C54_infinite_refuted",
    "C54_json",
    "C54_jsonb_refuted",
    "C54_long_text_refuted",
    "C54_no_rows_refuted"
   ],
   "note": "For results with at least one row and values of at most 16 MB that SQLite does not take for binary JSON. Refuted beyond that: a result without rows, infinite numbers, non-ASCII blobs (C54_blob says what arrives), blobs that look like binary JSON, longer texts."
  },
  {
   "property": "C55",
   "status": "proved",
   "theorems": [
    "C55_comment_refuted",
    "C55_conversation",
    "C55_foreign_keys_refuted",
    "C55_infinite_refuted",
    "C55_login_refuted",
    "C55_long_row_refuted",
    "C55_names",
    "C55_no_rows_refuted",
    "C55_null_refuted",
    "C55_number_refuted",
    "C55_one_meaning",
    "C55_order_refuted",
    "C55_pipelined_refuted",
    "C55_queries",
    "C55_reply",
    "C55_schema_refuted",
    "C55_swallowed_refuted",
    "C55_together",
    "C55_variable_refuted"
   ],
   "note": "For queries of up to a megabyte and rows below 16 MB. Refuted beyond that: queries that are not waited for, catalogue queries the port does not know, asking for one variable, statements that mention information_schema in a literal, logging in, results without rows, NULL, packet numbers other than 0, longer rows."
  },
  {
   "property": "C56",
   "status": "proved",
   "theorems": [
    "C56_column",
    "C56_csv",
    "C56_list",
    "C56_list_cells_refuted",
    "C56_long_row_refuted",
    "C56_name_feed_refuted",
    "C56_null_refuted",
    "C56_options_refuted",
    "C56_quote",
    "C56_quote_type_refuted",
    "C56_return_refuted",
    "C56_tabs",
    "C56_tabs_cells_refuted"
   ],
   "note": "Tabs and list style for cells without the separator or a line feed; column style for names without a line feed. Refuted beyond that, and refuted: that NULL differs from empty text, that quote style keeps types, that the separator option has an effect."
  },
  {
   "property": "C57",
   "status": "proved",
   "theorems": [
    "C57_after_drop",
    "C57_all",
    "C57_bad_message_refuted",
    "C57_before_gone",
    "C57_connected",
    "C57_delivery",
    "C57_dropped_refuted",
    "C57_login",
    "C57_prompt",
    "C57_sending",
    "C57_sent",
    "C57_stranger_refuted"
   ],
   "note": "The network is assumed to deliver a prefix of the bytes it took. Refuted: that messages sent before a node drops its connection still leave it, and that bytes from a stranger or a peer cannot end the process."
  },
  {
   "property": "C58",
   "status": "proved",
   "theorems": [
    "C58_answers",
    "C58_cleaned",
    "C58_close_agreed",
    "C58_close_refuted",
    "C58_closed",
    "C58_host",
    "C58_kept",
    "C58_not_early",
    "C58_not_shared",
    "C58_once",
    "C58_one_place",
    "C58_reading",
    "C58_reused",
    "C58_slash_refuted",
    "C58_tested",
    "C58_watched"
   ],
   "note": "The other nodes are assumed to answer each command with one legal message. Refuted: that connections to an address with a slash are reused, and that a connection the other node is about to close is not kept (Connection: Close)."
  },
  {
   "property": "C59",
   "status": "proved",
   "theorems": [
    "C59_after_answer",
    "C59_answer",
    "C59_anywhere_refuted",
    "C59_behind_refuted",
    "C59_clear",
    "C59_connect",
    "C59_host",
    "C59_no_reason_refuted",
    "C59_order",
    "C59_progress",
    "C59_refused_refuted",
    "C59_spin_refuted",
    "C59_split_refuted"
   ],
   "note": "TLS is a party that takes bytes and gives bytes; what it does with them, and the handshake, are outside. Refuted: a proxy's refusal is not told from the server's answer; 200 with an empty reason gives up the connection and reports success for a request never sent; 200 is looked for in the whole line; an answer cut before its last line feed spoils the handshake; bytes behind the answer are dropped; the poll spins while the answer is awaited."
  },
  {
   "property": "C60",
   "status": "proved",
   "theorems": [
    "C60_command_refuted",
    "C60_complete",
    "C60_direct",
    "C60_direct_refuted",
    "C60_forged_refuted",
    "C60_marked",
    "C60_marked_part",
    "C60_names",
    "C60_names_progress",
    "C60_names_stay",
    "C60_nul_refuted",
    "C60_overwritten_refuted",
    "C60_record",
    "C60_redacted",
    "C60_refused",
    "C60_scope",
    "C60_sent"
   ],
   "note": "The message itself is not redacted, only parameters are. Refuted: lines sent directly to the syslog socket read beyond the buffer when the client's request identifier is long; a parameter called message replaces the message in Fluentd; a NUL cuts the line; values are not escaped; a parameter called Command suppresses the command."
  },
  {
   "property": "C61",
   "status": "proved",
   "theorems": [
    "C61_any",
    "C61_ascii",
    "C61_lower_refuted",
    "C61_malformed_refuted",
    "C61_marks",
    "C61_missed_refuted",
    "C61_nul_refuted",
    "C61_once",
    "C61_same",
    "C61_sql",
    "C61_text",
    "C61_together"
   ],
   "note": "Proved for all characters but fourteen the table misses, which is refuted with them. Refuted: the header's promise of lower case and ASCII only; small d with caron, capital D with stroke, G and H; malformed bytes are dropped in some places and kept in others; a NUL ends the text."
  },
  {
   "property": "C62",
   "status": "proved",
   "theorems": [
    "C62_backup",
    "C62_backup_refuted",
    "C62_control_waits_refuted",
    "C62_count_refuted",
    "C62_detach_twice_refuted",
    "C62_detached_term_refuted",
    "C62_early_refuted",
    "C62_finished",
    "C62_let_go",
    "C62_other_refuted",
    "C62_stops"
   ],
   "note": "Stopping is proved for servers nobody detaches and signals that come after the main thread has entered its loop, as the existence of a way to the end from every reachable state; that the threads take it is fairness and not modelled. Refuted: SIGTERM before the main thread's loop, SIGTERM while detached, other signals, Detach while an Attach is being carried out or after -bootstrap, Attach during a backup, ordinary commands on the control port of a detached server, the count of commands."
  },
  {
   "property": "C63",
   "status": "proved",
   "theorems": [
    "C63_column_first_refuted",
    "C63_column_mention_refuted",
    "C63_column_untyped_refuted",
    "C63_comment_refuted",
    "C63_first_words_refuted",
    "C63_index_case_refuted",
    "C63_index_lines_refuted",
    "C63_literal_refuted",
    "C63_spelling_refuted"
   ],
   "note": "For definitions that begin with CREATE TABLE in capitals and names that are not quoted; what SQLite keeps in sqlite_master is trusted. Refuted: white space in literals and between words, comments, IF NOT EXISTS and small letters, case in the literals of indexes, indexes broken into lines, names in another spelling, and columns that come first, are mentioned elsewhere or have no type."
  },
  {
   "property": "C64",
   "status": "proved",
   "theorems": [
    "C64_first",
    "C64_once_more",
    "C64_one",
    "C64_race_refuted",
    "C64_ready",
    "C64_twice_refuted"
   ],
   "note": "One life of the sync thread; that the upgrade gets done is the existence of a way from every reachable state. Refuted: a command whose two reads of the state straddle the node becoming the leader writes before the upgrade, and an upgrade that ends on another thread between the sync thread's two reads is run a second time."
  },
  {
   "property": "C65",
   "status": "proved",
   "theorems": [
    "C65_before_1900_refuted",
    "C65_calendar_refuted",
    "C65_days",
    "C65_due",
    "C65_epoch",
    "C65_first_of_month",
    "C65_milliseconds",
    "C65_month_00_refuted",
    "C65_no_month_refuted",
    "C65_seconds",
    "C65_unreadable_refuted",
    "C65_valid",
    "C65_year_10000_refuted",
    "C65_zone_refuted"
   ],
   "note": "The C library's gmtime_r, strftime, strptime and mktime are written out for the formats used; gmtime_r is the calendar counted day by day from 1970. Refuted: the order beyond the year 9999, reading in another time zone, an unreadable timestamp is read as a number, SFirstOfMonth before 1900 and without a month, dates that no calendar has are valid."
  },
  {
   "property": "C66",
   "status": "proved",
   "theorems": [
    "C66_alive",
    "C66_behind_refuted",
    "C66_found",
    "C66_half_refuted",
    "C66_majority",
    "C66_side_by_side_refuted",
    "C66_sound",
    "C66_stops",
    "C66_sync_peer",
    "C66_torn_refuted"
   ],
   "note": "C66_sound and C66_found are for runs in which the count and the hash of a LOGIN are read without a commit in between and no journal row has been removed; both conditions are needed (C66_torn_refuted, C66_behind_refuted). C66_found is for histories among whose hashed texts there is no collision of the hash. Refuted as well: over half is needed to stop, diverged nodes never live side by side."
  },
  {
   "property": "C67",
   "status": "proved",
   "theorems": [
    "C67_base32",
    "C67_base32_bytes",
    "C67_base32_only",
    "C67_cut_off",
    "C67_distinct",
    "C67_hmac",
    "C67_long_key_refuted",
    "C67_not_digits_refuted",
    "C67_nul_refuted",
    "C67_outside_table_refuted",
    "C67_pieces",
    "C67_round_trip",
    "C67_round_trip_any",
    "C67_size",
    "C67_vector_refuted"
   ],
   "note": "AES on a block and SHA are parameters (AES: decryption undoes encryption on blocks); the chaining of mbedtls is modelled from its documentation. Refuted: texts with NUL bytes, vectors that are too short when encrypting, HMAC keys of more than 64 bytes, characters outside the table of base 32, groups that are not digits."
  },
  {
   "property": "C68",
   "status": "proved",
   "theorems": [
    "C68_backup",
    "C68_backup_only",
    "C68_clean",
    "C68_command_line",
    "C68_copied",
    "C68_copy_any",
    "C68_default",
    "C68_disk_full_refuted",
    "C68_load",
    "C68_load_error_refuted",
    "C68_negative_refuted",
    "C68_no_path_refuted",
    "C68_old_wal_refuted",
    "C68_onto_itself_refuted",
    "C68_pairs",
    "C68_plugin_name",
    "C68_plugins",
    "C68_read_error_refuted",
    "C68_save_any",
    "C68_saved",
    "C68_shadowed_refuted",
    "C68_wal2_refuted"
   ],
   "note": "stdio is a buffer that goes to a disk with limited room; links between paths are not modelled. Refuted: values that start with a dash, read errors and full disks that count as success, -wal2 and -pagemap missing in backups, an old -wal beside a new copy, a database in the directory of the backups (it is emptied), libraries without a path, libraries named like built-in plugins."
  },
  {
   "property": "C69",
   "status": "proved",
   "theorems": [
    "C69_bracket_refuted",
    "C69_cut_off_refuted",
    "C69_edits",
    "C69_encrypted",
    "C69_html",
    "C69_lines_refuted",
    "C69_query_log_refuted",
    "C69_spelling_refuted",
    "C69_token",
    "C69_unchanged"
   ],
   "note": "The patterns are transcribed by hand; limits of the library of patterns are not modelled. Refuted: chats cut off before their closing quote, chats over several lines, edits with a bracket in them, other spellings, and the file of queries, where nothing is hidden."
  },
  {
   "property": "C70",
   "status": "proved",
   "theorems": [
    "C70_absent",
    "C70_absent_refuted",
    "C70_after_last",
    "C70_bad_url_refuted",
    "C70_before_after",
    "C70_beginning_refuted",
    "C70_between",
    "C70_blanks_refuted",
    "C70_characters",
    "C70_empty_form_refuted",
    "C70_endless_refuted",
    "C70_groups",
    "C70_groups_refuted",
    "C70_host",
    "C70_host_only",
    "C70_integers",
    "C70_last_of_refuted",
    "C70_match_all",
    "C70_modifier",
    "C70_modifier_refuted",
    "C70_modifier_safe",
    "C70_peers",
    "C70_plain_refuted",
    "C70_port_refuted",
    "C70_post",
    "C70_query_refuted",
    "C70_replace",
    "C70_replace_nothing",
    "C70_replace_refuted",
    "C70_same_host_refuted",
    "C70_send",
    "C70_send_other",
    "C70_trim",
    "C70_uri",
    "C70_uri_only",
    "C70_user_refuted",
    "C70_version_6_refuted"
   ],
   "note": "Hosts: names without a colon and ports up to 65535. Forms: values that are empty or do not begin with a blank, without NUL and the separator of cookies. Peers: different names. The library of patterns is a parameter of the search for all matches. Refuted: 15 cases, among them ports that are no numbers, URLs that end the process, http without a port, empty forms, endless searches and peers on the same host."
  },
  {
   "property": "C71",
   "status": "proved",
   "theorems": [
    "C71_adds_up",
    "C71_attempts_refuted",
    "C71_commands",
    "C71_escalation",
    "C71_no_wrap",
    "C71_other",
    "C71_own",
    "C71_own_journal_refuted",
    "C71_random",
    "C71_random_reaches",
    "C71_tables",
    "C71_tables_left_out",
    "C71_timer",
    "C71_timer_lines",
    "C71_times",
    "C71_two_hops_refuted",
    "C71_unsaid_refuted",
    "C71_upstream",
    "C71_upstream_names",
    "C71_z_refuted",
    "C71_zero_refuted"
   ],
   "note": "The parts of a command do not overlap, and the clock stays below two to the 64th. Only with at most one attempt to escalate is what is not accounted for just that: an earlier attempt is counted as not accounted for. Handing a reply on twice loses the first node's times. Tables whose names begin with journal are left out. The letter z never comes up in a random text."
  },
  {
   "property": "C72",
   "status": "proved",
   "theorems": [
    "C72_blacklist",
    "C72_clear",
    "C72_comes_back_refuted",
    "C72_connect",
    "C72_from_the_beginning_refuted",
    "C72_job",
    "C72_jobs",
    "C72_more_words_refuted",
    "C72_not_handed_out",
    "C72_only_those",
    "C72_private",
    "C72_put_back"
   ],
   "note": "False parts refuted: a method line with more than the command name hands a job out but does not put it back; a job that is put back is due at its creation time, so a daily job is run again for all days since; patterns that were cleared come back with a node that was not reached."
  },
  {
   "property": "C73",
   "status": "proved",
   "theorems": [
    "C73_bool",
    "C73_by_id",
    "C73_cache",
    "C73_cancel_refuted",
    "C73_create",
    "C73_date",
    "C73_get",
    "C73_int64",
    "C73_nameless_refuted",
    "C73_negative_refuted",
    "C73_no_such_day_refuted",
    "C73_priority_text_refuted",
    "C73_read_int64",
    "C73_read_uint64",
    "C73_size",
    "C73_test",
    "C73_update",
    "C73_wraps_refuted"
   ],
   "note": "The parts that are false are refuted: days that do not exist are dates, a priority that is not a number is priority 0, CreateJobs takes jobs without a name, numbers below -2^31 wrap, negative numbers become large unsigned ones, CancelJob with anything behind its name does nothing and answers 200."
  },
  {
   "property": "C74",
   "status": "proved",
   "theorems": [
    "C74_any",
    "C74_caret",
    "C74_column_refuted",
    "C74_cut_refuted",
    "C74_empty_value_refuted",
    "C74_escaped_quote_refuted",
    "C74_first_statement",
    "C74_later_statement_refuted",
    "C74_options",
    "C74_request",
    "C74_suppress_refuted",
    "C74_tabs_refuted",
    "C74_unfinished",
    "C74_unknown",
    "C74_words"
   ],
   "note": "The parts that are false are refuted: a backslash between quotes does not escape, an empty value disappears, -tabs and -ascii are ignored, SuppressResult does not suppress .schema, the caret is misplaced for a later statement and behind characters of several bytes, and the piece can end within a character. What SQLite does with a statement is a parameter."
  },
  {
   "property": "C75",
   "status": "proved",
   "theorems": [
    "C75_among",
    "C75_blank_key_refuted",
    "C75_journal_refuted",
    "C75_lock",
    "C75_nothing",
    "C75_off",
    "C75_page",
    "C75_row",
    "C75_same",
    "C75_unknown_refuted"
   ],
   "note": "The parts that are false are refuted: keys with blanks are cut, tables of the application whose name begins with journal never lead to a lock, and a message without a table is itself taken for the name. The limits of the library for regular expressions are not modelled. The locks themselves are C21."
  },
  {
   "property": "C76",
   "status": "proved",
   "theorems": [
    "C76_copy_refuted",
    "C76_equality_refuted",
    "C76_made_refuted",
    "C76_nul_refuted",
    "C76_statements_refuted"
   ],
   "note": "The parts that are false are refuted: a result that was made as a copy looks for names in the original, the rows of all statements of a query get the names of the last, rows made without a result have no names, texts are cut at NUL, and equality by text is not transitive. How floating point numbers are compared and shown is left open (parameters)."
  },
  {
   "property": "C77",
   "status": "proved",
   "theorems": [
    "C77_last_page_refuted",
    "C77_map_failed_refuted",
    "C77_no_threads_refuted",
    "C77_pages",
    "C77_released_refuted"
   ],
   "note": "The parts that are false are refuted: the last page is never loaded, the file is neither unmapped nor closed when all goes well, a failed mapping is unmapped, and with no known number of processors there is a division by zero. Numbers are unbounded in the model."
  },
  {
   "property": "C78",
   "status": "proved",
   "theorems": [
    "C78_again",
    "C78_foreign_refuted",
    "C78_found",
    "C78_gap_refuted",
    "C78_negative_refuted",
    "C78_starts",
    "C78_view",
    "C78_wrong_table"
   ],
   "note": "The parts that are false are refuted: journals behind a missing one are not looked for, a table of the application with the next name is taken for a journal, and with less than -1 journals a new database cannot be opened. That each statement of SQLite happens completely or not at all is assumed; numbers are unbounded. Commits by several threads are C16."
  },
  {
   "property": "C79",
   "status": "proved",
   "theorems": [
    "C79_any_request_id",
    "C79_chosen_refuted",
    "C79_follower",
    "C79_id",
    "C79_leader_version",
    "C79_own_plugins",
    "C79_plugin",
    "C79_random_text_refuted",
    "C79_request_id",
    "C79_restart_refuted",
    "C79_same_name_refuted",
    "C79_states",
    "C79_unique"
   ],
   "note": "The parts that are false are refuted: IDs are given again after a start of the process, any client can choose the ID of its command, of two peers with one name the wrong one can be chosen, and SRandom::randStr never gives a z. The random generator is shared by all threads without a lock; a number drawn is taken to be any number."
  },
  {
   "property": "C80",
   "status": "proved",
   "theorems": [
    "C80_alternate",
    "C80_answered",
    "C80_detached_refuted",
    "C80_detaching_refuted",
    "C80_free",
    "C80_kept",
    "C80_still",
    "C80_told"
   ],
   "note": "The parts that are false are refuted: without a database BlockWrites is never answered and nor is any such command after it, and if the node is detached at the wrong moment a null pointer is followed. C80_answered says that an answer can be reached, not that the scheduler gets there: that readers can starve the thread that wants the write lock, and that other threads wait for the commit lock while writes are blocked, is not modelled."
  },
  {
   "property": "C81",
   "status": "proved",
   "theorems": [
    "C81_hash",
    "C81_limits",
    "C81_limits_refuted",
    "C81_no_number_refuted",
    "C81_only",
    "C81_page_locks",
    "C81_priority",
    "C81_priority_any",
    "C81_priority_refuted",
    "C81_retries",
    "C81_retries_refuted",
    "C81_sockets",
    "C81_sockets_refuted",
    "C81_told_back",
    "C81_tracing"
   ],
   "note": "The numbers that do not fit are refuted: the retries and the priority are cut to 32 bits (and the answer then names a priority that the node does not have), the milliseconds wrap, -1 socket threads are no limit, and SetConflictParams without a number sets 0. One command runs at a time here: in the code each setting is an atomic variable."
  },
  {
   "property": "C82",
   "status": "proved",
   "theorems": [
    "C82_follower",
    "C82_follower_always",
    "C82_follower_refuted",
    "C82_handling",
    "C82_handling_always",
    "C82_line_refuted",
    "C82_never_missed",
    "C82_reason",
    "C82_status",
    "C82_status_refuted"
   ],
   "note": "The parts that are false are refuted: the state is read again for its name, so an answer can be HTTP/1.1 200 SEARCHING, or say that a node does not follow and that its state is FOLLOWING, and Status can say isLeader true with the state STANDINGDOWN. Of Status the other fields are not modelled."
  },
  {
   "property": "C83",
   "status": "proved",
   "theorems": [
    "C83_format",
    "C83_short_refuted",
    "C83_waits"
   ],
   "note": "Refuted: of a file shorter than its header the format is read from memory that was not initialized. What SQLite does with the name of the file, which becomes a URI for an HC-tree database, is not modelled."
  },
  {
   "property": "C84",
   "status": "proved",
   "theorems": [
    "C84_adopted",
    "C84_colon_refuted",
    "C84_name_taken_refuted",
    "C84_order",
    "C84_override",
    "C84_runs",
    "C84_same",
    "C84_silent_refuted"
   ],
   "note": "Refuted: a plugin that gives no version, as all built-in ones, leaves no trace in the version; a version with a colon in it can be mistaken for two; of two plugins with one name only one runs, but both versions are told. The names of plugins are taken not to begin with a space and not to be empty."
  },
  {
   "property": "C85",
   "status": "proved",
   "theorems": [
    "C85_busy_refuted",
    "C85_commit_inside_refuted",
    "C85_once",
    "C85_refused",
    "C85_rollback_inside_refuted",
    "C85_succeeds",
    "C85_whole"
   ],
   "note": "Refuted: if the database is busy in the middle of a write of several statements the first ones are made twice; a query with statements about transactions in it can be made in part, with either answer. SQLite is modelled as snapshots with conflicts on pages that are written; conflicts on pages that are only read, and a ROLLBACK that fails, are not modelled."
  },
  {
   "property": "C86",
   "status": "proved",
   "theorems": [
    "C86_clear",
    "C86_flushed",
    "C86_late_refuted",
    "C86_left_behind_refuted",
    "C86_moved",
    "C86_one_place"
   ],
   "note": "Refuted: a command that is put into the queue while the others are answered or after they were moved stays in it. That a command taken from the queue while it is blocked is marked as answered with 503 is C03 and left out here."
  }
 ]
}