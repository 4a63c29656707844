{
 "claims": [
  {
   "property": "C01",
   "status": "proved",
   "theorems": [
    "C01_no_test_handed_out_twice",
    "C01_no_duplicate_in_a_response",
    "C01_positions_disjoint",
    "C01_run_no_test_twice",
    "C01_run_no_duplicate_in_an_answer",
    "C01_one_answer_per_request"
   ],
   "note": "JobQueueProps: all interleavings of the atomic accesses of one queue; RunProps: over all histories of the whole queue."
  },
  {
   "property": "C02",
   "status": "proved",
   "theorems": [
    "C02_responses_are_a_prefix",
    "C02_every_test_exactly_once_in_order",
    "C02_claim_order_lists_every_answer",
    "C02_claim_order_only_grows",
    "C02_never_out_of_bounds",
    "C02_run_sent_is_claimed",
    "C02_run_every_test_exactly_once",
    "C02_accepted_manifest_is_handed_out"
   ],
   "note": "A request whose last answer was computed but not yet sent counts as pending (pending_tests)."
  },
  {
   "property": "C03",
   "status": "proved",
   "theorems": [
    "C03_files_are_not_split",
    "C03_short_only_at_the_end",
    "C03_no_more_files_than_needed"
   ],
   "note": ""
  },
  {
   "property": "C04",
   "status": "proved",
   "theorems": [
    "C04_more_work_means_tests",
    "C04_end_of_work_is_truthful",
    "C04_last_test_announces_end",
    "C04_after_the_end_nothing",
    "C04_polling_terminates",
    "C04_requests_are_wait_free"
   ],
   "note": ""
  },
  {
   "property": "C05",
   "status": "proved",
   "theorems": [
    "C05_partition_is_what_was_handed_out",
    "C05_partition_has_all_answers",
    "C05_partition_has_only_claims",
    "C05_run_retry_manifest_has_all",
    "C05_run_retry_manifest_has_only_own"
   ],
   "note": ""
  },
  {
   "property": "C06",
   "status": "proved",
   "theorems": [
    "C06_persisted_partition_equals_live",
    "C06_run_persisted_partition"
   ],
   "note": ""
  },
  {
   "property": "C07",
   "status": "proved",
   "theorems": [
    "C07_one_runner_of_the_pool",
    "C07_one_generator",
    "C07_generator_is_first",
    "C07_unknown_run_gets_a_generator",
    "C07_never_unknown"
   ],
   "note": ""
  },
  {
   "property": "C08",
   "status": "proved",
   "theorems": [
    "C08_finished_is_final",
    "C08_cancelled_is_final",
    "C08_no_tests_afterwards"
   ],
   "note": ""
  },
  {
   "property": "C09",
   "status": "partial",
   "theorems": [
    "C09_count_in_general",
    "C09_count_is_exact_partial",
    "C09_drained_iff_none_active_partial",
    "C09_drained_refuted"
   ],
   "note": "False of the code: a second cancellation of a cancelled run decrements the counter again (C09_drained_refuted). C09_count_in_general gives the exact value for every history; the _partial theorems hold when no cancelled run is cancelled again."
  },
  {
   "property": "C10",
   "status": "proved",
   "theorems": [
    "C10_plan_keeps",
    "C10_at_most_one_plan",
    "C10_exactly_one_plan",
    "C10_plan_describes_the_run"
   ],
   "note": ""
  },
  {
   "property": "C11",
   "status": "proved",
   "theorems": [
    "C11_answers",
    "C11_answered_once",
    "C11_other_command_is_flagged",
    "C11_reloaded_run_answers_alike"
   ],
   "note": ""
  },
  {
   "property": "C12",
   "status": "proved",
   "theorems": [
    "C12_worker_that_left_does_not_hold_up",
    "C12_worker_at_work_is_waited_for",
    "C12_stream_only_when_nobody_is_at_work",
    "C12_results_once_everyone_left",
    "C12_stream_is_gated",
    "C12_stream_has_every_acknowledged_batch",
    "C12_ready_results_are_served",
    "C12_otherwise_refused",
    "C12_batch_taken_iff_run_has_manifest"
   ],
   "note": "The stores are abstract (a dump appends a line or fails). Batches sent before the manifest are acknowledged and dropped: C12_batch_taken_iff_run_has_manifest."
  },
  {
   "property": "C13",
   "status": "proved",
   "theorems": [
    "C13_timeout_iff_fresh",
    "C13_check_outcome",
    "C13_checks_are_chained",
    "C13_only_stalled_runs_are_cancelled",
    "C13_stalled_runs_are_cancelled",
    "C13_active_runs_are_watched",
    "C13_claims_only_grow"
   ],
   "note": "The converse (stalled runs are cancelled) is for runs whose manifest is not yet fully claimed: with all tests claimed the shared index may overshoot the manifest length for a moment."
  },
  {
   "property": "C14",
   "status": "proved",
   "theorems": [
    "C14_accepted_iff_waiting",
    "C14_at_most_one_accepted",
    "C14_refused_changes_nothing",
    "C14_late_failure_changes_nothing"
   ],
   "note": ""
  },
  {
   "property": "C15",
   "status": "proved",
   "theorems": [
    "C15_by_test_batch_bound",
    "C15_batch_size",
    "C15_answers_within_batch"
   ],
   "note": ""
  },
  {
   "property": "C16",
   "status": "proved",
   "theorems": [
    "C16_one_entry_per_tag",
    "C16_latest_insertion_wins",
    "C16_contains_iff_entry",
    "C16_insert_returns_previous",
    "C16_others_untouched",
    "C16_order_is_first_seen",
    "C16_collect_is_insertion",
    "C16_worker_count_is_distinct_workers"
   ],
   "note": ""
  },
  {
   "property": "C17",
   "status": "partial",
   "theorems": [
    "C17_remote_is_complete_partial",
    "C17_taken_at_end_iff_over",
    "C17_remote_is_complete_refuted"
   ],
   "note": "False of the code: if a write taken before the end of the tests finishes last, nothing is stored in the remote (C17_remote_is_complete_refuted). Proved when the last write to finish was taken after the end of the tests and its store succeeded."
  },
  {
   "property": "C18",
   "status": "proved",
   "theorems": [
    "C18_counter_is_exact",
    "C18_no_underflow",
    "C18_pending_iff_writes_pending"
   ],
   "note": "For fewer than 2^64 writes."
  },
  {
   "property": "C19",
   "status": "partial",
   "theorems": [
    "C19_reads_return_every_dump_partial",
    "C19_first_access",
    "C19_failed_load",
    "C19_stored_iff",
    "C19_transient_load_failure_refuted",
    "C19_restart_refuted",
    "C19_partial_write_refuted"
   ],
   "note": "Holds for histories without a restart, a partial write or a failed sync after truncation (C19_reads_return_every_dump_partial). In general false of the code: a failed load on first access hides, and the next store destroys, the results in the remote; after a restart the remote's older copy replaces newer lines; a write that breaks off corrupts the next line (_refuted theorems)."
  },
  {
   "property": "C20",
   "status": "proved",
   "theorems": [
    "C20_one_line_per_batch",
    "C20_round_trip",
    "C20_buffer_round_trip",
    "C20_line_ends",
    "C20_missing_last_break",
    "C20_cut_file",
    "C20_stored_results_decode",
    "C20_queue_lines_are_storable",
    "C20_deeper_lines_are_not_read"
   ],
   "note": "serde_json is modelled (JsonModel): the texts it writes and reads, with its recursion limit. The derived field mapping of ResultsLine is a parameter. A file cut off anywhere is read only as a prefix of whole batches (C20_cut_file)."
  },
  {
   "property": "C21",
   "status": "partial",
   "theorems": [
    "C21_manifest_round_trip_partial",
    "C21_local_manifest_is_read",
    "C21_json_is_such_a_codec",
    "C21_json_round_trip_partial",
    "C21_longer_file_refuted",
    "C21_partial_load_refuted"
   ],
   "note": "Proved for a dump onto a file that is not longer than the manifest, with a remote or without offloading. In general false of the code: the dump does not truncate a longer file, and after a load that broke off the second parse starts at the wrong offset (_refuted theorems). The manifest codec is a parameter (codec_ok), which JSON texts of objects are shown to meet (C21_json_is_such_a_codec)."
  },
  {
   "property": "C22",
   "status": "partial",
   "theorems": [
    "C22_results_offload_partial",
    "C22_results_truncated_after_store",
    "C22_results_sync_failure_refuted",
    "C22_results_no_remote_refuted",
    "C22_manifest_offload_partial",
    "C22_manifest_offload_refuted"
   ],
   "note": "Proved for results offload with a remote and every failure but that of the sync after truncation. False of the code in the other cases, without a remote, and for manifests whose store failed (_refuted theorems)."
  },
  {
   "property": "C23",
   "status": "proved",
   "theorems": [
    "C23_eligible_iff",
    "C23_offloads_only_eligible_results",
    "C23_offloads_only_eligible_manifests",
    "C23_never_and_skew",
    "C23_fails_iff"
   ],
   "note": ""
  },
  {
   "property": "C24",
   "status": "proved",
   "theorems": [
    "C24_keys_differ",
    "C24_keys_differ_across_prefixes",
    "C24_slash_keys_across_prefixes_collide",
    "C24_local_paths",
    "C24_slash_paths_go_astray"
   ],
   "note": "For all run ids under one prefix; across prefixes and for local files, for run ids without a slash (with a slash: C24_slash_ theorems)."
  },
  {
   "property": "C25",
   "status": "proved",
   "theorems": [
    "C25_round_trip",
    "C25_only_the_current_shape_is_interpreted",
    "C25_other_versions_are_reported",
    "C25_loading_tells_what_happened"
   ],
   "note": "The version number alone does not reject a state of compatible shape, as the code's own tests intend."
  },
  {
   "property": "C26",
   "status": "proved",
   "theorems": [
    "C26_blocking_read",
    "C26_messages_in_order",
    "C26_all_messages"
   ],
   "note": "The gzip codec is a parameter assumed to invert (gz_ok); serde_json is JsonModel."
  },
  {
   "property": "C27",
   "status": "partial",
   "theorems": [
    "C27_cancelled_reads_resume_partial",
    "C27_cancel_after_header_refuted",
    "C27_answers_need_calls"
   ],
   "note": "False of the code: a call cancelled after the header and before any body byte makes the next call extend the buffer a second time, so it waits for too many bytes (C27_cancel_after_header_refuted). Proved when no call is cancelled at that point."
  },
  {
   "property": "C28",
   "status": "proved",
   "theorems": [
    "C28_no_message_from_a_part",
    "C28_blocking_read",
    "C28_closed_in_header",
    "C28_deadline",
    "C28_timeout_is_of_this_message",
    "C28_stalled_message_is_given_up",
    "C28_clock_adds_nothing"
   ],
   "note": "The gzip codec is a parameter assumed to invert (gz_ok). The reader with its clock (WireTimeModel) refines the one without, which may expire at any moment."
  },
  {
   "property": "C29",
   "status": "partial",
   "theorems": [
    "C29_header",
    "C29_oversize_refuted",
    "C29_stream_round_trip"
   ],
   "note": "False of the code for messages of 2^31 bytes or more: the length is written as i32 (C29_oversize_refuted). Proved for all smaller ones."
  },
  {
   "property": "C30",
   "status": "proved",
   "theorems": [
    "C30_flatten",
    "C30_groups",
    "C30_manifest_arrival"
   ],
   "note": ""
  },
  {
   "property": "C31",
   "status": "proved",
   "theorems": [
    "C31_retry",
    "C31_end",
    "C31_outcome"
   ],
   "note": "For runners that report each test they were given once, in order (in_order), and sources with distinct tests (proper)."
  },
  {
   "property": "C32",
   "status": "proved",
   "theorems": [
    "C32_attempts",
    "C32_bound"
   ],
   "note": ""
  },
  {
   "property": "C33",
   "status": "partial",
   "theorems": [
    "C33_first_failing_case_partial",
    "C33_one_case_partial",
    "C33_all_failing_cases_refuted"
   ],
   "note": "False of the code: of several failing cases in one report only the first is added to the focus of the retry (C33_all_failing_cases_refuted)."
  },
  {
   "property": "C34",
   "status": "proved",
   "theorems": [
    "C34_order",
    "C34_retry_manifest_first",
    "C34_new_worker",
    "C34_nothing_lost",
    "C34_answers",
    "C34_no_panic",
    "C34_answered",
    "C34_answered_last"
   ],
   "note": ""
  },
  {
   "property": "C35",
   "status": "partial",
   "theorems": [
    "C35_no_response_lost_partial",
    "C35_accounting",
    "C35_lost_tests_refuted",
    "C35_call"
   ],
   "note": "False of the code (acknowledged in a TODO): the tests of a response lost after the queue pulled them are handed to nobody (C35_lost_tests_refuted). Proved when attempts fail only before the queue reads the request; C35_accounting gives exactly what is missing."
  },
  {
   "property": "C36",
   "status": "proved",
   "theorems": [
    "C36_delivered_once_in_order",
    "C36_no_panic",
    "C36_refill_never_blocks",
    "C36_prefetch"
   ],
   "note": "On the composite model of the runner's three tasks with the fetcher."
  },
  {
   "property": "C37",
   "status": "partial",
   "theorems": [
    "C37_bounded",
    "C37_progress_partial",
    "C37_no_crash_partial",
    "C37_no_retries_partial",
    "C37_all_reported",
    "C37_all_run",
    "C37_crash_reports",
    "C37_crash_with_retries_hangs_refuted"
   ],
   "note": "False of the code: with retries, a native runner that crashes after the next batch was asked for makes flush wait for the producer while the fetcher waits for the unreported result, for ever (C37_crash_with_retries_hangs_refuted). Proved: progress in every other case, termination within an explicit bound, and that all fetched tests are reported at the end."
  },
  {
   "property": "C38",
   "status": "proved",
   "theorems": [
    "C38_in_order",
    "C38_batches_full",
    "C38_nothing_held_back"
   ],
   "note": "A batch is smaller than the batch size only at a flush or at the end. Sending is taken to succeed (the code panics otherwise)."
  },
  {
   "property": "C39",
   "status": "partial",
   "theorems": [
    "C39_errors",
    "C39_worker_exit",
    "C39_outputs",
    "C39_info",
    "C39_exit_code_refuted",
    "C39_exit_code_partial",
    "C39_manifest_output_refuted",
    "C39_manifest_output_partial"
   ],
   "note": "False of the code: the maximum is taken of a runner's exit code with itself, so the last runner's code wins (C39_exit_code_refuted), and the manifest generation output is overwritten by each later runner (C39_manifest_output_refuted). The _partial theorems say what is reported."
  },
  {
   "property": "C40",
   "status": "proved",
   "theorems": [
    "C40_wait_sound",
    "C40_wait_returns",
    "C40_counter",
    "C40_signal_never_blocks",
    "C40_lost_runner",
    "C40_wait_returns_again",
    "C40_wait_panics",
    "C40_wait_waits"
   ],
   "note": "For pools of fewer than 2^64 runners; a runner dropped without signalling makes wait never return (C40_lost_runner), and panic once all others are gone too (C40_wait_panics)."
  },
  {
   "property": "C41",
   "status": "proved",
   "theorems": [
    "C41_total_order",
    "C41_canonical",
    "C41_chronological",
    "C41_report_independent"
   ],
   "note": "BinaryHeap::into_sorted_vec is any function with its documented contract (sorter); C41_canonical shows the keys' order does not depend on it."
  },
  {
   "property": "C42",
   "status": "partial",
   "theorems": [
    "C42_exit_code",
    "C42_made_up_results",
    "C42_counts",
    "C42_fails_iff_always_failed_partial",
    "C42_always_failed_refuted",
    "C42_passed_once_refuted"
   ],
   "note": "C42_exit_code and C42_counts say exactly what is counted. That the suite fails iff a test failed in all attempts holds for orderly histories, and is false otherwise: attempts out of order make a test that always failed count as a success (C42_always_failed_refuted), and a test that passed once counts as failed after a failing re-run (C42_passed_once_refuted)."
  },
  {
   "property": "C43",
   "status": "proved",
   "theorems": [
    "C43_complete",
    "C43_incomplete_fails",
    "C43_failing_reporter",
    "C43_fetch"
   ],
   "note": "Given that the queue's summary has the manifest's size and results are of its tests."
  },
  {
   "property": "C44",
   "status": "proved",
   "theorems": [
    "C44_per_runner",
    "C44_one_each",
    "C44_grouping"
   ],
   "note": "For all runners and files; a test counts for the runner of its first result."
  },
  {
   "property": "C45",
   "status": "partial",
   "theorems": [
    "C45_blank_path",
    "C45_words",
    "C45_round_trip_refuted",
    "C45_round_trip_partial",
    "C45_accepted"
   ],
   "note": "False of the code for paths with '=' (the rest is dropped) and blank paths (the default is used): C45_round_trip_refuted. Proved for all other options; C45_accepted says which texts parse."
  },
  {
   "property": "C46",
   "status": "partial",
   "theorems": [
    "C46_errors_in_order",
    "C46_counters",
    "C46_failed_iff",
    "C46_attempts_partial",
    "C46_only_tests_that_ran",
    "C46_runner_errors_listed",
    "C46_attempts_refuted",
    "C46_order_refuted"
   ],
   "note": "Counters, overall status, runner errors and the set of tests are proved for every sequence of results. The order and completeness of the attempts need plain results (no nested past attempts) and a test that did not fail without a location first; both exceptions are real and are the two _refuted theorems."
  },
  {
   "property": "C47",
   "status": "partial",
   "theorems": [
    "C47_round_trip",
    "C47_parsed_is_token",
    "C47_user_is_not_admin",
    "C47_other_text_refuted",
    "C47_other_text_partial",
    "C47_forms"
   ],
   "note": "Round trip and separation of user and admin tokens are proved. False of the code: text after a second prefix is ignored (C47_other_text_refuted); C47_other_text_partial says exactly what parses."
  },
  {
   "property": "C48",
   "status": "proved",
   "theorems": [
    "C48_role_needs_token",
    "C48_admin_needs_admin_token",
    "C48_others_rejected",
    "C48_right_token_accepted",
    "C48_same_token_is_client",
    "C48_token_to_open_server"
   ],
   "note": "The bytes sent are any; TLS is not modelled. An admin whose token equals the user token gets the client role; no code outside tests looks at the role."
  },
  {
   "property": "C49",
   "status": "partial",
   "theorems": [
    "C49_command_identity_partial",
    "C49_command_identity_refuted"
   ],
   "note": "False of the code: program and arguments are hashed without separators (C49_command_identity_refuted). Proved: a worker is told its command differs iff the concatenations differ, for a hash without collisions."
  },
  {
   "property": "C50",
   "status": "proved",
   "theorems": [
    "C50_vec_map",
    "C50_collect"
   ],
   "note": "For any key type with decidable equality."
  },
  {
   "property": "C51",
   "status": "proved",
   "theorems": [
    "C51_delays",
    "C51_maximum_reached",
    "C51_constant",
    "C51_start_above_maximum",
    "C51_retry"
   ],
   "note": "For starting delays at most the maximum and maxima whose multiple is representable; C51_start_above_maximum shows the first delay is not bounded otherwise."
  },
  {
   "property": "C52",
   "status": "partial",
   "theorems": [
    "C52_exactly_once_in_order",
    "C52_complete_at_the_end",
    "C52_finish_returns_the_rest",
    "C52_header_only_for_retries",
    "C52_peek_removes_nothing",
    "C52_finish_does_not_panic_partial",
    "C52_finish_after_close_refuted"
   ],
   "note": "Proved for all interleavings of the two copying tasks, drains and closes, with every pattern of short writes. Missing: finish after close can panic (the _refuted theorem), because closing replaces the handles of tasks that still share the channels."
  },
  {
   "property": "C53",
   "status": "partial",
   "theorems": [
    "C53_no_overlap",
    "C53_trigger_starts_partial",
    "C53_skipped_only_while_in_progress_partial",
    "C53_trigger_starts_refuted"
   ],
   "note": "No overlap is proved in full. That a trigger starts the job needs that no earlier call was dropped or panicked: otherwise the active flag stays set for ever (the _refuted theorem)."
  },
  {
   "property": "C54",
   "status": "partial",
   "theorems": [
    "C54_no_signal_no_stop",
    "C54_retired_first",
    "C54_served_until_killed_partial",
    "C54_killed_on_second_refuted",
    "C54_retired_accepts_nothing_new_refuted"
   ],
   "note": "False of the code in both halves: the first signal alone kills the queue (the closed signal channel counts as the second signal) and a retired queue still accepts new runs, since nothing reads the retirement flag. Proved: no signal, no stop; retired before killed; every request is served until the kill."
  },
  {
   "property": "C55",
   "status": "proved",
   "theorems": [
    "C55_bounded_retries",
    "C55_waits"
   ],
   "note": "The server's behaviour is any function of the attempt."
  },
  {
   "property": "C56",
   "status": "proved",
   "theorems": [
    "C56_marks",
    "C56_native_errors",
    "C56_complete_line",
    "C56_summaries_not_shown",
    "C56_native_errors_spelt"
   ],
   "note": "Holds with the native runner's messages between the marks; the summaries the reporter collects are never shown (C56_summaries_not_shown), contrary to its documentation."
  },
  {
   "property": "C57",
   "status": "partial",
   "theorems": [
    "C57_buffer_bounded_partial",
    "C57_closed_after_header_refuted"
   ],
   "note": "False of the code: when the peer closes right after the header, each turn of the loop extends the buffer again until the deadline (C57_closed_after_header_refuted). Proved otherwise."
  },
  {
   "property": "C58",
   "status": "partial",
   "theorems": [
    "C58_at_most_once",
    "C58_persisted_partial",
    "C58_never_persisted_refuted"
   ],
   "note": "False of the code: when writing the response that takes the last tests fails, the plan to persist is dropped (C58_never_persisted_refuted)."
  },
  {
   "property": "C59",
   "status": "proved",
   "theorems": [
    "C59_results_shown",
    "C59_in_its_place"
   ],
   "note": "A test with an empty list of results has no call to attach its outputs to (the protocol forbids it)."
  },
  {
   "property": "C60",
   "status": "proved",
   "theorems": [
    "C60_list_tests",
    "C60_exactly_its_tests"
   ],
   "note": ""
  },
  {
   "property": "C61",
   "status": "proved",
   "theorems": [
    "C61_hosted_config",
    "C61_last_value_counts",
    "C61_unsupported",
    "C61_names"
   ],
   "note": "URL resolution and query decoding are inputs of the model."
  },
  {
   "property": "C62",
   "status": "proved",
   "theorems": [
    "C62_failures_shown",
    "C62_numbers",
    "C62_rate",
    "C62_separated"
   ],
   "note": ""
  },
  {
   "property": "C63",
   "status": "partial",
   "theorems": [
    "C63_output_in_full",
    "C63_heading_starts_line_refuted",
    "C63_heading_starts_line_partial",
    "C63_headings"
   ],
   "note": "False of the code: after a stdout that ends with a line break and blanks the heading of stderr does not start a line (C63_heading_starts_line_refuted)."
  },
  {
   "property": "C64",
   "status": "partial",
   "theorems": [
    "C64_attributed_partial",
    "C64_after_failure_partial",
    "C64_empty_results_refuted",
    "C64_twice_refuted",
    "C64_crash_refuted"
   ],
   "note": "Proved for every history in which the native runner does not answer with an empty list of results; results in one message share their output. After a failure it holds but for what was taken while the failing test ran. The three exceptions are real: _refuted theorems."
  },
  {
   "property": "C65",
   "status": "partial",
   "theorems": [
    "C65_results_as_sent",
    "C65_every_test_reported",
    "C65_every_test_reported_partial",
    "C65_restart_refuted"
   ],
   "note": "Order, ids, attempts and contents are proved for every history. That every received test is reported needs that restarting the native runner for another attempt goes well: otherwise the worker panics (it finishes the old runner's output twice) and the test has no report (the _refuted theorem)."
  },
  {
   "property": "C66",
   "status": "proved",
   "theorems": [
    "C66_at_most_once",
    "C66_prefix_at_end",
    "C66_all_at_end",
    "C66_outcomes"
   ],
   "note": "Requests and responses are not lost and the run is not cancelled in this model (for those see C08, C35)."
  },
  {
   "property": "C67",
   "status": "partial",
   "theorems": [
    "C67_progress_partial",
    "C67_no_crash_progress",
    "C67_bounded",
    "C67_stops_when_done"
   ],
   "note": "Full for runs without failing native runners, and with failing ones for as long as no fetcher waits for the results that decide about a retry; that case hangs (C37_crash_with_retries_hangs_refuted)."
  },
  {
   "property": "C68",
   "status": "proved",
   "theorems": [
    "C68_retry_repeats"
   ],
   "note": "For runners with different tags, of which none is the external client's."
  },
  {
   "property": "C69",
   "status": "partial",
   "theorems": [
    "C69_manifest_output_is_shown",
    "C69_requests",
    "C69_signal_too_late",
    "C69_keeps_asking",
    "C69_exit_code",
    "C69_exit_zero",
    "C69_late_worker",
    "C69_starts",
    "C69_prints",
    "C69_signal_refuted",
    "C69_signal_partial",
    "C69_queue_decides",
    "C69_one_generator",
    "C69_cancelled_says_why"
   ],
   "note": "A signal that comes while the worker is still asking for its assignment has no effect until it is answered (C69_signal_refuted); full once attached."
  },
  {
   "property": "C70",
   "status": "proved",
   "theorems": [
    "C70_worker_zero",
    "C70_all_zero",
    "C70_failure_seen",
    "C70_crash_seen",
    "C70_well_is_zero"
   ],
   "note": "Native runners are assumed to name cases consistently (identified): once in a report, a name for one test only, and no new names in a second attempt. Without it see C42."
  },
  {
   "property": "C71",
   "status": "partial",
   "theorems": [
    "C71_at_most_one_worker",
    "C71_no_test_lost_partial",
    "C71_outcomes_partial",
    "C71_runs_again",
    "C71_no_test_lost_refuted"
   ],
   "note": "The retry manifest is read while a request of a killed process may still be on its way to the queue or in it; the tests claimed by that request afterwards are run by nobody (C71_no_test_lost_refuted). Proved for retries that read it after the queue has answered the requests of their predecessors (orderly)."
  },
  {
   "property": "C72",
   "status": "proved",
   "theorems": [
    "C72_not_before_a_window",
    "C72_within_two_windows"
   ],
   "note": "That a ready timeout is given back soon (the select! loops of timeout.rs and queue.rs) is the premise always_prompt; that none is lost is the contract of FuturesUnordered."
  },
  {
   "property": "C73",
   "status": "partial",
   "theorems": [
    "C73_refused_iff_clash",
    "C73_run_id",
    "C73_named_run_never_private",
    "C73_local_stays_local",
    "C73_certificate_without_key",
    "C73_local_asks_nothing",
    "C73_hosted",
    "C73_no_fallback",
    "C73_keeps_results",
    "C73_given_queue_partial",
    "C73_own_queue_is_reachable",
    "C73_nothing_configured",
    "C73_report_asks_a_queue",
    "C73_report_asks_the_same_queue",
    "C73_attempts_partial",
    "C73_given_queue_refuted",
    "C73_attempts_refuted"
   ],
   "note": "Refuted as stated: a token that `abq login` stored overrides --queue-addr (an organization's token always, a personal one if a run is named), because the exclusion of options does not see it (C73_given_queue_refuted; proved otherwise: C73_given_queue_partial); and --retries 4294967295 wraps to no attempts (C73_attempts_refuted, C73_attempts_partial). The other clauses are proved in full."
  },
  {
   "property": "C74",
   "status": "partial",
   "theorems": [
    "C74_worker_understands",
    "C74_protocol_messages_are_read",
    "C74_order_and_other_members",
    "C74_queue_reads_what_was_sent_partial",
    "C74_results_file",
    "C74_from_runner_to_reader_partial",
    "C74_metadata_keys",
    "C74_queue_reads_what_was_sent_refuted"
   ],
   "note": "Refuted as stated: the JSON reader refuses texts nested 128 deep, and a request to the queue nests up to 7 levels more than the runner's message, so a worker takes results from a message nested 121 deep that the queue cannot read (C74_queue_reads_what_was_sent_refuted; up to 120 it can: C74_queue_reads_what_was_sent_partial, C74_from_runner_to_reader_partial). The worker's reading, the results file and the order of members are proved in full."
  },
  {
   "property": "C75",
   "status": "partial",
   "theorems": [
    "C75_protocol_messages_are_read",
    "C75_order_and_other_members",
    "C75_manifests_are_understood",
    "C75_failures_reach_the_queue",
    "C75_queue_reads_the_manifest_partial",
    "C75_tests_of_a_read_manifest_arrive",
    "C75_runners_get_what_was_described_partial",
    "C75_queue_reads_the_manifest_refuted"
   ],
   "note": "Refuted as stated: the JSON reader refuses texts nested 128 deep, and the request that reports a manifest nests 4 levels more than the runner's message, so a worker takes a manifest from a message nested 124 deep that the queue cannot read (C75_queue_reads_the_manifest_refuted; up to 123 it can: C75_queue_reads_the_manifest_partial, C75_runners_get_what_was_described_partial). Everything after the queue's reading is proved in full, as are the worker's reading, failures and the order of members."
  },
  {
   "property": "C76",
   "status": "partial",
   "theorems": [
    "C76_strategy_names",
    "C76_configured_place",
    "C76_missing_settings_are_named",
    "C76_configured_directories",
    "C76_stored_is_loaded",
    "C76_nothing_is_made_up",
    "C76_run_state_is_found",
    "C76_not_found_means_not_kept_partial",
    "C76_local_files_stay",
    "C76_without_a_strategy",
    "C76_not_found_means_not_kept_refuted"
   ],
   "note": "Refuted as stated: the custom persister takes every failure of its executable's load, also one that is only temporary, for a run that is not there, and a queue that does not know the run then starts it over (C76_not_found_means_not_kept_refuted). Proved for S3 and for executables whose load fails only when there is nothing (C76_not_found_means_not_kept_partial); all else is proved in full, for every executable that does as documented."
  },
  {
   "property": "C77",
   "status": "partial",
   "theorems": [
    "C77_one_process_at_a_time",
    "C77_processes_are_told_the_protocol",
    "C77_tests_go_to_ready_processes",
    "C77_attempts_have_their_own_processes",
    "C77_one_manifest",
    "C77_manifest_is_the_process_s",
    "C77_manifest_before_tests",
    "C77_manifest_error_is_the_runner_s",
    "C77_processes_find_their_runner",
    "C77_only_one_makes_the_manifest_partial",
    "C77_exit_tells_the_whole_run",
    "C77_failure_tells_the_output",
    "C77_notified_last",
    "C77_exit_means_all_tests_run",
    "C77_every_test_is_reported_partial",
    "C77_no_panic_partial",
    "C77_no_process_is_left",
    "C77_shutdown",
    "C77_error_has_its_cause",
    "C77_runner_ends",
    "C77_every_test_is_reported_refuted",
    "C77_no_panic_refuted",
    "C77_only_one_makes_the_manifest_refuted"
   ],
   "note": "Refuted as stated, three ways. If the process for a retry cannot be started, the runner panics, because it waits a second time for the output of the process before, and the tests it received are neither run nor reported and the queue is not notified (C77_every_test_is_reported_refuted); proved when nothing goes wrong with starting and ending processes, whatever tests do (C77_every_test_is_reported_partial, C77_no_panic_partial). If a process's output cannot be passed on the runner panics after its tests were run (C77_no_panic_refuted). A worker that was itself started with the manifest variable passes it on to every process (C77_only_one_makes_the_manifest_refuted, _partial). All else is proved in full."
  },
  {
   "property": "C78",
   "status": "partial",
   "theorems": [
    "C78_told_once",
    "C78_nothing_else",
    "C78_told_is_taken_up_partial",
    "C78_results_are_taken_up",
    "C78_results_are_accounted_first",
    "C78_answers_are_the_queue_s",
    "C78_asks_again_only_when_told",
    "C78_pauses",
    "C78_tells_or_panics",
    "C78_asks_panic",
    "C78_one_answer",
    "C78_worker_finds_its_servers",
    "C78_results_are_shown",
    "C78_told_is_taken_up_refuted",
    "C78_told_before_return_refuted",
    "C78_results_are_shown_refuted",
    "C78_health_of_the_right_service_refuted"
   ],
   "note": "Refuted as stated, four ways. Cancellations, manifests and the end of a worker's tests are taken up only after their acknowledgement was written: if it cannot be written the queue has read the request but drops it (C78_told_is_taken_up_refuted), and a call can return before it is taken up, so that who asks for results then is told the run goes on (C78_told_before_return_refuted); proved for acknowledged calls once the connection's task has ended (C78_told_is_taken_up_partial), and for results in full. A worker that cannot reach the queue panics before its results are shown locally (C78_results_are_shown_refuted). A health check of one service at the address of another says it is healthy (C78_health_of_the_right_service_refuted). All else is proved in full."
  },
  {
   "property": "C79",
   "status": "partial",
   "theorems": [
    "C79_lines_spelt",
    "C79_each_has_its_reporter",
    "C79_test_files",
    "C79_test_failures_told",
    "C79_test_reports_made",
    "C79_terminal_told",
    "C79_terminal_failures_told_refuted",
    "C79_report_files",
    "C79_report_ends",
    "C79_report_files_refuted",
    "C79_report_files_partial",
    "C79_exit_told_apart_refuted",
    "C79_junit_counts",
    "C79_junit_agrees_refuted",
    "C79_junit_agrees_partial",
    "C79_line_shows_failures_refuted",
    "C79_line_tells_status_partial",
    "C79_native_output_once",
    "C79_listing_once_refuted",
    "C79_listing_once_partial",
    "C79_who_is_on_terminal",
    "C79_line_by_line",
    "C79_own_terminal"
   ],
   "note": "Refuted as stated, six ways. abq test drops that a reporter could not write to the terminal (C79_terminal_failures_told_refuted). In abq report a reporter that fails costs the files of those after it, unlike in abq test (C79_report_files_refuted); proved if those before it and the terminal work (C79_report_files_partial). An error of abq report exits with 1 like a failing suite (C79_exit_told_apart_refuted). The JUnit file of a suite whose flaky test succeeded in the end counts its failure (C79_junit_agrees_refuted); proved if nothing was run again (C79_junit_agrees_partial). The line reporter never prints the summaries of failing tests its comment promises (C79_line_shows_failures_refuted); it tells how each went (C79_line_tells_status_partial). What was written when tests were listed is shown twice if output is passed on, and lost with several runners (C79_listing_once_refuted); proved for one runner with a reporter on the terminal (C79_listing_once_partial). All else is proved in full."
  },
  {
   "property": "C80",
   "status": "partial",
   "theorems": [
    "C80_comes_up",
    "C80_serves",
    "C80_ends_only_when_ended",
    "C80_each_once_in_order",
    "C80_handlers_do_not_matter",
    "C80_shut_down_is_over",
    "C80_shutdown_ends",
    "C80_second_shutdown",
    "C80_shutdown_waits_for_handlers_refuted",
    "C80_drop_ends_servers_refuted",
    "C80_drop_ends_servers_partial"
   ],
   "note": "Refuted in two ways: a shutdown does not wait for the handlers at work (C80_shutdown_waits_for_handlers_refuted), and dropping a queue that was not shut down sends nothing, because the future of its shutdown is never polled (C80_drop_ends_servers_refuted); proved is that its servers then end when their loops next look, because the channel closes with it (C80_drop_ends_servers_partial). All else is proved in full."
  },
  {
   "property": "C81",
   "status": "partial",
   "theorems": [
    "C81_exclusive_is_alone",
    "C81_no_deadlock_partial",
    "C81_all_finish_partial",
    "C81_silent_peers_partial",
    "C81_others_finish_partial",
    "C81_results_of_other_runs_go_on_refuted",
    "C81_no_deadlock_refuted"
   ],
   "note": "Proved for no more requests at once than the pool of blocking threads has (512 unless configured): with one more, requests for the manifest of one run can wait for each other for ever (C81_no_deadlock_refuted, for every size of the pool), because each waits for the lock of the file in a thread of the pool and the one who has it needs a thread to read. Refuted too: a client that asks for the results of a run and does not read them holds up the results of all runs, since the cache of open files stays locked for reading and the first results of another run ask for it exclusively (C81_results_of_other_runs_go_on_refuted)."
  },
  {
   "property": "C82",
   "status": "partial",
   "theorems": [
    "C82_emphasis",
    "C82_read_back_partial",
    "C82_same_text_partial",
    "C82_colours",
    "C82_run_partial",
    "C82_line_feeds_refuted"
   ],
   "note": "Proved for names of files without a line feed; with one, a run with failures in one file and a run with failures in two print the same summary (C82_line_feeds_refuted)."
  },
  {
   "property": "C83",
   "status": "partial",
   "theorems": [
    "C83_loading_is_not_told_too_early",
    "C83_stored_at_most_once",
    "C83_tests_at_hand_stay_at_hand",
    "C83_ended_run_stays_ended",
    "C83_only_an_unreachable_store_is_fatal",
    "C83_workers_come_back_to_their_run",
    "C83_first_answer_after_a_restart",
    "C83_not_stored_starts_over",
    "C83_tests_are_given_back_partial",
    "C83_awaited_loads_are_answered_once",
    "C83_awaited_load_is_answered",
    "C83_stored_tests_are_at_hand_partial",
    "C83_stored_results_are_streamed",
    "C83_acknowledged_results_survive_partial",
    "C83_tests_are_given_back_refuted",
    "C83_stored_manifest_of_another_life_refuted",
    "C83_acknowledged_results_survive_refuted",
    "C83_started_over_run_reports_only_its_own_refuted"
   ],
   "note": "Refuted: with the state but not yet the manifest stored, a worker that comes back cannot have its tests (C83_tests_are_given_back_refuted), or gets those of an earlier life of the run (C83_stored_manifest_of_another_life_refuted); acknowledged batches that were not written are lost with the process, and the results are streamed without them (C83_acknowledged_results_survive_refuted); a run that starts over reports results of before (C83_started_over_run_reports_only_its_own_refuted). Proved: the rest; cancelled runs and those without tests are never stored, so they start over."
  },
  {
   "property": "C84",
   "status": "proved",
   "theorems": [
    "C84_report_is_the_sum",
    "C84_code_is_the_worst",
    "C84_report_is_made",
    "C84_crash_is_seen",
    "C84_same_results",
    "C84_all_workers_green",
    "C84_green_report",
    "C84_clock_set_back_refuted"
   ],
   "note": "The proviso about time stamps is needed: with the clock of a worker's machine set back between two attempts, a test that failed twice makes the worker exit with 1 and abq report with 0 (C84_clock_set_back_refuted)."
  },
  {
   "property": "C85",
   "status": "partial",
   "theorems": [
    "C85_exit_code",
    "C85_nothing_to_check",
    "C85_healthy_is_true",
    "C85_one_is_down",
    "C85_all_up",
    "C85_ends_partial",
    "C85_silent_service_refuted",
    "C85_other_service_refuted",
    "C85_admin_token_refuted"
   ],
   "note": "Proved for lines, code, usage, truth of healthy lines and the case that all are up. Refuted for the code: a peer that connects and says nothing keeps the command waiting for ever (C85_silent_service_refuted; C85_ends_partial says when it ends), a queue's address given as a negotiator is called healthy (C85_other_service_refuted), and the admin token that the help recommends is not taken (C85_admin_token_refuted)."
  },
  {
   "property": "C86",
   "status": "partial",
   "theorems": [
    "C86_readable",
    "C86_cut",
    "C86_framework",
    "C86_tests_partial",
    "C86_ids",
    "C86_summary",
    "C86_errors",
    "C86_verdict_partial",
    "C86_metadata_refuted",
    "C86_failed_outside_refuted",
    "C86_deep_refuted"
   ],
   "note": "Proved for results whose past attempts have no past attempts of their own and are no errors of the native runner, the first not a failure without a file. Refuted for the code beyond: a test that failed without a file and then succeeded loses the first attempt and the report is failed (C86_failed_outside_refuted, and C46's refutations for the order of nested attempts); metadata that a native runner gives under abq_metadata is overwritten (C86_metadata_refuted); metadata nested deeper than 123 makes a report that a reader with serde_json's limit does not read (C86_deep_refuted)."
  },
  {
   "property": "C87",
   "status": "partial",
   "theorems": [
    "C87_argument",
    "C87_stored_partial",
    "C87_never_another_partial",
    "C87_untouched",
    "C87_where",
    "C87_ignored",
    "C87_input",
    "C87_interrupted_refuted",
    "C87_overlap_refuted",
    "C87_empty_refuted"
   ],
   "note": "C87_stored_partial and C87_never_another_partial are for logins to one file that do not overlap. Refuted for the code beyond: a login that is killed or fails after truncating the file loses the token stored before (C87_interrupted_refuted); two logins at the same time may both succeed and leave a file that is read as no token (C87_overlap_refuted); a login without input stores an empty token (C87_empty_refuted)."
  },
  {
   "property": "C88",
   "status": "proved",
   "theorems": [
    "C88_to_queue",
    "C88_to_work_server",
    "C88_to_negotiator",
    "C88_not_admitted",
    "C88_taken",
    "C88_answers_of_queue",
    "C88_answers_of_work_server",
    "C88_answers_of_negotiator",
    "C88_no_mistaking",
    "C88_acknowledgements"
   ],
   "note": "C88_acknowledgements is what the code does with acknowledgements: any object is one."
  },
  {
   "property": "C89",
   "status": "partial",
   "theorems": [
    "C89_no_queue_for_a_reason",
    "C89_only_with_token",
    "C89_tls_as_asked",
    "C89_where_asked",
    "C89_kept_where_asked",
    "C89_jobs_as_asked",
    "C89_printed_address_leads_to_work_partial",
    "C89_other_addresses_need_the_public_one",
    "C89_local_queue",
    "C89_local_queue_closed",
    "C89_accepted",
    "C89_local_queue_for_a_reason",
    "C89_printed_address_leads_to_work_refuted",
    "C89_local_directories_refuted"
   ],
   "note": "Two parts are false of the code. The default public address of a queue is 0.0.0.0, so a worker on another host reaches the queue and is then sent to an address where nobody answers (C89_printed_address_leads_to_work_refuted); proved for public addresses that lead to the queue. The temporary directories of a local queue are removed before the queue serves (C89_local_directories_refuted)."
  },
  {
   "property": "C90",
   "status": "partial",
   "theorems": [
    "C90_asked_for_the_run",
    "C90_asked_iff",
    "C90_told_iff",
    "C90_nothing_to_tell",
    "C90_what_is_told",
    "C90_told_at_most_twice",
    "C90_exit_code_is_the_workers_partial",
    "C90_never_exits_iff",
    "C90_abq_test_tells_whom_it_asked",
    "C90_worker_ends_refuted"
   ],
   "note": "That the worker exits is false of the code: the HTTP client has no timeout and signals are not looked at during the shutdown, so a service that takes the request and never answers keeps a finished worker from exiting (C90_worker_ends_refuted; C90_never_exits_iff says exactly when). The exit code is proved for services that answer or fail."
  },
  {
   "property": "C91",
   "status": "partial",
   "theorems": [
    "C91_file_is_read_partial",
    "C91_texts_of_one_line",
    "C91_times",
    "C91_file_of_abq_test",
    "C91_unknown_character_in_a_name",
    "C91_file_is_read_refuted",
    "C91_lines_are_kept_refuted"
   ],
   "note": "False of the code in two ways. Names of tests are written as they are, so a name with a character that XML does not know (as that of a terminal colour) makes the file unreadable, with all its results (C91_file_is_read_refuted, C91_unknown_character_in_a_name); the same would go for U+FFFE and U+FFFF in outputs. Ends of lines and tabs in outputs are written into an attribute unescaped, so a reader gets spaces (C91_lines_are_kept_refuted). Proved: C91_file_is_read_partial for names without such characters, up to white space; C91_texts_of_one_line exactly, for texts of one line."
  },
  {
   "property": "C92",
   "status": "partial",
   "theorems": [
    "C92_number_of_runners",
    "C92_at_least_one_runner",
    "C92_runners_are_told_apart",
    "C92_one_runner_makes_the_manifest",
    "C92_processes_know_their_runner",
    "C92_processes_can_tell_their_runners_apart",
    "C92_where_tests_come_from",
    "C92_started_again_partial",
    "C92_started_again_after_the_end_partial",
    "C92_tests_of_missing_runners_are_left",
    "C92_started_again_refuted"
   ],
   "note": "False of the code when a worker is started again with fewer runners (as with cpu-cores on a smaller host): the tests of the runners that are missing are told to nobody, and the run ends without them being run again (C92_started_again_refuted; C92_tests_of_missing_runners_are_left says so of all histories). Proved for at least as many runners as before: C92_started_again_partial while the run goes on, C92_started_again_after_the_end_partial from the kept manifest. The rest is proved in full, for fewer than 2^32 runners."
  },
  {
   "property": "C93",
   "status": "partial",
   "theorems": [
    "C93_at_most_once",
    "C93_no_new_tests",
    "C93_prefix_at_end",
    "C93_goes_on_partial",
    "C93_bounded",
    "C93_stops_when_done",
    "C93_worker_zero",
    "C93_all_zero_partial",
    "C93_later_worker",
    "C93_answers",
    "C93_all_zero_refuted"
   ],
   "note": "False of the code in one point: the workers already in the run are told only that there is no more work, so the processes of all of them can exit with 0 although tests of the manifest were never run (C93_all_zero_refuted). Proved: exit codes of 0 vouch for what was taken from the queue, which is the whole manifest if the run was not cancelled (C93_all_zero_partial). C93_goes_on_partial has the exception of C67 (a native runner that crashed in a retry). The rest is proved in full."
  },
  {
   "property": "C94",
   "status": "proved",
   "theorems": [
    "C94_from_the_manifest",
    "C94_only_what_was_given",
    "C94_nothing_before"
   ],
   "note": ""
  },
  {
   "property": "C95",
   "status": "proved",
   "theorems": [
    "C95_reads_exactly",
    "C95_one_meaning",
    "C95_too_deep",
    "C95_written_is_standard",
    "C95_messages_however_written"
   ],
   "note": "Numbers are kept as their text, not rounded, and strings as bytes in the model (JsonModel says so): that a number too large for a float, or text that is not UTF-8, is refused is not covered. All escapes are, with those of characters beyond one code unit, and so is the grammar of numbers."
  }
 ]
}