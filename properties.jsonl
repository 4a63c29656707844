{"id": "C01", "title": "No test is handed out twice", "statement": "Whatever workers ask for work, and however their requests interleave inside the queue, no test of a run's manifest is put into two responses to next-test requests.", "quantifier": "all manifests, both test strategies, all batch sizes, all sets of concurrent requests and all interleavings of their atomic steps", "why_tests_cant": "The allocation uses a fetch-add followed by a separate corrective store; a duplicate would need a particular interleaving of those steps that a test cannot force or enumerate.", "anchors": ["crates/abq_queue/src/job_queue.rs: JobQueue::get_work, get_bounds_by_test, get_bounds_by_top_level_group"]}
{"id": "C02", "title": "Every test is handed out exactly once, in manifest order", "statement": "Once requests stop being in flight and the queue reports it is at the end, the responses, taken in the order their requests claimed work, concatenate to exactly the manifest: nothing is lost, duplicated or reordered, and each response is a contiguous piece of the manifest.", "quantifier": "all manifests, strategies, batch sizes, request histories and interleavings", "why_tests_cant": "Loss or reordering may only appear for one schedule or one boundary between batch sizes and manifest length.", "anchors": ["crates/abq_queue/src/job_queue.rs: JobQueue::get_work, is_at_end"]}
{"id": "C03", "title": "By-file strategy never splits a file across requests", "statement": "With the by-file strategy, all consecutive tests that belong to the same top-level group are returned in one response, and a response holds fewer tests than requested only when it ends the manifest.", "quantifier": "all manifests and groupings, all batch sizes, all histories", "why_tests_cant": "Depends on the alignment of group boundaries with every batch size at every starting point.", "anchors": ["crates/abq_queue/src/job_queue.rs: get_bounds_by_top_level_group"]}
{"id": "C04", "title": "End-of-work is truthful and polling terminates", "statement": "A response not marked end-of-work carries at least one test; a response marked end-of-work is only given when no test is left to be claimed, and from then on every response is empty and marked end-of-work. Hence a worker that keeps asking gets end-of-work after at most (tests + 1) requests.", "quantifier": "all manifests, batch sizes >= 1, interleavings of other workers", "why_tests_cant": "The end flag is read after the claim in a separate step, so other requests may run in between.", "anchors": ["crates/abq_queue/src/queue.rs: AllRuns::get_next_work_online", "crates/abq_queue/src/job_queue.rs: is_at_end"]}
{"id": "C05", "title": "A worker's retry partition is exactly what it was handed", "statement": "The partition reported for a worker is exactly the tests that were put into responses to that worker, in manifest order; partitions of different workers are disjoint and together are all tests handed out.", "quantifier": "all histories of requests by all workers, all interleavings (at quiescence)", "why_tests_cant": "Ownership is recorded per test in a step after the claim.", "anchors": ["crates/abq_queue/src/job_queue.rs: get_partition_for_entity, get_work"]}
{"id": "C06", "title": "Persisted manifest partitions equal live partitions", "statement": "For any worker, the partition computed from the persisted manifest view equals the partition the live queue would have reported when it was persisted, in the same order.", "quantifier": "all queue states, all worker tags, all group layouts", "why_tests_cant": "The persisted view uses an in-place swap-and-truncate algorithm whose correctness depends on every pattern of assignments.", "anchors": ["crates/abq_queue/src/job_queue.rs: into_manifest_view", "crates/abq_queue/src/persistence/manifest.rs: ManifestView::get_partition_for_entity"]}
{"id": "C07", "title": "One manifest generator per run", "statement": "For each run id, over any history of workers connecting, at most one worker is told to generate the manifest, and that worker is the first to connect to that run when neither the queue nor the remote store knows it.", "quantifier": "all histories of all queue operations over any set of runs and workers, including races between creators and remote-load outcomes", "why_tests_cant": "Two workers racing to create a run is a schedule, not an input.", "anchors": ["crates/abq_queue/src/queue.rs: AllRuns::find_or_create_run, try_create_run, try_create_globally_fresh_run"]}
{"id": "C08", "title": "Run outcomes are final", "statement": "Once a run's manifest is exhausted (or it was empty) the run is never cancelled or re-opened for work; once a run is cancelled it never again hands out a test, never accepts a manifest, and never becomes complete.", "quantifier": "all operation histories after the terminal event", "why_tests_cant": "Requires every operation in every later state.", "anchors": ["crates/abq_queue/src/queue.rs: RunState, mark_cancelled, add_manifest, try_mark_reached_end_of_manifest, next_work"]}
{"id": "C09", "title": "Active-run count is exact", "statement": "The reported number of active runs equals the number of runs that are waiting for a manifest or still have work to hand out; in particular the queue reports itself drained exactly when there are none.", "quantifier": "all operation histories", "why_tests_cant": "A missed or doubled decrement is visible only after particular histories (and as an integer wrap).", "anchors": ["crates/abq_queue/src/queue.rs: AllRuns::num_active, mark_cancelled_help, is_drained"]}
{"id": "C10", "title": "Manifest persistence is scheduled exactly once per completed run", "statement": "For each run whose manifest was handed out entirely, exactly one request produces the plan that persists the manifest and run state, even if several workers observe the end concurrently.", "quantifier": "all operation histories", "why_tests_cant": "Several workers may observe the end at once.", "anchors": ["crates/abq_queue/src/queue.rs: try_mark_reached_end_of_manifest, next_work"]}
{"id": "C11", "title": "Worker assignment answers", "statement": "A worker that connects to a run gets: fresh work if the run still waits for its manifest, or is in progress and the worker never spoke to it before; retry-and-continue if the worker already has a place in a run that is in progress or is over; 'already done' with the run's exit code if the run is over and the worker never took part; cancelled with the recorded reason if the run is cancelled. A queue that reloads the persisted state of a finished run gives the same answers.", "quantifier": "all operation histories, workers and run ids", "why_tests_cant": "The answer depends on the whole history of the worker with the run.", "anchors": ["crates/abq_queue/src/queue.rs: find_or_create_run, init_metadata, mark_worker_complete"]}
{"id": "C12", "title": "Result retrieval is gated on completeness", "statement": "A request for a run's results streams results only if the run's manifest is exhausted, no participating worker is active and no acknowledged batch of results is still being written; every result batch acknowledged before such a request was made is in the stream, if the run had its manifest when the batch came (earlier batches are acknowledged and dropped) and its write did not fail.", "quantifier": "all histories of worker and client operations, all interleavings of result writes", "why_tests_cant": "Race between acknowledging, writing and reading.", "anchors": ["crates/abq_queue/src/queue.rs: get_read_results_cell, handle_test_results_request, handle_worker_results", "crates/abq_queue/src/persistence/results.rs: ResultsPersistedCell"]}
{"id": "C13", "title": "Progress timeout cancels exactly stalled runs", "statement": "When a progress timeout fires, the run is cancelled iff it has not received its manifest, or has handed out no test since the previous check; a run that progressed or is over is never cancelled by a timeout.", "quantifier": "all operation histories between timeouts", "why_tests_cant": "Depends on relative order of progress and timers.", "anchors": ["crates/abq_queue/src/queue.rs: handle_timeout, query_manifest_progress_status, handle_manifest_progress_timeout"]}
{"id": "C14", "title": "Late or duplicate manifests are rejected", "statement": "A manifest is accepted only by a run waiting for it; any second manifest, and any manifest for a cancelled or finished run, is refused and changes nothing observable about the run.", "quantifier": "all operation histories", "why_tests_cant": "Depends on history.", "anchors": ["crates/abq_queue/src/queue.rs: add_manifest, mark_empty_manifest_complete, mark_failed_to_receive_manifest"]}
{"id": "C15", "title": "Batch size bounds", "statement": "The batch size used for a run is never above 100 whatever a worker asks, equals the request otherwise, and every by-test response holds at most that many tests.", "quantifier": "all requested batch sizes and histories", "why_tests_cant": "Boundary over the whole integer range.", "anchors": ["crates/abq_queue/src/queue.rs: MAX_BATCH_SIZE, ChooseRunForWorker::get_assigned_run"]}
{"id": "C16", "title": "Worker sets hold one entry per worker", "statement": "For any sequence of insertions a worker set holds at most one entry per worker tag, a lookup returns the latest inserted data for the tag, insert-if-missing never overwrites, and no operation affects another worker.", "quantifier": "all sequences of set operations", "why_tests_cant": "Map laws over all sequences.", "anchors": ["crates/abq_queue/src/worker_tracking.rs: WorkerSet"]}
{"id": "C17", "title": "Results persisted to the remote once final", "statement": "Once a run is complete and all acknowledged result writes have finished, the remote store holds the complete results.", "quantifier": "all interleavings of result-write plans with the run's completion", "why_tests_cant": "Depends on which plan finishes last.", "anchors": ["crates/abq_queue/src/persistence/results.rs: PersistencePlan::execute"]}
{"id": "C18", "title": "Pending-write counter is exact", "statement": "Results are reported as ready iff every write plan that was created has finished; the counter never underflows.", "quantifier": "all interleavings of plan creation and execution", "why_tests_cant": "Concurrent atomic counter.", "anchors": ["crates/abq_queue/src/persistence/results.rs: ResultsPersistedCell, eligible_to_retrieve"]}
{"id": "C19", "title": "Local results file equals the sequence of dumps", "statement": "Reading a run's results from the filesystem persister returns every dumped batch, once, in dump order, whatever offloads to and reloads from the remote happen in between, across first access, restarts and failures.", "quantifier": "all histories of dump / read / offload / cache eviction, all run ids", "why_tests_cant": "Needs particular interleavings of eviction and offload with writes.", "anchors": ["crates/abq_queue/src/persistence/results/fs.rs: FilesystemPersistor"]}
{"id": "C20", "title": "Results codec round trip", "statement": "Decoding the packed lines of any sequence of results gives the sequence back, and packing produces one line per batch with no embedded line break.", "quantifier": "all sequences of batches", "why_tests_cant": "Unbounded inputs.", "anchors": ["crates/abq_utils/src/net_protocol.rs: OpaqueLazyAssociatedTestResults", "crates/abq_queue/src/persistence/results/fs.rs: write_packed_line"]}
{"id": "C21", "title": "Persisted manifest round trip", "statement": "A manifest that was dumped successfully is returned unchanged (as partitions) by every later read, including after the local copy was offloaded.", "quantifier": "all histories of dump / read / offload and remote outcomes", "why_tests_cant": "Depends on file offset and length state left by earlier operations.", "anchors": ["crates/abq_queue/src/persistence/manifest/fs.rs: FilesystemPersistor"]}
{"id": "C22", "title": "Offload never discards the only copy", "statement": "Offloading a file truncates the local copy only after the remote has stored the same bytes; a failure at any step leaves at least one complete copy that later reads return.", "quantifier": "all failure points of offload, all contents", "why_tests_cant": "Crash/failure points.", "anchors": ["crates/abq_queue/src/persistence/results/fs.rs: perform_offload", "crates/abq_queue/src/persistence/manifest/fs.rs: perform_offload"]}
{"id": "C23", "title": "Offload eligibility", "statement": "A file is offloaded only if it is non-empty and was not accessed for at least the configured time; with the 'never' configuration nothing is offloaded; clock skew never makes a file eligible.", "quantifier": "all file sizes, access times, clocks and configurations", "why_tests_cant": "Integer and clock boundaries.", "anchors": ["crates/abq_queue/src/persistence/offload.rs: OffloadConfig::file_eligible_for_offload"]}
{"id": "C24", "title": "Remote keys are collision free", "statement": "Objects of different runs or of different kinds (manifest, results, run state) never share a remote key; with run ids free of '/'.", "quantifier": "all pairs of run ids and kinds, all prefixes", "why_tests_cant": "All pairs of strings.", "anchors": ["crates/abq_queue/src/persistence/remote/s3.rs: build_key", "crates/abq_queue/src/persistence/remote.rs: PersistenceKind"]}
{"id": "C25", "title": "Run-state schema check", "statement": "A stored run state is loaded as it was stored. A payload is interpreted as a run state only if it has every field of the current shape with a valid value; one that does not and names another schema version is reported as such, and an absent object is told apart from a failed request.", "quantifier": "all stored payloads", "why_tests_cant": "All payloads.", "anchors": ["crates/abq_queue/src/persistence/run_state.rs: SerializableRunState, deserialize"]}
{"id": "C26", "title": "Framed messages round trip over any chunking", "statement": "A sequence of messages written to a connection is read back as the same sequence, however the transport splits the bytes, with each read consuming exactly its message.", "quantifier": "all message sequences and all segmentations of the byte stream", "why_tests_cant": "All chunkings.", "anchors": ["crates/abq_utils/src/net_protocol.rs: write, async_write, AsyncReader, read_exact_help"]}
{"id": "C27", "title": "Reads are cancel safe", "statement": "If a read of a message is cancelled at any await point and issued again, the message is still delivered intact and exactly once.", "quantifier": "all cancellation points, all chunkings", "why_tests_cant": "Cancellation points.", "anchors": ["crates/abq_utils/src/net_protocol.rs: AsyncReader::next"]}
{"id": "C28", "title": "Truncated streams are never accepted", "statement": "If the peer closes before the whole message has arrived, the read reports an error; it never returns a message, nor blocks forever.", "quantifier": "all messages, all truncation points", "why_tests_cant": "All prefixes.", "anchors": ["crates/abq_utils/src/net_protocol.rs: read_help, AsyncReader::next"]}
{"id": "C29", "title": "Length header is faithful", "statement": "The length header decodes to the written length and compression flag, for every message size; oversize messages are not silently misframed.", "quantifier": "all message lengths", "why_tests_cant": "Integer boundaries at 2^31.", "anchors": ["crates/abq_utils/src/net_protocol.rs: write_message_bytes_help, async_write_stream"]}
{"id": "C30", "title": "Flattening a manifest", "statement": "Flattening yields every test case of the manifest exactly once, in depth-first source order, every test of one top-level member gets the same group and tests of different top-level members different groups; the run's metadata is kept.", "quantifier": "all manifests (arbitrarily nested)", "why_tests_cant": "Recursive unbounded structure; the code uses an explicit stack.", "anchors": ["crates/abq_utils/src/net_protocol/runners.rs: Manifest::flatten"]}
{"id": "C31", "title": "In-process retry manifest", "statement": "After an attempt is over, the worker retries exactly the tests that failed on every attempt so far, in manifest order, with the attempt number increased by one; tests that ever succeeded are not retried.", "quantifier": "all manifests, all result histories, all attempt counts", "why_tests_cant": "History property.", "anchors": ["crates/abq_workers/src/test_fetching/retries.rs: RetryManifestTracker"]}
{"id": "C32", "title": "Attempt bound", "statement": "No test is run more often than the configured maximum number of attempts by in-process retries, and the worker is told end-of-work after finitely many requests.", "quantifier": "all result histories", "why_tests_cant": "Termination.", "anchors": ["crates/abq_workers/src/test_fetching/retries.rs: try_assemble_retry_manifest"]}
{"id": "C33", "title": "Retried tests focus on all failures", "statement": "When a test item with several failing cases is retried, the retry includes all the failing cases of the last attempt.", "quantifier": "all result lists for an item", "why_tests_cant": "Depends on number and order of failing results in one batch.", "anchors": ["crates/abq_workers/src/test_fetching/retries.rs: account_failure", "crates/abq_utils/src/net_protocol/runners/v0_2.rs: TestCase::add_test_focus"]}
{"id": "C34", "title": "Fetcher delivers sources in order without loss", "statement": "The fetcher hands the runner the out-of-process retry tests, then the queue's tests, then in-process retries, each exactly once and in order, and reports end-of-work exactly once, as the last response.", "quantifier": "all source behaviours (any batching), all retry settings", "why_tests_cant": "All batchings and orders.", "anchors": ["crates/abq_workers/src/test_fetching.rs: Fetcher::fetch_next_tests"]}
{"id": "C35", "title": "A lost response does not lose tests", "statement": "If the connection fails after a worker's request reached the queue, the tests of the lost response are still run by some worker.", "quantifier": "all failure points of a request", "why_tests_cant": "Crash points.", "anchors": ["crates/abq_workers/src/test_fetching/persistent_test_fetcher.rs: PersistedTestsFetcher", "crates/abq_queue/src/queue.rs: start_persistent_next_tests_requests_task"]}
{"id": "C36", "title": "Message buffer is lossless FIFO and never blocks its refill", "statement": "Tests fetched by the producer reach the consumer exactly once and in order; at most one refill is outstanding; flushing returns exactly the tests not yet received.", "quantifier": "all batch sequences, capacities and interleavings of producer and consumer", "why_tests_cant": "Concurrency.", "anchors": ["crates/abq_runners/generic_test_runner/src/message_buffer.rs: channel, Producer, Consumer"]}
{"id": "C37", "title": "A crashing native runner never hangs the worker", "statement": "If the native runner dies at any test, the worker reports the remaining tests as errored and exits.", "quantifier": "all crash points, batch sizes, retry settings", "why_tests_cant": "Schedules of producer/consumer at the crash.", "anchors": ["crates/abq_runners/generic_test_runner/src/lib.rs: execute_all_tests", "crates/abq_runners/generic_test_runner/src/message_buffer.rs: Consumer::flush"]}
{"id": "C38", "title": "Buffered results are sent once, in order", "statement": "Results pushed into the worker's buffer are each sent exactly once, in order, in batches of at least the batch size except for a final flush, and none remains after the flush.", "quantifier": "all push sequences and batch sizes", "why_tests_cant": "All sequences.", "anchors": ["crates/abq_runners/generic_test_runner/src/buffered_results.rs: BufferedResults"]}
{"id": "C39", "title": "Worker pool exit code", "statement": "A worker pool's exit code is the highest exit code of its runners, and the manifest-generation output is reported.", "quantifier": "all numbers of runners and exit codes", "why_tests_cant": "All orders of runners.", "anchors": ["crates/abq_workers/src/workers.rs: WorkerPool::shutdown"]}
{"id": "C40", "title": "Liveness counter", "statement": "Waiting on the liveness counter returns exactly when all the runners have signalled, in any order.", "quantifier": "all counts and signal orders", "why_tests_cant": "Orders.", "anchors": ["crates/abq_workers/src/liveness.rs: LiveCount"]}
{"id": "C41", "title": "Report order is canonical", "statement": "The order in which results are reported is a sorted permutation of the results received, sorted by test, then time, then attempt, independent of arrival order (up to ties).", "quantifier": "all result sequences", "why_tests_cant": "All permutations.", "anchors": ["crates/abq_cli/src/report/ordered_results.rs: OrderedAssociatedResults"]}
{"id": "C42", "title": "Suite outcome", "statement": "The suite fails iff some test failed on all its attempts; internal runner errors yield the internal error code; counts of tests, failures and retries equal their definitions over the results.", "quantifier": "all result sequences", "why_tests_cant": "All histories of results.", "anchors": ["crates/abq_cli/src/reporting/summary.rs: SuiteTracker"]}
{"id": "C43", "title": "A report is never produced from incomplete results", "statement": "The report command succeeds only if a result for every test of the manifest was seen.", "quantifier": "all result streams", "why_tests_cant": "All subsets.", "anchors": ["crates/abq_cli/src/report.rs: process_results"]}
{"id": "C44", "title": "Runner summaries add up", "statement": "Grouping per-runner summaries by worker or by runner keeps the totals of tests, failures and retries.", "quantifier": "all summaries", "why_tests_cant": "All groupings.", "anchors": ["crates/abq_reporting/src/output.rs: ShortSummary::grouped_runner_summaries"]}
{"id": "C45", "title": "Reporter option syntax round trip", "statement": "Parsing the printed form of a reporter option gives the option back.", "quantifier": "all reporter kinds and paths", "why_tests_cant": "All paths.", "anchors": ["crates/abq_cli/src/reporting.rs: ReporterKind"]}
{"id": "C46", "title": "JSON report adds up", "statement": "The JSON report's counters partition its tests by final status; every attempt of each test appears once, in order, the latest as the result; the status is failed iff a test's latest attempt failed or an error is listed.", "quantifier": "all result sequences", "why_tests_cant": "All sequences.", "anchors": ["crates/reporters/rwx_v1_json/src/lib.rs: Collector, Summary"]}
{"id": "C47", "title": "Token syntax", "statement": "Printing and parsing access tokens round-trips; no other text parses to a token; a user token never parses as an admin token.", "quantifier": "all strings", "why_tests_cant": "All strings.", "anchors": ["crates/abq_utils/src/auth/token.rs: RawToken", "crates/abq_utils/src/auth.rs: AdminToken, UserToken"]}
{"id": "C48", "title": "Authentication soundness", "statement": "A connection obtains a role only if it presents the token configured for it (or the server runs without authentication); admin rights require the admin token.", "quantifier": "all presented byte strings, all server configurations", "why_tests_cant": "All byte strings.", "anchors": ["crates/abq_utils/src/auth/strategy.rs: ServerAuthStrategy::verify_header"]}
{"id": "C49", "title": "Command identity", "statement": "Workers that run different test commands for the same run are detected.", "quantifier": "all pairs of commands", "why_tests_cant": "All pairs.", "anchors": ["crates/abq_utils/src/test_command_hash.rs: TestCommandHash::from_command"]}
{"id": "C50", "title": "VecMap behaves as a map", "statement": "Any sequence of VecMap operations gives the answers of a finite map.", "quantifier": "all operation sequences", "why_tests_cant": "All sequences.", "anchors": ["crates/abq_utils/src/vec_map.rs: VecMap"]}
{"id": "C51", "title": "Backoff bounds", "statement": "Exponential backoff delays never decrease, never exceed the maximum and reach it; retrying n times makes at most n attempts and returns the first success or the last error.", "quantifier": "all backoffs that start at or below their maximum; all outcome sequences of the retried operation", "why_tests_cant": "All sequences.", "anchors": ["crates/abq_utils/src/decay.rs: ExpDecay", "crates/abq_utils/src/retry.rs: retry_n, async_retry_n"]}
{"id": "C52", "title": "Captured output is complete", "statement": "Bytes written through the output multiplexer appear in the parent output and in the captured output exactly once and in order; successive drains partition the output.", "quantifier": "all write sequences, short writes and drain points", "why_tests_cant": "All short-write patterns.", "anchors": ["crates/abq_utils/src/capture_output/muxer.rs: Muxer, SideChannel"]}
{"id": "C53", "title": "Periodic jobs do not overlap", "statement": "At most one instance of a periodic job runs at a time, and a trigger while none is running starts one.", "quantifier": "all schedules of triggers and completions", "why_tests_cant": "Concurrency.", "anchors": ["crates/abq_cli/src/instance/periodic_job.rs: ConcurrencyControlledJob"]}
{"id": "C54", "title": "Termination signals", "statement": "On the first termination signal the queue only stops accepting new runs; it is killed on the second.", "quantifier": "all signal histories", "why_tests_cant": "Signals and channel closing.", "anchors": ["crates/abq_cli/src/instance.rs: start_abq_forever"]}
{"id": "C55", "title": "Hosted API retries are bounded", "statement": "A request to the hosted API is attempted at most six times, is retried only on server errors or rate limiting, and the last response is returned.", "quantifier": "all response sequences", "why_tests_cant": "All sequences.", "anchors": ["crates/abq_hosted/src/config.rs: send_request_with_decay"]}
{"id": "C56", "title": "Dot reporter line breaks", "statement": "The dot reporter prints one mark per result, a line break after each 80th, and ends on a complete line.", "quantifier": "all result sequences", "why_tests_cant": "All lengths.", "anchors": ["crates/reporters/dot/src/lib.rs: DotReporter"]}
{"id": "C57", "title": "A read's memory is bounded by the announced message", "statement": "While a message is being read, the reader's buffer holds at most the number of bytes announced by the message's length header, however the bytes arrive and whatever happens to the connection.", "quantifier": "all messages, all ways to split their bytes into reads, all points at which the connection closes, all cancellations of the read", "why_tests_cant": "The growth needs a connection that closes at one particular point, and only shows as memory use until a deadline passes.", "anchors": ["crates/abq_utils/src/net_protocol.rs: async_read, AsyncReader::next"]}
{"id": "C58", "title": "A manifest handed out in full is persisted", "statement": "Once the end of a run's manifest was given to a worker, the manifest and run state are persisted, exactly once, whatever connections fail.", "quantifier": "all histories of requests, all failure points of each", "why_tests_cant": "The plan to persist is produced by one request and carried out after its response was written; only a failure at that point shows whether it is kept.", "anchors": ["crates/abq_queue/src/queue.rs: start_persistent_next_tests_requests_task, next_work"]}
{"id": "C59", "title": "Reporters see every result once", "statement": "When a report is made, each reporter is shown every result of the run exactly once, in the report's order, and the output printed before and after a test's results exactly once, with its first and last result.", "quantifier": "all sequences of results lines, all orders of arrival", "why_tests_cant": "All batchings and all numbers of results per test, including one and none.", "anchors": ["crates/abq_cli/src/report.rs: process_results, handle_result"]}
{"id": "C60", "title": "Listing a runner's tests", "statement": "abq list-tests prints exactly the tests whose first attempt ran on the given runner, in the order they ran.", "quantifier": "all results, all runners", "why_tests_cant": "All interleavings of results of several runners and attempts.", "anchors": ["crates/abq_cli/src/report.rs: print_tests_for_runner"]}
{"id": "C61", "title": "Hosted configuration", "statement": "A configuration from the hosted API is accepted only for the run that was asked for, with a well-formed user token and exactly one address; what the service does not support is reported with its message.", "quantifier": "all responses of the hosted API", "why_tests_cant": "Responses are arbitrary.", "anchors": ["crates/abq_hosted/src/config.rs: HostedQueueConfig::from_api"]}
{"id": "C62", "title": "Progress reporter counts", "statement": "The progress reporter shows each failing result once, in order; the numbers it shows are those of the results received so far and add up (passed + failing = tests); without a bar it writes at the first of each ten ticks; what it writes is separated by single blank lines.", "quantifier": "all interleavings of results and ticks", "why_tests_cant": "Interleavings are unbounded.", "anchors": ["crates/reporters/progress/src/lib.rs: ProgressReporter", "crates/abq_reporting/src/output.rs: format_interactive_progress, format_non_interactive_progress"]}
{"id": "C63", "title": "Failure summaries show output in full", "statement": "In the summary of a failing test the captured stdout and stderr appear in full unless blank, each under its own heading, which starts a line.", "quantifier": "all captured outputs", "why_tests_cant": "Outputs are arbitrary byte strings.", "anchors": ["crates/abq_reporting/src/output.rs: format_test_result_summary, push_newline_if_needed"]}
{"id": "C64", "title": "Output is attributed to tests", "statement": "Everything a native runner writes ends up exactly once in what its worker reports: in a test's report (before its results, with them, or after them) or in the runner's final output, in the order it was written.", "quantifier": "all sequences of tests and attempts, all messages of the native runner, all times at which output arrives, all points at which the native runner fails", "why_tests_cant": "Output arrives concurrently with messages; every interleaving, every kind of reply and every failure point counts.", "anchors": ["crates/abq_runners/generic_test_runner/src/lib.rs: send_and_wait_for_test_results, attach_pipe_output_to_test_results, handle_native_runner_failure, run_help, NativeRunnerHandle::reconcile_run_number"]}
{"id": "C65", "title": "Every test a worker received is reported", "statement": "Each test handed to a native runner gets exactly one report, for its id and attempt, holding the results the native runner sent for it in the order they were sent; if the native runner fails, the tests it did not complete are reported as errors.", "quantifier": "all sequences of tests and attempts, all replies (single, multiple, incremental), all points at which the native runner fails, is killed or cannot be restarted", "why_tests_cant": "Failure points are unbounded in number, and restarting for a retry fails only in rare conditions.", "anchors": ["crates/abq_runners/generic_test_runner/src/lib.rs: execute_all_tests, send_and_wait_for_test_results, handle_native_runner_failure, NativeRunnerHandle::reconcile_run_number, run_help"]}
{"id": "C66", "title": "In a whole run every test is run by exactly one runner", "statement": "Over all workers of a run, an attempt of a test is reported at most once and a test's attempts all by the same runner. When all runners have returned and at least one native runner has not crashed, every test of the manifest has been reported for a first attempt exactly once; if none has crashed, each test was repeated while it failed, up to the allowed number of attempts, and no longer.", "quantifier": "all manifests, strategies, numbers of runners, batch sizes, numbers of attempts, all interleavings of queue and runners, all results, all crashes of native runners", "why_tests_cant": "The property spans concurrently running processes; the number of interleavings of requests, responses, runs and crashes is unbounded.", "anchors": ["crates/abq_queue/src/queue.rs: AllRuns::next_work_online", "crates/abq_queue/src/job_queue.rs: JobQueue", "crates/abq_workers/src/runner_strategy.rs: RunnerStrategyGenerator::generate", "crates/abq_workers/src/test_fetching.rs", "crates/abq_runners/generic_test_runner/src/lib.rs: execute_all_tests", "crates/abq_runners/generic_test_runner/src/message_buffer.rs", "crates/abq_workers/src/results_handler.rs"]}
{"id": "C67", "title": "A whole run comes to its end", "statement": "As long as a runner of a run has not returned, some part of the system can go on, whatever results come in; the number of steps is bounded; so a run in which no native runner fails ends with every test reported.", "quantifier": "all manifests, strategies, numbers of runners, batch sizes, numbers of attempts, all schedules", "why_tests_cant": "Deadlocks between queue, fetcher, buffer and reporting show only under particular schedules.", "anchors": ["crates/abq_queue/src/queue.rs: AllRuns::next_work_online", "crates/abq_queue/src/job_queue.rs: JobQueue", "crates/abq_workers/src/runner_strategy.rs: RunnerStrategyGenerator::generate", "crates/abq_workers/src/test_fetching.rs", "crates/abq_runners/generic_test_runner/src/lib.rs: execute_all_tests", "crates/abq_runners/generic_test_runner/src/message_buffer.rs", "crates/abq_workers/src/results_handler.rs"]}
{"id": "C68", "title": "A retried worker gets the tests it ran", "statement": "When all runners of a run have returned, the tests that the queue has down for a runner (and hands to a retry of its worker) are exactly those it reported on for a first attempt, in the order it ran them.", "quantifier": "all manifests, strategies, numbers of runners, batch sizes, numbers of attempts, all interleavings of queue and runners, all results, all crashes of native runners", "why_tests_cant": "The record is written cell by cell while other runners' requests go on; the order in which the tests are run is decided elsewhere.", "anchors": ["crates/abq_queue/src/queue.rs: AllRuns::next_work_online", "crates/abq_queue/src/job_queue.rs: JobQueue", "crates/abq_workers/src/runner_strategy.rs: RunnerStrategyGenerator::generate", "crates/abq_workers/src/test_fetching.rs", "crates/abq_runners/generic_test_runner/src/lib.rs: execute_all_tests", "crates/abq_runners/generic_test_runner/src/message_buffer.rs", "crates/abq_workers/src/results_handler.rs"]}
{"id": "C69", "title": "Attaching a worker to a run, and how its process exits", "statement": "A worker asks the queue for its assignment once, and as long as it is told that the run is not known yet asks again after pauses that double from 10 ms up to 3 s. Its process exits with 0 only if it was told that the run is over with a code that is not positive, or its runners all ended without an error and none of the tests it reported on is taken for failed; a worker that comes to a finished run runs nothing and exits with that run's code. Its runners are started at most once, and over all workers of a run at most one is to generate the manifest. At its end it prints each runner's output, every error once and at most one summary. A termination signal makes the process stop its runners and exit with 1.", "quantifier": "all sequences of answers, failed connections, signals and ends of runners, in any order; all numbers of runners and all their results", "why_tests_cant": "The order of signals, answers and ends of runners is not under a test's control, and the number of answers before the decisive one is unbounded.", "anchors": ["crates/abq_workers/src/negotiate.rs: WorkersNegotiator::negotiate_and_start_pool, wait_for_execution_context", "crates/abq_cli/src/workers.rs: start_workers_standard_pool, do_shutdown", "crates/abq_workers/src/workers.rs: WorkerPool::shutdown"]}
{"id": "C70", "title": "The exit codes of the workers tell the outcome of the whole run", "statement": "When all runners of a run have returned: if the processes of all workers exit with 0, then no native runner crashed, every test of the manifest was run and reported with at least one case, and each of its cases passed in some attempt. A case that failed in all its attempts, or a native runner that crashed, makes the process of the worker that ran it exit with a code other than 0. Conversely a worker that was not signalled, whose native runners exited with 0 and all of whose cases passed exits with 0. (For native runners that name their test cases consistently.)", "quantifier": "all manifests, strategies, numbers of workers and runners, batch sizes, numbers of attempts, all interleavings of queue and runners, all results, all crashes, all orders in which a worker's runners' reports come in, all events at the workers' processes", "why_tests_cant": "It joins the queue, all runners and all processes; each has unboundedly many schedules and the reports of several runners are mixed in any order.", "anchors": ["crates/abq_cli/src/workers.rs: start_workers_standard_pool, do_shutdown", "crates/abq_cli/src/workers/reporting.rs: create_reporting_task", "crates/abq_cli/src/reporting/summary.rs: SuiteTracker", "crates/abq_workers/src/workers.rs: WorkerPool::shutdown"]}
{"id": "C71", "title": "Killed worker processes that are started again lose no test", "statement": "Worker processes may be killed at any point and started again with the same worker number. At every moment a test is only ever run by processes of one worker, and each process reports each attempt at most once. When the last process of every worker has completed, the first attempts that these last processes report are exactly the tests of the manifest, each once, and each test failed in all its attempts but the last allowed or non-failing one. A process that is started again first runs, in the manifest's order, all tests that the earlier processes of its worker were given.", "quantifier": "all manifests, strategies, batch sizes, numbers of workers, processes and attempts, all interleavings of queue, processes and requests, all kill points and restarts", "why_tests_cant": "A kill can come between any two steps of a process, with any requests in flight at the queue; the number of restarts is unbounded.", "anchors": ["crates/abq_queue/src/queue.rs: AllRuns::find_or_create_run, get_retry_manifest", "crates/abq_queue/src/job_queue.rs: JobQueue::get_partition_for_entity", "crates/abq_workers/src/runner_strategy.rs: RunnerStrategyGenerator", "crates/abq_workers/src/test_fetching.rs: Fetcher::get_next_tests", "crates/abq_workers/src/test_fetching/out_of_process_retry_manifest_fetcher.rs"]}
{"id": "C72", "title": "A stalled run is cancelled after one to two windows", "statement": "With a progress window of W (an hour by default): a run is cancelled for lack of progress only if at some moment at least W earlier it was active and had handed out exactly the tests it has handed out now. Conversely a run that waits for its manifest, or has tests that nobody asked for, and that handed out nothing since some moment at which it was active, is active for at most 2W from then, when timeouts and their checks are handled at once; if they are late by up to e, for at most 2W + 4e.", "quantifier": "all windows, all lateness bounds, all histories of the queue's events with any passing of time between them, all runs", "why_tests_cant": "It is about every timing of checks, requests and answers over hours; a test sees one timing and replaces the window by zero.", "anchors": ["crates/abq_queue/src/timeout.rs: RunTimeoutManager::insert, next_timeout, RunTimeoutStrategy::wait_for_manifest_progress_duration", "crates/abq_queue/src/queue.rs: handle_timeout, handle_manifest_progress_timeout, get_assigned_run, QueueServer::start"]}
{"id": "C73", "title": "The command line finds the right queue", "statement": "`abq test` works for the run that --run-id (or ABQ_RUN_ID) names, else, on CI, for the one that the CI service names (Buildkite, CircleCI, GitHub, Mint, in that order), else for a fresh one. Unless --local is given, a command for a named run never starts a queue of its own, and `abq report` with the same options asks the same queue with the same token and certificate. --local asks nothing of the hosted API and always uses a private queue. A queue that the API names is used with the token and certificate the API gives; if the API has none, the command is refused rather than falling back. Results stay with the worker exactly if a personal access token was used for a named run on the hosted queue. A queue given by --queue-addr is the queue used. A private queue and its client agree about token and TLS. A test is attempted up to 1 + retries times.", "quantifier": "all combinations of options that the parser accepts, environments, stored tokens and answers of the API", "why_tests_cant": "Options, environment, stored configuration and answers multiply to far more combinations than are tested; several of the surprising ones combine a forgotten stored token with explicit options.", "anchors": ["crates/abq_cli/src/main.rs: get_inferred_run_id, abq_main (Command::Test, Command::Report), resolve_config, resolve_config_with_api_config, resolve_config_from_cli_args, validate_queue_location, find_or_create_abq", "crates/abq_cli/src/args.rs: Command::Test, Command::Report (ArgGroup)"]}
{"id": "C74", "title": "What a native runner reports is what everybody downstream reads", "statement": "A worker takes a unit of work's results exactly when the runner's messages are a complete answer of the protocol (one message with one or several results, or increments up to a last one), and then it has every result that was told, in order, with all its fields, the meaning of its status, its earlier attempts in order, the time, and the captured output that belongs to it. Runners may order members as they like and add unknown ones. The queue reads the results that a worker sends as they were sent, and whoever reads the results file gets every result as the queue read it, together with the summary.", "quantifier": "all answers of a runner, as texts; all values of every field including nested metadata and nested earlier attempts; all sequences of requests", "why_tests_cant": "The types are nested without bound and written and read by derived code in four places; tests pin a few messages. The limits of the JSON reader bite only on nested values, at a depth that differs between the places.", "anchors": ["crates/abq_utils/src/net_protocol/runners/v0_2.rs: TestResult, TestResultMessage, IncrementalTestResultMessage", "crates/abq_utils/src/net_protocol/runners.rs: TestResultSpec, TestResult, From<v0_2::TestResult>, RawTestResultMessage", "crates/abq_utils/src/net_protocol.rs: queue::Request, AssociatedTestResults, results::ResultsLine", "crates/abq_runners/generic_test_runner/src/lib.rs: send_and_wait_for_test_results"]}
{"id": "C75", "title": "Runners are sent the tests that the manifest describes", "statement": "When a runner answers with a manifest, the tests it tells (in groups nested to any depth, with members in any order and unknown ones beside them) are the tests that runners are later sent: the same ids, metadata that says the same, in the order of the message, without focus until one is added for a retry, each as the protocol's test-case message; and every runner is started with the metadata of the manifest. The queue reads the manifest that the worker reports as it was reported, a failure to make one arrives with the runner's output, and every batch of tests, every answer to a retried worker, the manifest file and the metadata for the start are read as they were written.", "quantifier": "all manifest messages, as texts; all nested groups and metadata; all batches of tests; all identifiers", "why_tests_cant": "Manifests are nested without bound and written and read by derived code in seven places; tests pin a few messages. The limits of the JSON reader bite only on nested values.", "anchors": ["crates/abq_utils/src/net_protocol/runners/v0_2.rs: Test, Group, TestOrGroup, Manifest, ManifestMessage, TestCase, TestCaseMessage, InitMessage", "crates/abq_utils/src/net_protocol/runners.rs: Manifest, flatten_manifest, TestCase, TestCaseMessage", "crates/abq_utils/src/net_protocol.rs: ManifestResult, ReportedManifest, WorkerTest, TestSpec, NextWorkBundle, RetryManifestResponse, InitContextResponse", "crates/abq_runners/generic_test_runner/src/lib.rs: retrieve_manifest", "crates/abq_queue/src/persistence/manifest.rs: ManifestView"]}
{"id": "C76", "title": "What is kept remotely is what is loaded", "statement": "A queue that starts keeps things remotely in the place that was configured, with all of its settings, or in none if no strategy was given; a missing setting is named. The custom executable is called in the documented form. The manifest, results and state of a run that were stored are those that are loaded, whatever else is stored, loaded or written locally in between and whatever fails, until they are stored again; files of other runs and kinds are not touched, no temporary file stays, and a run is said not to be there only if nothing is kept of it.", "quantifier": "all configurations and commands; all histories of stores and loads of files and run states, for every executable that does as documented and every bucket, with failures anywhere", "why_tests_cant": "The remote place is somebody else's program and may fail at any call; histories and run ids are unbounded. Tests use a fake or one shell script.", "anchors": ["crates/abq_cli/src/instance/remote_persistence.rs: RemotePersistenceConfig::resolve, RemotePersistenceStrategy", "crates/abq_cli/src/instance/local_persistence.rs: PersistedDir", "crates/abq_queue/src/persistence/remote/custom.rs: CustomPersister", "crates/abq_queue/src/persistence/remote/s3.rs: S3Persister", "crates/abq_queue/src/persistence/remote/noop.rs: NoopPersister"]}
{"id": "C77", "title": "A runner handles its native test processes by the protocol and tells what became of them", "statement": "A runner starts its native test processes one after another, each with its own address to connect to. A process that makes the manifest is told nothing else and runs no tests; any other is told the initialization the queue gave before any test, or to exit at once if the run is over; tests go, in order, only to the running process that acknowledged, and tests of another attempt to a new process, marked as a retry. If a manifest is asked for, exactly one is sent, before any test, unless the runner is shut down: what the process said it is, or the error the runner ends with. A runner that exits waited for every process; its output is theirs, attempt after attempt, and its exit code the last one's. Every test that was received is reported once and the queue then notified once. However a runner ends, no process is left, and it ends if it is answered.", "quantifier": "all lists of received tests and attempts, all answers of the operating system, the native processes and the queue, and a shutdown at any wait", "why_tests_cant": "Each wait can fail, time out or be cut off by a shutdown, at any point of any attempt; tests fake one runner and a few of the failures.", "anchors": ["crates/abq_runners/generic_test_runner/src/lib.rs: open_native_runner_connection, retrieve_manifest, NativeRunnerHandle, run_async, run_help, execute_all_tests, handle_one_test, handle_native_runner_failure", "crates/abq_utils/src/capture_output/capture_pipes.rs: CapturePipes::finish"]}
{"id": "C78", "title": "What a worker tells the queue is taken up once, and what it asks the queue answers", "statement": "However calls of workers and of the command line interleave, and whichever connections, writes and reads fail: the queue does for a call only what the call stands for, in its order and at most once, and changes nothing that no call stands for; asking changes nothing, but that attaching starts the clock of a new run once. What was acknowledged is done; results are accounted for before the worker goes on, and stored even if the acknowledgement is lost. An answer is what the queue said for this run and worker, on a connection of that call; a worker of another version goes no further. A call asks again only when told to wait, after pauses of 10, 20, 40, ... at most 3000 ms; what it tells it sends once, after at most five attempts to connect, and it panics only if these fail or no answer comes. From the address on its command line a worker is led to all the queue's servers. Results that are handed over are shown locally and counted once.", "quantifier": "all histories of any number of calls and connections of a queue, all failures of the network, all states of the queue", "why_tests_cant": "Acknowledgements can be lost and tasks of the queue be delayed at any point, between the calls of any number of workers; tests have one queue that answers at once.", "anchors": ["crates/abq_workers/src/runner_strategy.rs: notify_all_tests_run, get_init_context, send_manifest, cancel", "crates/abq_workers/src/results_handler.rs: MultiplexingResultsHandler, QueueResultsSender", "crates/abq_workers/src/test_fetching/out_of_process_retry_manifest_fetcher.rs", "crates/abq_workers/src/negotiate.rs: wait_for_execution_context, ask_queue_for_negotiator, QueueNegotiator::handle_conn", "crates/abq_queue/src/queue.rs: start_queue, QueueServer::handle, handle_cancel, handle_manifest_result, handle_worker_results, handle_worker_ran_all, WorkScheduler::handle_work_conn", "crates/abq_cli/src/report.rs: wait_for_results", "crates/abq_cli/src/health.rs"]}
{"id": "C79", "title": "The reports asked for are made, each of them holds every result, and what fails is told", "statement": "For any reporters chosen, in any order, any results and any failures of the terminal and the file system: each reporter asked for is made. In abq test each report file that can be written holds every result in the order they came, whatever happens to the other reporters, other files are left alone, and every file that could not be written is told; the reporters on the terminal are told every result with its attempt. In abq report, if it ends with the suite's exit code, every report file holds every result in the order of the report, every line was written, and a summary of each failing attempt is printed, in order, with blank lines exactly between them. A JUnit file has a case for each result with its name, time, outcome and message, its counts are those of the results, and it counts no failure exactly if the suite succeeded. What a runner's processes wrote while tests ran is shown exactly once: while it runs if there is one runner and no reporter is on the terminal, otherwise at the end; and so is what was written when tests were listed.", "quantifier": "all lists of reporters, sequences of results, orders of maps, failures of writing and finishing of each reporter, numbers and exits of runners", "why_tests_cant": "Each reporter is tested alone and on a terminal and a file system that work; combinations, failures of one of several and the interplay with output capture are not.", "anchors": ["crates/abq_cli/src/reporting.rs: ReporterKind, build_reporters, reporter_from_kind, JunitXmlReporter, RwxV1JsonReporter", "crates/abq_cli/src/report.rs: process_results, handle_result, print_report", "crates/abq_cli/src/workers.rs: start_workers_standalone, do_shutdown, print_manifest_generation_output", "crates/abq_cli/src/workers/reporting.rs: ReportingTask, FinalizedReporters", "crates/reporters/junit_xml/src/lib.rs: Collector", "crates/reporters/line/src/lib.rs: LineReporter", "crates/abq_utils/src/net_protocol.rs: RunnerMeta::pipes_to_parent_stdio"]}
{"id": "C80", "title": "A queue's servers come up, serve every connection once, and end when and only when the queue is ended", "statement": "For every history of arrivals, accept loops, failures, handlers and of what the owner of the queue does: the queue comes up unless it cannot bind a port or is ended. While it is live every server takes connections and hands the next one that waits to a handler whenever its loop gets to it. The connections of a server cease to wait in the order they came, each once, and a handler is spawned exactly for each that was handed over and for each timeout; if no accept fails and the queue is not ended, each connection was handed over or waits. A server ends only if the queue was shut down, dropped or could not be started; what becomes of handlers and of accepts makes no difference. A shutdown sends its message once, comes to its end in every history in which the loops and the shutdown are run, and afterwards no connection is taken and nothing is handled. The handlers at work are waited for, and dropping a queue ends its servers.", "quantifier": "all histories of starting, arriving, accepting, failing, timing out, handling, retiring, shutting down, joining and dropping, in any interleaving", "why_tests_cant": "A test shuts an idle queue down once; a connection that arrives while a loop has seen the message, a failing accept in between, a bind that fails after a server was spawned and a drop without a shutdown are schedules.", "anchors": ["crates/abq_queue/src/queue.rs: Abq::shutdown, Drop for Abq, start_queue, QueueServer::start, WorkScheduler::start", "crates/abq_workers/src/negotiate.rs: QueueNegotiator::start, QueueNegotiator::join", "crates/abq_utils/src/server_shutdown.rs: ShutdownManager, ShutdownReceiver"]}
{"id": "C81", "title": "The requests and jobs of a queue do not block each other for ever, and a silent client or remote store holds up only those who need the same file", "statement": "For every set of requests and jobs (assigning runs, manifests, tests, results, their reading, statuses, cancelling, retries, timeouts, offloading), whichever branches they take, and every schedule: who has a lock exclusively is the only one who has it. If clients and the remote store answer, a state in which nobody can go on is one in which every request is finished and no lock is held, and every scheduler that lets someone go on who can brings all of them to their end, in a number of turns known before. If some clients or the remote store never answer, every other request comes to its end or waits for a file that such a request has; a manifest file only behind one who has the same file; a request that uses no files always comes to its end. The results of one run are not held up by those of another.", "quantifier": "all finite sets of requests and jobs of the queue, all their branches, all numbers of runs, all schedules, all choices of who gets a lock first, all sets of silent clients and of calls to the remote store without an answer", "why_tests_cant": "A deadlock needs a particular interleaving of several requests; a test runs few requests with clients that read at once.", "anchors": ["crates/abq_queue/src/queue.rs: AllRuns, QueueServer::handle, WorkScheduler::handle", "crates/abq_queue/src/persistence/results/fs.rs: FilesystemPersistor::with_file, run_offload_job", "crates/abq_queue/src/persistence/manifest/fs.rs: FilesystemPersistor::lock_and_open, get_view, dump", "crates/abq_queue/src/timeout.rs: RunTimeoutManager"]}
{"id": "C82", "title": "The summary at the end of a run tells who failed and retried how many tests in which file", "statement": "For every result of a run, grouped by worker (abq report) or by runner (abq test): who reads the printed summary learns the number of tests, of failures and of retried tests, the two times to within six milliseconds, and for every worker (runner) that has any, in order, each file with the number of failed tests of that file that it was first to run, and likewise of retried ones; nobody and no file else is listed, and two summaries that look the same tell the same. The colours are taken back: nothing printed afterwards is coloured, no line end is, and something is red exactly if a test failed, yellow exactly if one was retried.", "quantifier": "all histories of results, all orders in which hash maps are walked through, all numbers of workers, runners and files, all names of files, all times below thirty thousand years", "why_tests_cant": "Tests compare a few literal summaries; that no two results are printed alike, for all names of files and all counts (also those wider than the column), needs all of them.", "anchors": ["crates/abq_reporting/src/output.rs: format_short_suite_summary, ShortSummary::grouped_runner_summaries, RunnerSummary::union, format_duration_to_partial_seconds, with_color_spec", "crates/abq_cli/src/reporting.rs: SuiteResult::write_short_summary_lines"]}
{"id": "C83", "title": "What a queue stored of a run, later queues keep to", "statement": "Queue processes follow each other on one remote store, each ending at any point. Once the state of a run was stored, every process says of the run only what holds of an ended run, with the stored exit code, metadata and command: workers that had a place in it before its last test was given out are told to go on with the tests they had, others that it is done; it is not given out again, takes no manifest and is not cancelled; a fatal error is told only if the store could not be consulted. If its state was never stored, it starts over in a new process. If one process stored state and manifest, a worker that comes back is given exactly the tests it was sent or about to be sent then, unless loading fails. Results that the store has begin all that is streamed for the run later.", "quantifier": "all sequences of processes, on the same disk or another, all points at which they end, all schedules of requests, writes and the two tasks that store state and manifest, all failures of each", "why_tests_cant": "Tests restart a queue at a few chosen points with a store that works; which of two concurrent stores a crash cuts off, and in which of several lives of a run, they do not range over.", "anchors": ["crates/abq_queue/src/queue.rs: AllRuns::try_create_run, try_load_remote_run, start_persistent_next_tests_requests_task, run_manifest_persistence_task, run_persist_run_state_task, fetch_persisted_manifest", "crates/abq_queue/src/persistence/run_state.rs: PersistRunStatePlan", "crates/abq_queue/src/persistence/manifest.rs: make_persistence_task", "crates/abq_queue/src/persistence/results/fs.rs: FilesystemPersistor"]}
{"id": "C84", "title": "abq report says of a run what its workers said together", "statement": "When all workers of a run have finished and the queue streams their reports, each once, in any order and any lines, then abq report counts as many tests, failed tests and retried tests as the workers together, shows the same results of attempts, and exits with the worst of the codes of the workers' suites: 101 if one saw an internal error, else 1 if one saw a failure, else 0; provided that no later attempt at a test has an earlier time stamp. It does end with a code if one native runner did not crash; with a crashed one the code is 101. If all workers' processes exited with 0 so does abq report, and if it exits with 0 so does every worker that was not signalled and whose native runners exited with 0.", "quantifier": "all manifests, numbers of workers and runners, schedules, crashes of native runners, results of attempts, orders in which reports reach the queue and the workers' reporters, and sorting algorithms", "why_tests_cant": "Tests compare a report with a worker's output in a few runs; that the two trackers, fed in different orders by different processes, agree needs all interleavings.", "anchors": ["crates/abq_cli/src/report.rs: process_results", "crates/abq_cli/src/report/ordered_results.rs: OrderedAssociatedResults", "crates/abq_cli/src/reporting/summary.rs: SuiteTracker", "crates/abq_cli/src/workers/reporting.rs: reporting_task", "crates/abq_workers/src/results_handler.rs: MultiplexingResultsHandler::send_results"]}
{"id": "C85", "title": "abq health calls a service healthy only if it is", "statement": "abq health prints one line for each service it was given, first queues, then work schedulers, then negotiators, and exits with 0 if all lines say healthy, else with 1; with no service it is an error of usage. Whatever the network does, a line says healthy only if something at that address answered so: a server of a queue does only for those who send one of its tokens (or none, if it has none), and the version printed is the server's. If all addresses have such servers and no conversation breaks the code is 0. It should end with a code whoever is at the addresses, tell services of different kinds apart, and take the token its help names.", "quantifier": "all lists of addresses, tokens, versions, things that may be at an address (nobody, servers, anything that answers with any bytes), and behaviours of the network: connections refused, reads of any sizes, breaks after any number of bytes", "why_tests_cant": "Tests check one service up and one down; that no reply or break at any byte makes a healthy line needs all of them.", "anchors": ["crates/abq_cli/src/main.rs: Command::Health", "crates/abq_cli/src/health.rs: HealthCheckKind::get_health", "crates/abq_queue/src/queue.rs: QueueServer::handle, WorkScheduler::handle_work_conn", "crates/abq_workers/src/negotiate.rs: QueueNegotiator::handle_conn", "crates/abq_utils/src/net_protocol.rs: health", "crates/abq_cli/src/args.rs: Health"]}
{"id": "C86", "title": "The JSON report, as the file that others read, tells what was told", "statement": "The bytes of the JSON report are one JSON document, and no beginning of them (what is left if writing fails) is one. In the document: the schema and the framework (known ones by name, others as other with what the native runner said); each test once, by its id, and only tests of which results were told; for each test its name, lineage and place, and every attempt told of it in the order told, with its duration, times, outputs, kind of ending, message, exception, backtrace, the native runner's metadata and the worker and runner that told it; numbers in the summary that count the tests of the document by how they ended, the retried ones and the errors; failed if and only if a test's last attempt failed, timed out or was canceled or there is an error; each error of a native runner by its message.", "quantifier": "all lists of results of any tests, statuses, past attempts, metadata (JSON nested up to 120 deep), orders of the map of tests, specifications of native runners, decodings of outputs and roundings of times, all prefixes of the file", "why_tests_cant": "Tests snapshot three reports; that every result survives into readable JSON, with counts that fit and no cut file taken for whole, needs all results and all prefixes.", "anchors": ["crates/reporters/rwx_v1_json/src/lib.rs: Collector::push_result, Collector::write_json, Attempt::from, Summary::account, TestResults, Framework", "crates/abq_cli/src/reporting.rs: RwxV1JsonReporter"]}
{"id": "C87", "title": "Commands use the access token that the last login was given", "statement": "A command with a token on its command line uses that. Without one it uses the token that the last abq login to the configuration file it reads was given, if that login said it was done; wherever that login got to or was killed, it uses its token or none, never another one. A login writes only the file that ABQ_CONFIG_FILE names, or the conventional one if that is not set; with ABQ_CONFIG_FILE set to nothing no login succeeds and no file is read or written. Other files stay as they are. A typed token is taken without the white space around it, one on the command line as it is.", "quantifier": "all tokens, environments, earlier contents of files, numbers of logins to any files, sizes of writes, failures of any file operation, points at which any login is killed and interleavings with commands that use a token", "why_tests_cant": "Tests log in once, to a new file; that no failure, crash point or earlier login makes a command use another token needs all histories.", "anchors": ["crates/abq_cli/src/abq_config.rs: write_abq_config, read_abq_config, abq_config_filepath", "crates/abq_cli/src/main.rs: Command::Login, get_abq_config_filepath, Command::Test (access_token)", "crates/abq_hosted/src/access_token.rs: AccessToken"]}
{"id": "C88", "title": "What ABQ's processes say to each other is what the other side hears", "statement": "Every request to the queue, the work server and the negotiator, and every answer, is read by the other side as exactly what was sent, however its bytes come, if the client has a token that the server admits: never as another message, and it is read if the reading goes on. A client that is not admitted is never heard. Whatever bytes a server is sent, what it takes is a request whose values are of the types of the code (a batch size is not zero, a command hash has 32 bytes), and with tokens it was shown one of them. What two servers both read is the question for their health. Acknowledgements and requests for the next tests are only told from other things by being JSON objects.", "quantifier": "all messages of all protocols (manifests and results at most 123 deep, frames below 2 GiB; of clients that are not admitted below 800 MB), all tokens, all splittings of the bytes and schedules of the reader without cancellation between header and body, and for the reading side all bytes", "why_tests_cant": "The messages are nested values of unbounded size and the readers are state machines over streams; tests send a few messages whole.", "anchors": ["crates/abq_utils/src/net_protocol.rs: queue::Request, queue::Message, queue::NegotiatorInfo, queue::RunStatus, queue::TestResultsResponse, work_server::Message, InvokeWork", "crates/abq_workers/src/negotiate.rs: MessageToQueueNegotiator, MessageFromQueueNegotiator, ExecutionContext", "crates/abq_workers/src/assigned_run.rs: AssignedRun", "crates/abq_utils/src/net_async/tcp.rs: handshake"]}
{"id": "C89", "title": "A queue is what its options say, and whoever has its address, token and certificate finds the way to its servers", "statement": "If `abq start` starts no queue, the reason it gives is one: a file it cannot read, a certificate and key that do not fit, a temporary directory that cannot be made, a store it cannot have, a schedule that is none, an address it cannot bind. Otherwise all servers of the queue hear only who shows one of its tokens, if tokens were given, and whose TLS fits the certificate that was given. They are bound to the address and ports of the options, each to its own, and what is printed says so. Manifests and results are kept in the directories of the options, or in temporary ones that exist; the stores and the offloading jobs are those of the options. A client that has the printed address, a token, a fitting certificate and the queue's version is led, through the negotiator, to the work server and the results server of this queue. Every way into a queue leads through its public IP address. The queue of a local run leads its workers to its own servers and hears only who has one of its tokens.", "quantifier": "all command lines of `abq start`, all hosts (which files can be read, which addresses bind, which temporary directories can be made), all clients with any tokens and certificates anywhere", "why_tests_cant": "Options, host and network vary independently; tests start queues on the loopback interface where the default public address works.", "anchors": ["crates/abq_cli/src/main.rs: abq_main (Start), find_or_create_abq", "crates/abq_cli/src/args.rs: Command::Start", "crates/abq_cli/src/instance.rs: start_abq_forever, AbqInstance::new_ephemeral, AbqInstance::from_remote", "crates/abq_cli/src/local_persistence.rs", "crates/abq_queue/src/queue.rs: start_queue", "crates/abq_utils/src/net_opt.rs: ServerOptions, ClientOptions", "crates/abq_workers/src/negotiate.rs: QueueNegotiator, QueueNegotiatorHandle"]}
{"id": "C90", "title": "What abq asks and tells the hosted service, and that this does not change how abq test ends", "statement": "To find the queue of a run, the hosted service is asked at <base>/queue with the access token and with the run id, which it reads as it was given whatever bytes it has. At the end of a worker the service is told exactly if the run is on a queue at an address, a token is known, some runner learned about its native runner, and the request can be made. It is then told, at <base>/record_test_run and with the same token it was asked with, the run id and the name, version and host of the first native runner that is known, and nothing else. It is told once, and once more in the same words exactly if it answered with a failure. A local run, or one on a queue of its own, tells nothing. The exit code of the worker does not depend on any of this, and the worker exits.", "quantifier": "all base URLs, access tokens, run ids, native runners, ends of all runners of a pool, command lines and environments, and all sequences of answers, failures and silences of the service", "why_tests_cant": "Tests talk to a mock service that answers, with one run id of plain letters; what the service does, which runners know their native runner and how the worker ended vary independently.", "anchors": ["crates/abq_hosted/src/notify.rs: record_test_run_metadata, try_n_times", "crates/abq_hosted/src/config.rs: HostedQueueConfig::from_api", "crates/abq_hosted/src/access_token.rs", "crates/abq_cli/src/workers.rs: do_shutdown, TestRunMetadata", "crates/abq_cli/src/main.rs: abq_main (Test), get_hosted_api_base_url", "crates/abq_workers/src/workers.rs: WorkerPool::shutdown"]}
{"id": "C91", "title": "The JUnit report, as the XML file that others read, tells what was told", "statement": "Whatever results a run told, the JUnit report that abq leaves is a file that a program reading XML accepts. It finds every result in it, in order, with its name, whether it succeeded, failed, errored, timed out or was skipped, and, if something went wrong, what the test printed, without terminal colours; and the numbers of tests, failures and errors and the times add up. The texts are read as they were told.", "quantifier": "all lists of results with all names, outputs, statuses and run times, all ways of displaying times, and all runs of abq test with all reporters, batches and failures of the other reporters", "why_tests_cant": "Tests compare the file for a few names and outputs made of letters; whether a file is XML depends on every character of every name and output, and on how marks, line ends and colours in them are written.", "anchors": ["crates/reporters/junit_xml/src/lib.rs: Collector::push_result, write_xml", "crates/abq_cli/src/reporting.rs: JUnitXmlReporter", "crates/abq_cli/src/workers/reporting.rs"]}
{"id": "C92", "title": "A worker's runners are told who they are, and a worker started again gets its tests again", "statement": "`abq test -n N` starts N runners (N a positive number, or one less than the host's cores but at least one, or the option is refused). Every process of the i-th runner of worker w finds ABQ_WORKER=w, ABQ_RUNNER=i and the address of its own runner, whatever the environment of the worker says, so no two runners take themselves for one another; the queue tells them apart by the same numbers. Of all runners of all workers of a run at most one is asked for the manifest. A worker that is started again for its run is given every test that its runners had been given.", "quantifier": "all texts of the option, numbers of cores, numbers of workers and runners, environments, executions of the runners, and all histories of the queue", "why_tests_cant": "Tests start one or two runners; that environments, tags and manifests of any number of runners and workers never mix, and what happens to the tests of a runner that no longer exists, is about all histories.", "anchors": ["crates/abq_cli/src/args.rs: NumRunners::from_str", "crates/abq_cli/src/main.rs: validate_abq_test_args, num_runners", "crates/abq_workers/src/workers.rs: WorkerPool::new", "crates/abq_workers/src/runner_strategy.rs: RunnerStrategyGenerator::generate", "crates/abq_utils/src/net_protocol.rs: set_abq_runner_env_var", "crates/abq_workers/src/negotiate.rs: wait_for_execution_context"]}
{"id": "C93", "title": "A cancelled run: what its workers run, are told, and what their exit codes say", "statement": "If a run is cancelled while its workers are at work (a signal to one of them, or the progress timeout), the others run only what they had been given before: no request takes another test, no attempt is reported twice or by two runners, every runner still returns after a bounded number of steps, and what has been run then is a first part of the manifest. A worker that exits with 0 still vouches for all tests it was given. If all workers exit with 0, all tests of the manifest have passed. A worker that comes later is told that the run was cancelled and why, prints it, and exits with the code for an error.", "quantifier": "all manifests, numbers and batch sizes of runners, interleavings of their requests, all moments at which the run is cancelled, crashes and results of native runners, and all histories of the queue for late workers", "why_tests_cant": "Tests cancel a run at one chosen moment with one worker; what the others still run, that they stop, and what their exit codes mean depends on which requests were under way.", "anchors": ["crates/abq_queue/src/queue.rs: mark_cancelled, next_work, handle_manifest_progress_timeout, get_retry_manifest, init_metadata", "crates/abq_workers/src/negotiate.rs: WorkersNegotiator::negotiate_and_start_pool", "crates/abq_workers/src/workers.rs: WorkerPool", "crates/abq_cli/src/workers.rs: do_shutdown"]}
{"id": "C94", "title": "All that workers are given comes from the one manifest of the run", "statement": "Once the queue took a manifest for a run, everything it ever answers for that run is out of that manifest: tests handed out, and tests given again to a returning worker, are tests of it in their first attempt; the setup given to native runners is the one that came with it; what is to be stored at the end is all its tests in their order, that setup, exit code 0 and the command of the worker that generated it. Later manifests, other runs and the order of requests change none of it. Without a manifest nothing is given, unless the run is one that was over and whose state was loaded: then workers get no tests and the stored setup.", "quantifier": "all histories of the queue: all numbers of runs, workers, requests and manifests, in all interleavings, before and after the manifest", "why_tests_cant": "Tests send one manifest to one run and look at the first answers; that no later event can mix in another manifest's tests or setup concerns all continuations.", "anchors": ["crates/abq_queue/src/queue.rs: add_manifest, init_metadata, next_work, get_retry_manifest, try_mark_reached_end_of_manifest, find_or_create_run"]}
{"id": "C95", "title": "JSON is read however it is written, and only JSON is", "statement": "Messages of native runners, results, manifests and stored run states that are JSON of the standard (RFC 8259) and nested less than 128 deep are read as the value that was meant, whichever blanks stand between the parts and whichever escapes the writer's library chose. A text has one meaning at most; texts nested deeper are refused; texts that are not JSON are refused. What ABQ writes is such JSON, so other readers take it for the same value.", "quantifier": "all texts, of any length and depth, and all values", "why_tests_cant": "Tests read what the project's own library wrote; native runners are written in other languages, whose libraries put blanks, escapes and members differently.", "anchors": ["crates/abq_utils/src/net_protocol.rs: read, write, async_read, async_write, read_results_lines", "crates/abq_runners/generic_test_runner/src/lib.rs: wait_for_manifest, send_and_wait_for_test_results", "crates/abq_queue/src/persistence/results/fs.rs, crates/abq_queue/src/persistence/manifest/fs.rs, crates/abq_queue/src/persistence/run_state.rs: serde_json::from_slice, from_reader"]}
