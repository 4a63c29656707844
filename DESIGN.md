# Formal model of abq: design

All models are executable Gallina definitions under `rocq/theories`, proved in Coq 8.16.1 with the standard library only.
For every area there is `XModel.v` (definitions only, each citing `/repo` lines), `XSpec` definitions that state the English property without the model's helpers,
`XProofs.v` (lemmas) and `XProps.v` (property theorems, `exact lemma`, `Print Assumptions`, non-vacuity examples).
Where the code violates a property the file holds a `_refuted` theorem with a concrete witness, and a `_partial` theorem giving the exact guard under which it holds.

## Plan per property

| id | property | model | proof |
|---|---|---|---|
| C01 | No test is handed out twice | JobQueueModel: shared memory {ptr, assigned} + per-request programs as small-step machines (fetch_add; branch; store; per-test owner write; end read) | invariant over all interleavings (induction over steps): claimed ranges are pairwise disjoint; ptr >= max claimed |
| C02 | Every test is handed out exactly once, in manifest order | same model | claimed ranges tile [0,min ptr len); concatenation lemma |
| C03 | By-file strategy never splits a file across requests | same model, fetch_update closure as recursive walk | walk lemma: end is a group boundary or the end; invariant ptr always on a boundary |
| C04 | End-of-work is truthful and polling terminates | same model plus the later is_at_end read | monotonicity of (ptr >= len) |
| C05 | A worker's retry partition is exactly what it was handed | same model, owner cells | invariant: cell i = tag iff i in a finished write of tag |
| C06 | Persisted manifest partitions equal live partitions | ManifestViewModel: swap loop over list | loop invariant => filter |
| C07 | One manifest generator per run | RunModel: the AllRuns API as a step machine over histories, creation split at lock boundaries | invariant over histories |
| C08 | Run outcomes are final | RunModel | step case analysis, induction |
| C09 | Active-run count is exact | RunModel, num_active as u64 with wrap | invariant; refuted for double cancel, proved under a no-double-cancel guard |
| C10 | Manifest persistence is scheduled exactly once per completed run | RunModel | invariant over history |
| C11 | Worker assignment answers | RunModel | refinement to a history-based spec |
| C12 | Result retrieval is gated on completeness | RunModel + results cell | invariant over histories incl. plan states |
| C13 | Progress timeout cancels exactly stalled runs | RunModel timeouts | step lemma + history |
| C14 | Late or duplicate manifests are rejected | RunModel | step case analysis |
| C15 | Batch size bounds | RunModel + JobQueueModel | arithmetic |
| C16 | Worker sets hold one entry per worker | WorkerSetModel | refinement to association function |
| C17 | Results persisted to the remote once final | ResultsCellModel interleaving | refuted with schedule; guarded positive |
| C18 | Pending-write counter is exact | ResultsCellModel | counter invariant |
| C19 | Local results file equals the sequence of dumps | ResultsFsModel: file system, fd cache, remote | refinement to list of dumps under remote success; refuted under transient remote errors |
| C20 | Results codec round trip | abstract packed-line codec over bytes | list induction; JSON printer assumed newline-free and invertible as section hypothesis |
| C21 | Persisted manifest round trip | ManifestFsModel | refuted (no truncation, fd offset) + guarded |
| C22 | Offload never discards the only copy | fs models with failure oracle per step | case analysis |
| C23 | Offload eligibility | OffloadModel | arithmetic |
| C24 | Remote keys are collision free | KeyModel over strings | string injectivity |
| C25 | Run-state schema check | RunStateSchemaModel: parser oracle | refuted + guarded |
| C26 | Framed messages round trip over any chunking | WireModel: byte lists, header arithmetic, chunked transport | induction over chunks |
| C27 | Reads are cancel safe | AsyncReader state machine with cancellation | refuted + guarded |
| C28 | Truncated streams are never accepted | WireModel | induction |
| C29 | Length header is faithful | header codec with mod 2^32 | arithmetic; refuted >= 2^31 |
| C30 | Flattening a manifest | FlattenModel | stack invariant => recursive DFS spec |
| C31 | In-process retry manifest | RetryModel | refinement to history spec |
| C32 | Attempt bound | RetryModel + FetcherModel | measure |
| C33 | Retried tests focus on all failures | RetryModel | refuted + guarded |
| C34 | Fetcher delivers sources in order without loss | FetcherModel | refinement |
| C35 | A lost response does not lose tests | queue + fetcher composition with a lossy connection | refuted |
| C36 | Message buffer is lossless FIFO and never blocks its refill | RunnerModel: producer, runner and sender tasks interleaving at their awaits, with FetchModel | invariant |
| C37 | A crashing native runner never hangs the worker | RunnerModel | refuted (livelock) + progress and a decreasing measure |
| C38 | Buffered results are sent once, in order | RunnerModel | invariant |
| C39 | Worker pool exit code | PoolModel fold | refuted + what holds |
| C40 | Liveness counter | PoolModel (LiveCount), all interleavings of signals, polls, drops | invariant |
| C41 | Report order is canonical | ReportModel (BinaryHeap: any sorting function) | Permutation/Sorted |
| C42 | Suite outcome | ReportModel (SuiteTracker with its cache, any map order) | refinement to per-test history spec; refuted cases |
| C43 | A report is never produced from incomplete results | ReportModel | iff |
| C44 | Runner summaries add up | ReportModel (summaries and their grouping) | sum lemma |
| C45 | Reporter option syntax round trip | string model | refuted + guarded |
| C46 | JSON report adds up | RwxModel: the collector and its report | fold invariants; two exceptions refuted |
| C47 | Token syntax | token model over bytes | string lemmas; refuted trailing part |
| C48 | Authentication soundness | auth decision | case analysis |
| C49 | Command identity | hash modelled as an injective function of the hashed byte string | refuted |
| C50 | VecMap behaves as a map | VecMap model | refinement to finite map |
| C51 | Backoff bounds | decay/retry model | induction |
| C52 | Captured output is complete | CaptureModel: two copying tasks with short writes, drains, close and finish | invariant over all interleavings; finish after close refuted |
| C53 | Periodic jobs do not overlap | InstanceModel: calls of the job interleaved, with aborted calls | invariant; progress refuted after an abort |
| C54 | Termination signals | InstanceModel: signal thread, channel and loop around the queue's RunModel | invariant; both halves refuted |
| C55 | Hosted API retries are bounded | hosted retry model | induction |
| C56 | Dot reporter line breaks | dot model | induction |
| C57 | A read's memory is bounded by the announced message | WireModel | invariant; refuted case |
| C58 | A manifest handed out in full is persisted | ConnModel | invariant; refuted case |
| C59 | Reporters see every result once | ReportModel (calls to reporters) | induction |
| C60 | Listing a runner's tests | ReportModel (list_tests) | sorting lemma |
| C61 | Hosted configuration | UtilModel (from_api) | case analysis |
| C62 | Progress reporter counts | TermModel (progress) | invariant over calls |
| C63 | Failure summaries show output in full | TermModel (summary) | induction; refuted heading |
| C64 | Output is attributed to tests | OutputModel (one native runner after another, messages, arriving output) | invariant over all histories; refuted cases: empty replies, several results, crashes |
| C65 | Every test a worker received is reported | OutputModel | invariant over all histories; refuted case: the native runner of a retry cannot be started |
| C66 | In a whole run every test is run by exactly one runner | SystemModel: the queue of JobQueueModel with any number of runners of RunnerModel, joined by requests and responses | an invariant ties each runner to a run on the responses it took; the responses are a partition of the manifest; C31_outcome per runner |
| C67 | A whole run comes to its end | SystemModel | progress by extending each runner's sources to complete ones; a measure that every effective step decreases |
| C68 | A retried worker gets the tests it ran | SystemModel | invariant on the order of a runner's requests in the queue's history, with C05 and the result for C66 |
| C69 | Attaching a worker to a run, and how its process exits | WorkerModel: the process as a state machine over answers, signals and ends of runners; joined with the queue of RunModel | invariant over all histories with a ghost log of what is asked, started and printed |
| C70 | The exit codes of the workers tell the outcome of the whole run | SystemModel (the whole run), OutcomeModel (a worker's reporting task over ReportModel) and WorkerModel (its process), joined | each runner's reports are first attempts and then retries, a case belongs to one runner, so its history at the tracker is orderly; a crash leaves a made-up result that nothing replaces; C69 for the process |
| C71 | Killed worker processes that are started again lose no test | RetriedModel: the queue of JobQueueModel and processes of RunnerModel that are started, killed, started again with a retry manifest | a runner with a retry manifest and the queue does what a runner with both in one source does (RetriedFlat); each test is claimed by one request, which is of one tag; a retry manifest read when the tag's requests are all answered has all their tests |
| C72 | A stalled run is cancelled after one to two windows | TimedModel: RunModel with a clock and an instant for every pending timeout | origin of every pending check (a moment a window before it is due, and what was read then), by induction over histories; and a bound on the next check that ends a stalled run, case by case over first and second check |
| C73 | The command line finds the right queue | CliModel: the resolution as functions of options, environment, stored token and API; the groups of args.rs as the predicate accepted | a characterisation of all the ways a command starts (started_how), from which the theorems follow; witnesses for the two refuted clauses |
| C74 | What a native runner reports is what everybody downstream reads | CodecModel: the derived writers and readers of all these types as functions between values and JSON, over the JSON texts of JsonModel; the worker's loop over messages | codec combinators with two laws (read inverts write; what is read is a value of the type, and writing it again nests no deeper), proved for each type; induction over trees of attempts; the loop against a relation of complete answers; depth arithmetic, and a witness one level deeper |
| C75 | Runners are sent the tests that the manifest describes | ManifestCodecModel: the derived writers and readers of manifests, tests and the messages that carry them, over CodecModel's combinators; flattening is FlattenModel's | the codec laws for each type, with induction over groups; a relation from the JSON of a message to the tests it tells, independent of the reader; metadata compared key by key (the last of equal keys counts); depth arithmetic, and a witness one level deeper |
| C76 | What is kept remotely is what is loaded | PersisterModel: the configuration, the three persisters as functions on the state of an arbitrary executable or bucket and the local files, with temporary files | contracts for the executable (as documented) and the bucket; what is kept is an invariant of all other operations; round trip of run states by C25; a witness of a failing load |
| C77 | A runner handles its native test processes by the protocol and tells what became of them | NativeModel: the program of a runner as a tree of waits with any answer, run_async as its executions cut off anywhere | a weakest-precondition calculus over such programs and one invariant relating the handle to the record of what was asked and answered; bounds by the same calculus; witnesses for failing retries, closed output and nested workers |
| C78 | What a worker tells the queue is taken up once, and what it asks the queue answers | CallModel: both sides as trees of waits with any answer; histories of many callers and of the tasks of their connections, with what a network can do | all traces of a call have one shape (turns of attempts, a request and an answer), all paths of a server's program are gone through; the two are put together by the numbers of connections |
| C79 | The reports asked for are made, each of them holds every result, and what fails is told | ReportersModel: the list of reporters with what each was told, files as a map from paths, failures as parameters; the tracker of ReportModel and the pool of PoolModel are used as they are | every reporter grows by exactly the results told; the last one to open a path decides its file; exit code by C42's description of the suite |
| C80 | A queue's servers come up, serve every connection once, and end when and only when the queue is ended | LifeModel: three servers with their backlogs and accept loops, the broadcast channel of the shutdown, the owner's steps and the handlers, as one transition system with a log of what can be seen | an invariant of where the owner is against the phases of the servers; conservation of connections; a simulation for the handlers; monotonicity for the shutdown |
| C81 | The requests and jobs of a queue do not block each other for ever, and a silent client or remote store holds up only those who need the same file | LocksModel: each request as the sequence of locks it takes and releases and of what it waits for, for every branch; a machine with shared and exclusive locks, queues for them and a pool of blocking threads | an order of the locks that every request keeps (checked by computation for each branch, symbolically in the run); the holder of the highest lock that is waited for can go on; a measure of the turns left |
| C82 | The summary at the end of a run tells who failed and retried how many tests in which file | SummaryModel: the calls made to the coloured writer, text as code points, hash maps as lists in any order, trees as sorted lists; SummarySpec: a reader of the text, line by line | the text is a list of lines without line feeds; each is read back as what it was made from; an invariant of the grouping gives the sums; together with C44 the numbers of tests |
| C83 | What a queue stored of a run, later queues keep to | RestartModel: processes of ServerModel one after the other, with the tasks that store a run's state and manifest, the loads of manifests, the store and the disk; RestartSpec: what may be said of a run that ended | invariants over all processes: what the store has, what the process knows and what its tasks are to store agree, from the step that stored it on; the log of a process is the log of its runs; the store's results are a prefix of the file |
| C84 | abq report says of a run what its workers said together | whole runs of SystemModel, the workers' reporting tasks of OutcomeModel and the report of ReportModel; AgreeSpec: which lines tell of a run, and who is handed what | a fetcher hands out attempts in order (an invariant of its whole history), so a runner's reports about a test are sorted by attempt; so are the report's; hence both trackers see each test's reports in the same order, and what they sum up is a sum over tests |
| C85 | abq health calls a service healthy only if it is | the command as a fold over services; the conversation in bytes: handshake of AuthModel, frames and reads of WireModel, JSON forms of CodecModel, any place at the other end | decoding lemmas of the framing, the token check and the codecs composed; induction over the services |
| C86 | The JSON report, as the file that others read, tells what was told | the collector and the reports' records with their JSON forms as codecs (CodecModel), the file as the bytes that serde_json writes | codecs lawful; nesting bounded; invariants of the collector by induction over the results; statements about the JSON value read back from the file |
| C87 | Commands use the access token that the last login was given | logins as processes that open, truncate and write a file at their own offset in any number of writes, interleaved with each other and with readers; TOML as an oracle with a contract that one-line strings are shown to meet | invariant that each file is a prefix of what its last truncater writes, by induction over the events |
| C88 | What ABQ's processes say to each other is what the other side hears | the derived serde forms as codecs (a combinator for externally tagged enums, one for structs), socket addresses as their texts, the handshake of AuthModel and the readers of WireModel | one law for all codecs, that what is written is read back and what is read can be written; proved for each combinator and so for each message; composed with the invariants of the framing |
| C89 | A queue is what its options say, and whoever has its address, token and certificate finds the way to its servers | the start of a queue as a function of options and of oracles for the host (files, TLS material, binding, temporary directories), with the services it leaves listening; attaching as dialling these services with a client's token and certificate | case analysis of the start-up for all options and hosts; attaching by following the addresses that were published |
| C90 | What abq asks and tells the hosted service, and that this does not change how abq test ends | requests as values (method, URL, headers, body), the retry loop over any sequence of replies of the service, the end of a worker with the pool's and the worker's models, the command line with CliModel | case analysis for all replies; the query and the body are read back by independent readers (form decoding, the JSON reader of JsonModel) with inverse theorems by induction; the exit code is compared with the worker's model, which knows nothing of the service |
| C91 | The JUnit report, as the XML file that others read, tells what was told | the file as a list of characters, written as the expected files of the repository's tests show it; an XML reader of its own in the specification (characters, line ends, white space of attributes, entities, tags) | the written text is shown to be that of a tree; reading what a tree writes is proved by induction over trees with fuel; composed with the model of all reporters of abq test |
| C92 | A worker's runners are told who they are, and a worker started again gets its tests again | the parsing of the option, the set-up of each runner of a pool and its environment; composed with the models of native runners and of the queue's runs | decimal texts by induction from the right; environments over all executions of NativeModel; retry manifests over all histories of RunModel |
| C93 | A cancelled run: what its workers run, are told, and what their exit codes say | the system of SystemModel (queue and runners) with a step that cancels the run, possible when no request holds the run's lock; later requests get no tests and the end of work | a simulation: a cancelled run is one of SystemModel's runs in which runners get an end of work in place of their next request; the invariants and measures of C66, C67 and C70 carry over |
| C94 | All that workers are given comes from the one manifest of the run | the queue of RunModel; 'taken' is the answer of the queue to the manifest | an invariant of the run's state (its job queue and setup are those of the manifest) kept by every step, with the answers of each step checked against it; for the converse, a case analysis of the steps that leave the state without a manifest |
| C95 | JSON is read however it is written, and only JSON is | the reader and writer of JsonModel (serde_json's documented behaviour); the standard as a grammar in SpellSpec: which texts spell which value | the reader against the grammar in both directions, by induction over the grammar and over the depth; uniqueness of the meaning follows |

## Trusted base

What a reader must trust, beyond reading the statements:

1. **Coq's kernel** (8.16.1; `coqchk` agrees on the compiled files). No kernel check is switched off, no plugin is used, no library besides Coq's own standard library is imported.
2. **Axioms: none.** Every property theorem is followed by `Print Assumptions`, and each prints `Closed under the global context`. (`coqchk` lists the axioms of `Coq.ssr.ssrunder`, which is part of the standard library's `ssreflect` support that is loaded with it; no theorem here depends on them.) Nothing is `Admitted`; `Context`, `Variable` and `Hypothesis` occur only inside sections and so become visible premises of the closed theorems.
3. **The reading of the Rust code into Gallina.** Every definition of a `*Model.v` cites the lines it models and its simplifications. The model is written by hand; nothing checks it against the source but a reader, and the seeded bugs (`seeded/LOG.jsonl`), which show that the theorems notice changes of the models.
4. **Contracts of external code**, taken as follows.

| external | how it is taken | where |
|---|---|---|
| atomics (`SeqCst`, `abq_utils/src/atomic.rs`) | each access is one step; interleavings are the semantics | JobQueueModel, ServerModel |
| `parking_lot`/`tokio` locks | what runs under an exclusive lock is one step; where the code lets a lock go, another operation can come between | RunModel, ServerModel, ResultsFsModel |
| tokio tasks, `select!`, `join!`, channels | any interleaving at awaits; which ready branch of `select!` wins is an input; `mpsc` channels are FIFO with their capacity, `oneshot` delivers at most once | RunnerModel, PoolModel, InstanceModel, CaptureModel, WorkerModel |
| `tokio::io::{copy, write_all}` | `write_all` writes a buffer by as many `poll_write`s as needed or fails; `copy` alternates reads and `write_all` and flushes at the end | CaptureModel |
| serde_json | an explicit printer and parser of JSON text with its recursion limit (JsonModel); floats, big numbers and number ranges are left out: a number is its text | JsonModel and its users |
| `{:.2}` of an `f64` | a number of milliseconds below 2^50, divided by 1000, is shown to the nearest hundredth, ties to either side (a contract, `nearest`) | SummaryModel |
| `#[derive(Serialize, Deserialize)]` of payload types | of test results, from the runner's protocol to the results file, and of manifests and tests, from the runner's manifest to the messages that runners are sent: written out and proved to invert each other (CodecModel, ManifestCodecModel); of other payload types: parameters `enc`/`dec` with the premise that `dec` inverts `enc` | CodecModel; JsonlModel, RunStateModel |
| gzip (`flate2`) | parameters with the premise `gz_ok`: decoding inverts encoding and no encoding is empty | WireModel |
| `BinaryHeap::into_sorted_vec` | any function that returns a sorted permutation (`sorter`) | ReportModel |
| `HashMap` iteration | any order (a permutation is quantified) | ReportModel |
| blake3 (hash of the test command) | any function of the hashed bytes, with a premise that it is free of collisions where that matters | AuthModel |
| the file system | files are byte strings with a length and offsets; each call succeeds or fails as an input says; `fsync` and crashes of the machine are not modelled | ResultsFsModel, ManifestFsModel |
| the remote store (S3, custom command) | a map from keys to byte strings; each call succeeds or fails as an input says | ResultsFsModel, ManifestFsModel, RunModel |
| time | instants and durations are inputs (integers); timers may fire at any time they are due, or are inputs altogether | RunModel, TimedModel, OffloadModel, UtilModel, WorkerModel |
| native test runners | any answers, in any order the protocol allows; crashes and time-outs at any point | OutputModel, RunnerModel, SystemModel |
| processes, pipes and sockets of a native runner | every call is an effect that any answer may follow; a wait can also be cut off by a shutdown; the two halves of `join!` follow each other, the race of aborting the copying of output in `close` is not modelled | NativeModel |
| the network between workers and a queue | a connection that is made gets a number of its own and reaches the server at whose port, at the public IP, it was dialled; what is read was sent on it, what is received was written to it with success; everything else can fail at any time, and what was sent with success need not arrive | CallModel |
| listeners and `tokio::sync::broadcast` | a listener that is bound keeps those who come in order until they are accepted or it is closed; a receiver is ready if a message came that it has not read or the sender is gone; binding and accepting can fail | LifeModel |
| locks and the blocking pool (`parking_lot`, `tokio::sync`, `flock`, `spawn_blocking`) | a lock is had by one exclusively or by several who share it; who asked first gets it first (tokio), or anyone who asks may (parking_lot: the order is a parameter); a thread of the pool is had until the call ends, and who waits for `flock` waits in one | LocksModel |
| junit-report, quick-xml, strip-ansi-escapes | the file is written as the files expected by the repository's tests, with the five characters that XML has names for escaped in attributes; how seconds and the time of day are displayed is any function into plain characters; stripping leaves characters out, and all control characters but line feeds (`strips`) | JunitFileModel, ReportersModel |
| the standard library's parser of numbers, `num_cpus` | decimal digits with an optional plus sign, 64 bits; any number of physical cores | SetupModel |
| `String::from_utf8_lossy`, rounding of a float of milliseconds to nanoseconds | any functions (`lossy`; `millis`, of results below 2^64) | RwxFileModel |
| `toml` (`to_string`, `from_str` of the configuration) | parameters with the contract `good_toml`: what it wrote is read back, and a text that was cut off is read as nothing or as the same token | LoginModel |
| texts of IPv6 socket addresses | parameters with the contract `addr6_ok`: what was written is read back, and it begins with a bracket | ProtocolModel |
| binding of addresses, TLS, temporary directories, the scheduler of jobs, at the start of a queue | any functions; who binds gets a port that is free, and the one asked for unless that is 0 (`binds_honestly`, a premise); whether a connection comes about is any function of the two sides' TLS (`secures`); which IP addresses lead to the queue is any property of the place of a client | StartModel |
| the hosted service and the parser of URLs | any function from texts to URLs; any sequence of answers, failures and silences; no answer comes to a request that cannot be made (`unsendable`, a premise of C90_abq_test_tells_whom_it_asked only) | TellModel |
| users, signals, workers' connections | any sequence of events | InstanceModel, WorkerModel, ConnModel |

5. **Premises about the environment that theorems state.** `sound` (tests of a manifest have different work ids; batch size and number of attempts are at least 1), `proper` (a source gives no test twice) and `in_order` (the results of a runner come in the order of its tests; it is an invariant of RunnerModel, RunnerProofs.v), `identified` (native runners name test cases consistently; C70), fewer than 2^64 writes or runners (C18, C40), well-formed file and run names (C24). Each `*Props.v` has examples that meet the premises of its theorems.

## What is modelled

| model | of | theorems in |
|---|---|---|
| AuthModel | Access tokens, authentication of connections, and the identity of test commands | AuthProps, HealthProps, ProtocolProps, StartProps, UtilProps, WordsProps |
| CallModel | Model of the conversations between workers (and the command line) and the servers of a queue: the calls a worker makes, crates/abq_workers/src/runner_strategy.rs:182-349, results_handler.rs, test_fetching/out_of_process_retry_manifest_fetcher.rs:67-124, negotiate.rs:325-446, the one of `abq report`, crates/abq_cli/src/report.rs:249-310, and of `abq health`, crates/abq_cli/src/health.rs:38-87; how a queue sets up its servers, crates/abq_queue/src/queue.rs:1615-1713, and what the servers do with a connection, queue.rs:1895-2400, 2587-2665, negotiate.rs:567-643 | CallProps |
| CancelRunModel | Model of a whole test run that may be cancelled: the system of SystemModel, in which the queue can turn the run into a cancelled one | CancelRunProps |
| CaptureModel | Model of how the output of a native runner is captured: crates/abq_utils/src/capture_output/muxer.rs and capture_pipes.rs | CaptureProps |
| CliModel | Model of how the command line of `abq test` and `abq report` decides which queue to use: crates/abq_cli/src/main.rs:69-114 (answers of the API, environment), 228-248 (inferred run id), 371-498 (`abq test`), 500-592 (`abq report`), 669-765 (resolve_config and its parts), 811-830 (arguments of the test command), 832-862 (validate_queue_location), 864-918 (find_or_create_abq), and of which options exclude each other: crates/abq_cli/src/args.rs:235-253, 330, 389, 401-413 | CliMoreProps, CliProps, TellProps |
| CodecModel | Model of the derived JSON forms (serde) of test results, from the messages of a native test runner (protocol 0.2) to the lines of the results file: crates/abq_utils/src/net_protocol/runners/v0_2.rs:139-357 (results of a runner), crates/abq_utils/src/net_protocol/runners.rs:34-39, 552-556, 584-612, 631-657, 709-738, 770-829, 863-895, 991-995 (the same for the rest of ABQ), crates/abq_utils/src/net_protocol.rs:57-75, 93-94, 123-130, 158-165, 187-191, 250-257, 291, 562-571, 590-594, 626-630, 656-684, 734-747, crates/abq_utils/src/time.rs:4-6, and what a worker makes of a runner's messages, crates/abq_runners/generic_test_runner/src/lib.rs:1165-1272 | CodecProps, HealthProps, ManifestCodecProps, ProtocolProps, RwxFileProps, SpellProps |
| ConnModel | Model of a worker's persistent connection for tests, with its failures: crates/abq_workers/src/test_fetching/persistent_test_fetcher.rs and start_persistent_next_tests_requests_task in crates/abq_queue/src/queue.rs:2667-2744 | ConnProps |
| FetchModel | Model of how a worker's runner gets its tests: crates/abq_workers/src/test_fetching/retries.rs (the tracker of in-process retries) and crates/abq_workers/src/test_fetching.rs (the fetcher) | AgreeProps, CancelRunProps, FetchProps, OutcomeProps, RetriedProps, RunnerProps, SetupProps, SystemProps |
| FlattenModel | Model of Manifest::flatten_manifest, crates/abq_utils/src/net_protocol/runners.rs:338-391, and of its use for an arriving manifest, crates/abq_queue/src/queue.rs:2075-2120 | FlattenProps, ManifestCodecProps |
| HealthModel | Model of `abq health`, down to the bytes of its conversations: crates/abq_cli/src/main.rs:593-648, crates/abq_cli/src/health.rs, and of the servers of a queue what they do with such a conversation, crates/abq_queue/src/queue.rs:1895-1912, 2006-2018, 2587-2612, crates/abq_workers/src/negotiate.rs:567-596; with the authentication of AuthModel, the framing of WireModel and the JSON forms of CodecModel | HealthProps, ProtocolProps |
| InstanceModel | Model of a queue process: its periodic jobs (crates/abq_cli/src/instance/periodic_job.rs) and its reaction to termination signals (crates/abq_cli/src/instance.rs:120-159 with crates/abq_utils/src/server_shutdown.rs and crates/abq_queue/src/queue.rs:1500-1545) | InstanceProps |
| JobQueueModel | Model of the concurrent job queue of a run: crates/abq_queue/src/job_queue.rs:17-213 and the part of crates/abq_queue/src/queue.rs:856-901 that turns a pull into a response | ActiveProps, AgreeProps, AuthProps, CancelRunProps, GivenProps, InstanceProps, JobQueueProps, OutcomeProps, RestartMoreProps, RestartOnceProps, RestartProps, RetriedProps, RunMoreProps, RunProps, ServerProps, SystemProps, TimedProps |
| JsonModel | Model of the JSON text format as serde_json writes it (compact formatter: to_vec, to_writer) and reads it (from_slice, from_str, from_reader), for the uses in crates/abq_queue/src/persistence/{results,manifest}/fs.rs, crates/abq_queue/src/persistence/run_state.rs:85-111 and crates/abq_utils/src/net_protocol.rs:754-795, 1320-1346 | CodecProps, HealthProps, ManifestCodecProps, PersistProps, PersisterProps, ProtocolProps, RwxFileProps, SpellProps, StoreProps, TellProps, WireProps, WireTimeProps |
| JsonlModel | Model of the packed lines of results | CodecProps, HealthProps, ManifestCodecProps, PersistProps, PersisterProps, ProtocolProps, RwxFileProps, SpellProps, StoreProps, WireProps |
| JunitFileModel | Model of the JUnit report as a file: crates/reporters/junit_xml/src/lib.rs:110-114 (write_xml), down to the characters of the file, for the test cases of ReportersModel (lib.rs:26-99) | JunitFileProps |
| KeysModel | Model of the names under which things are stored: crates/abq_queue/src/persistence/remote/s3.rs:91-103 (build_key), crates/abq_queue/src/persistence/remote.rs:37-60 (PersistenceKind), crates/abq_queue/src/persistence/results/fs.rs:75-98, crates/abq_queue/src/persistence/manifest/fs.rs:53-76 (get_path, run_id_of_path) | PersisterProps, StoreProps |
| LifeModel | Model of the life of a queue's servers: how they are started, how connections get to their handlers, and how they are shut down | LifeProps |
| LocksModel | Model of the locks of a queue: which requests and jobs take which locks, in which order, and what they wait for while they hold them | LocksProps |
| LoginModel | Model of `abq login` and of the access token that later commands take from its file: crates/abq_cli/src/abq_config.rs, crates/abq_cli/src/main.rs:260-293, 408-413, 536-541, 766-778, crates/abq_hosted/src/access_token.rs | LoginProps |
| ManifestCodecModel | Model of the derived JSON forms (serde) of manifests and tests, from the manifest of a native test runner (protocol 0.2) to the tests that are given to runners: crates/abq_utils/src/net_protocol/runners/v0_2.rs:31-104, 132-135 (the protocol), crates/abq_utils/src/net_protocol/runners.rs:149-155, 201-216, 316-334, 514-531 (its wrappers, which write and read what they hold), crates/abq_utils/src/net_protocol.rs:393-403, 421-470, 551-558, 662-684, 865-924, and crates/abq_queue/src/persistence/manifest.rs:22-26 | ManifestCodecProps, ProtocolProps, SpellProps |
| ManifestFsModel | Model of the file-system persister of manifests: crates/abq_queue/src/persistence/manifest/fs.rs:38-290 | PersistProps |
| ManifestViewModel | Model of the persisted manifest view: crates/abq_queue/src/persistence/manifest.rs:23-58 | GivenProps, JobQueueProps, RestartMoreProps, RestartOnceProps, RestartProps, RunProps, SetupProps |
| NativeModel | The life of the native test-runner processes of one runner: crates/abq_runners/generic_test_runner/src/lib.rs:98-1070 and 1277-1395 (open_native_runner_connection, retrieve_manifest, NativeRunnerHandle, run_async, run_help, execute_all_tests), with the output handlers of crates/abq_utils/src/capture_output/capture_pipes.rs:80-117 | NativeProps, SetupProps |
| OffloadModel | Model of crates/abq_queue/src/persistence/offload.rs:9-51 (OffloadConfig) | PersistProps, StartProps, StoreProps |
| OutcomeModel | Model of a worker's reporting task: crates/abq_cli/src/workers/reporting.rs:36-92 | AgreeProps, CancelRunProps, OutcomeProps |
| OutputModel | Model of what a worker reports of its native runner's messages and output: crates/abq_runners/generic_test_runner/src/lib.rs | OutputProps |
| PersisterModel | Model of where a queue keeps things remotely: crates/abq_cli/src/instance/remote_persistence.rs (the configuration), crates/abq_cli/src/instance/local_persistence.rs:52-71 (the local directories), crates/abq_queue/src/persistence/remote/custom.rs:34-185, s3.rs:91-183 and noop.rs | PersisterProps, StartProps |
| PoolModel | Model of the pool of runners of one worker: how it ends and how its end is awaited | AgreeProps, CancelRunProps, OutcomeProps, PoolProps, ReportersProps, TellProps, WorkerMoreProps, WorkerProps, WorkerWhyProps |
| ProtocolModel | Model of the derived JSON forms (serde) of all messages that ABQ's processes send each other: crates/abq_utils/src/net_protocol.rs:18-52, 471-558, 596-704, 840-911, crates/abq_workers/src/negotiate.rs:66-103, crates/abq_workers/src/assigned_run.rs:8-24, crates/abq_utils/src/exit.rs:6-7, crates/abq_utils/src/test_command_hash.rs:3-4; of what they hold the forms of CodecModel and ManifestCodecModel; and how a server reads its first message (AuthModel, WireModel) | ProtocolProps |
| ReportModel | Model of how results are put in order, summed up and reported: crates/abq_cli/src/report/ordered_results.rs, crates/abq_cli/src/reporting/summary.rs, crates/abq_cli/src/report.rs and the grouping in crates/abq_reporting/src/output.rs | AgreeProps, CancelRunProps, JunitFileProps, OutcomeProps, ReportProps, ReportersProps, RwxMoreProps, RwxProps, SummaryProps |
| ReportersModel | Model of the reporters of `abq test` and `abq report` taken together: which are made, what each of them is told, the files they leave, and what of the native runners' output gets to the terminal | JunitFileProps, LinesProps, ReportersProps, TermMoreProps |
| RestartModel | Model of queue processes that come one after the other and share a remote store: what a process keeps of a run whose tests are exhausted, in which order, and what the next process makes of it | RestartMoreProps, RestartOnceProps, RestartProps |
| ResultsFsModel | Model of the file-system persister of results: crates/abq_queue/src/persistence/results/fs.rs:29-416, with the remote of crates/abq_queue/src/persistence/remote/{s3,custom,noop}.rs | PersistProps, StoreProps |
| RetriedModel | Model of a whole test run whose worker processes are killed and started again | RetriedProps |
| RunModel | Model of the state of all runs of a queue: crates/abq_queue/src/queue.rs:63-192 (RunState, Run, AllRuns), 340-1436 (its operations), 1723-1771 (get_assigned_run), 2043-2130 (cancellation and manifest requests), 2409-2462 (handle_timeout) | ActiveProps, AgreeProps, AuthProps, CancelRunProps, GivenProps, InstanceProps, OutcomeProps, PersisterProps, RestartMoreProps, RestartOnceProps, RestartProps, RunMoreProps, RunProps, ServerProps, SetupProps, TimedProps, WorkerMoreProps, WorkerProps, WorkerWhyProps |
| RunStateModel | Model of the stored run state: crates/abq_queue/src/persistence/run_state.rs:17-111 | CodecProps, ManifestCodecProps, PersisterProps, RwxFileProps, SpellProps, StoreProps |
| RunnerModel | Model of the three tasks a runner executes its tests with: crates/abq_runners/generic_test_runner/src/lib.rs:905-1070 (execute_all_tests), message_buffer.rs (the buffer of fetched tests) and buffered_results.rs | AgreeProps, CancelRunProps, OutcomeProps, RetriedProps, RunnerProps, SystemProps |
| RwxFileModel | Model of the RWX JSON report as a file: crates/reporters/rwx_v1_json/src/lib.rs, from the results that a worker's or `abq report`'s reporters are given (CodecModel: test_result) to the bytes written, crates/abq_cli/src/reporting.rs:219-238 | RwxFileProps |
| RwxModel | Model of the JSON report: crates/reporters/rwx_v1_json/src/lib.rs | RwxMoreProps, RwxProps |
| ServerModel | Model of the results plane of the queue server, on top of the runs of RunModel: crates/abq_queue/src/queue.rs:903-994 (which cell a run gives to writers and readers), 2133-2261 (the summary line written for an accepted manifest), 2264-2315 (handle_worker_results), 2318-2364 (handle_test_results_request) and crates/abq_queue/src/persistence/results.rs:92-209 (ResultsPersistedCell, PersistencePlan) | ActiveProps, RestartMoreProps, RestartOnceProps, RestartProps, ServerProps |
| SetupModel | How `abq test` sets up the runners of a worker: how many there are, what each is told of itself and of the run, and what the processes it starts find in their environment | SetupProps |
| StartModel | Model of how queues are set up, and of how one finds one's way in them: crates/abq_cli/src/args.rs:69-220 (the options of `abq start`), crates/abq_cli/src/main.rs:293-366, 657-667 (the command), crates/abq_cli/src/instance.rs:46-118, 161-215 (start_abq_forever up to its loop, build_scheduled_jobs), :299-371 (AbqInstance, new_ephemeral), crates/abq_cli/src/instance/local_persistence.rs (with PersisterModel.local_dir), crates/abq_utils/src/net_opt.rs:9-62 (ServerOptions), crates/abq_utils/src/tls.rs:54-67, crates/abq_queue/src/queue.rs:1586-1685 (QueueConfig::new, start_queue), :2035-2049 (handle_negotiator_info), crates/abq_workers/src/negotiate.rs:411-445 (ask_queue), :498-528, 575-640 (QueueNegotiator::start, handle_conn), crates/abq_utils/src/net_protocol.rs:926-929 (publicize_addr) | StartProps |
| StatusModel | Statuses of test results: crates/abq_utils/src/net_protocol/runners.rs:585-629 | AgreeProps, CancelRunProps, FetchProps, JunitFileProps, LinesProps, OutcomeProps, ReportProps, ReportersProps, RetriedProps, RunnerProps, RwxMoreProps, RwxProps, SystemProps, TermMoreProps, TermProps, WordsProps |
| SummaryModel | The summary that [abq test] and [abq report] print at their end | SummaryMoreProps, SummaryProps |
| SystemModel | Model of a whole test run: the queue of JobQueueModel and any number of runners of RunnerModel that get their tests from it | AgreeProps, CancelRunProps, OutcomeProps, RetriedProps, SystemProps |
| TellModel | Model of what ABQ's command line says to the hosted service, request by request, and of how the end of `abq test` depends on it: crates/abq_hosted/src/notify.rs:8-102 (what is told at the end of a worker), crates/abq_hosted/src/config.rs:63-91 (the request for a queue), crates/abq_hosted/src/access_token.rs:9-29, crates/abq_cli/src/workers.rs:38-44, 139-236 (the end of the process), crates/abq_cli/src/main.rs:404-421, 472-478, 782-784 (what it is told with) | TellProps |
| TermModel | What the terminal shows: reporter options, the dot, line and progress reporters, and the summary of a failing test | LinesProps, ReportersProps, TermMoreProps, TermProps, WordsProps |
| TimedModel | Model of the clock of a queue and of its manager of run timeouts, around the runs of RunModel: crates/abq_queue/src/timeout.rs:40-60 (the window), 60-118 (cells), 138-184 (insert, next_timeout), crates/abq_queue/src/queue.rs:1757-1768 (the first timeout of a run), 1853-1888 (fired timeouts), 2409-2462 (handle_timeout) | TimedProps |
| UtilModel | Small utilities: VecMap, backoff, retries, requests to the hosted API. crates/abq_utils/src/{vec_map,decay,retry}.rs, crates/abq_hosted/src/config.rs | UtilProps, WordsProps |
| WireModel | Model of the framing of messages: crates/abq_utils/src/net_protocol.rs:931-1362 | HealthProps, ProtocolProps, WireProps, WireTimeProps |
| WireTimeModel | The asynchronous reader of framed messages with its clock: when the time for a message runs out | WireTimeProps |
| WorkerModel | Model of the process of one worker, `abq test`: how it attaches to a run and how it exits | AgreeProps, CancelRunProps, OutcomeProps, TellProps, WorkerMoreProps, WorkerProps, WorkerWhyProps |
| WorkerSetModel | Model of crates/abq_queue/src/worker_tracking.rs:1-101 (WorkerSet) | ActiveProps, GivenProps, InstanceProps, RestartMoreProps, RestartOnceProps, RestartProps, RunMoreProps, RunProps, ServerProps, TimedProps, WorkerSetProps |

## What is not modelled

- `abq_utils/src/tls.rs`, `net/`, `net_async/tls.rs`: sockets and TLS. Connections are reliable byte streams that can break at any byte (WireModel, ConnModel); handshakes are modelled up to the exchange of the authentication header (AuthModel).
- `abq_queue/src/persistence/remote/{s3,custom}.rs`: the AWS SDK and the external command themselves; in PersisterModel they are arbitrary functions of their own state under a stated contract, elsewhere their calls are outcomes.
- The HTTP client (`reqwest`, `url`): of it is modelled, as documented, what a request is made of and that there is no timeout (TellModel); redirects are not. The parsing of the hosted API's answer and its retries are modelled (UtilModel).
- The parser of the command line (`abq_cli/src/args.rs`, but for which options exclude or need each other: CliModel, StartModel, and the number of runners: SetupModel) and the text of its output, help texts, colours, tracing, Sentry.
- Encoding of reports as XML, `strip_ansi_escapes` (any function), the attributes `junit-report` computes for a suite (taken from the project's expected outputs), the wording of summaries beyond what C56, C59 to C64 say. The test cases of a JUnit report are modelled (C79).
- the native runners themselves, process creation, pseudo-terminals.
- `abq_workers/src/test_like_runner.rs`, `*/test*`, `fake.rs`: test doubles.
- Performance, memory use (but C57), real time, fairness of the scheduler: theorems about endings (C37, C40, C67) say that a step is possible and that steps are bounded.
