(* Model of the conversations between workers (and the command line) and the servers of a
   queue: the calls a worker makes, crates/abq_workers/src/runner_strategy.rs:182-349,
   results_handler.rs, test_fetching/out_of_process_retry_manifest_fetcher.rs:67-124,
   negotiate.rs:325-446, the one of `abq report`, crates/abq_cli/src/report.rs:249-310, and of
   `abq health`, crates/abq_cli/src/health.rs:38-87; how a queue sets up its servers,
   crates/abq_queue/src/queue.rs:1615-1713, and what the servers do with a connection,
   queue.rs:1895-2400, 2587-2665, negotiate.rs:567-643.

   Both sides are sequential programs that wait for answers: of the network, of the state of
   the queue, of the clock.  A program is a tree: at each wait it names what it asks for, and
   goes on with any answer.  What holds between the answers of the two sides of a connection
   is the network's part, [network] below.  Not modelled here: the bytes of messages
   (WireModel), authentication (AuthModel), the connection that hands out tests (ConnModel),
   what the operations of the queue do (RunModel, ServerModel). *)
From Coq Require Import List Arith Bool NArith.
Import ListNotations.

(* ------------------------------------------------------------------ *)
(* Data.                                                               *)

(* std::net::SocketAddr *)
Record address := { a_ip : nat; a_port : nat }.
(* a queue has three servers: QueueServer, WorkScheduler, QueueNegotiator (queue.rs:1455-1470) *)
Inductive server := MainServer | WorkServer | Negotiator.

(* net_protocol.rs:457-469, of a manifest its tests after flattening (FlattenModel) *)
Inductive manifest_result := Manifest (tests : list nat) | TestRunnerError.
(* net_protocol.rs:550-556 *)
Record invoke_work := { iv_run : nat; iv_batch : nat; iv_strategy : nat; iv_hash : nat }.

(* The three request types of the servers, net_protocol.rs:655-684, 846-863 and
   negotiate.rs:99-103, in one: each server understands its own, [understands].  HealthCheck
   is the same text in all three: {"entity":...,"message":"HealthCheck"}. *)
Inductive message :=
| HealthCheck
| ActiveTestRuns | NegotiatorInfo (run : nat) | CancelRun (run : nat)
| ManifestResult (run : nat) (m : manifest_result) | WorkerResult (run : nat) (results : list nat)
| WorkerRanAllTests (run : nat) | TestResults (run : nat) | RunStatus (run : nat)
| InitContext (run : nat) | PersistentWorkerNextTestsConnection (run : nat) | RetryManifestPartition (run entity : nat)
| WantsToAttach (invoke_data : invoke_work).
Record request := { rq_entity : nat; rq_message : message }.

(* assigned_run.rs:10-37; of the cause of a cancellation and of a fatal error a number *)
Inductive assigned_kind := Fresh (should_generate_manifest : bool) | RetryAndContinue.
Inductive assigned_status := RunUnknown | Run (k : assigned_kind) (differs : bool) | AlreadyDone (code : nat) | Cancelled (reason : nat) | FatalError (e : nat).
(* negotiate.rs:67-74 *)
Record execution_context := { x_work : address; x_results : address; x_assigned : assigned_kind * bool }.
(* negotiate.rs:78-91 *)
Inductive attach_response := ExecutionContext (x : execution_context) | RunAlreadyCompleted (code : nat) | RunCancelled (reason : nat) | NotYetKnown | AttachFatal (e : nat).
(* net_protocol.rs:870-880 and queue.rs: InitMetadata, whose cases are the same *)
Inductive init_response := WaitingForManifest | InitWith (meta : nat) | InitAlreadyCompleted (cancelled : bool).
(* net_protocol.rs:894-900; of the error a number *)
Inductive retry_response := RetryManifest (tests : list nat) | NotYetPersisted | RetryError (e : nat).
(* queue.rs: RetryManifestState *)
Inductive retry_state := RManifest (tests : list nat) | FetchFromPersistence | RNotYetPersisted | RError (e : nat).
(* RetryManifestError::FailedToLoad *)
Definition FailedToLoad := 2.
(* net_protocol.rs:687-698; the lines are streamed after StreamingResults *)
Inductive results_response := StreamingResults (lines : list nat) | ResultsPending | RunInProgress (active : list nat) | ResultsError (e : nat).

Inductive response :=
| Health (healthy : bool) (version : nat) | ActiveRuns (n : nat) | TheNegotiator (a : address) (version : nat)
| AckTestCancellation | AckManifest | AckTestResults | AckWorkerRanAllTests
| Results (r : results_response) | Status (s : nat)
| Init (r : init_response) | Retry (r : retry_response) | Attach (r : attach_response).

(* ------------------------------------------------------------------ *)
(* Programs.                                                           *)

(* the operations by which requests change a queue's runs and its stored results; the answer
   of each is whether it found what it needs *)
Inductive update :=
| MarkCancelled (run entity : nat)            (* queue.rs:2063 *)
| AddManifest (run : nat) (tests : list nat)  (* :2151; false: RunCancelled *)
| MarkEmptyManifest (run : nat)               (* :2230; false: RunCancelled *)
| MarkFailedManifest (run : nat)              (* :2256 *)
| PersistSummary (run : nat) (size : nat)     (* :2748-2762; false: failed *)
| PlanResults (run : nat) (results : list nat) (* :2289-2298: the pending write is counted; false: no cell *)
| PersistResults (run : nat) (results : list nat) (* :2310; false: failed *)
| MarkWorkerComplete (run entity : nat)       (* :2373 *)
| ProgressTimeout (run : nat)                 (* :1765-1767 *)
| HandOutTests (run entity : nat).            (* :2633-2640: the task of ConnModel is started *)

(* What a program waits for.  A connection has a number. *)
Inductive effect :=
(* the calling side *)
| Connect (a : address)                        (* client.connect *)
| Send (conn : nat) (rq : request)             (* net_protocol::{async_}write *)
| Receive (conn : nat)                         (* net_protocol::{async_}read *)
| Sleep (ms : N)
| AccountResults (results : list nat)          (* results_handler.rs:42 *)
| LocalResults (results : list nat)            (* results_handler.rs:46, 49 *)
| RemoteFirst                                  (* results_handler.rs:44: which of the two halves of join! is first *)
(* the side of the queue *)
| Handshake
| Read
| Write (r : response)
| CloseStream                                  (* stream.shutdown *)
| Update (u : update)
| CountRuns                                    (* queue.rs:2026 *)
| GetRunStatus (run : nat)                     (* :2390; None: no such run *)
| GetResults (run : nat)                       (* :2325-2363: the cell, whether it is eligible, and its lines *)
| InitMetadata (run entity : nat)              (* :2614 *)
| GetRetryManifest (run entity : nat)          (* :2645 *)
| LoadPartition (run entity : nat)             (* :2796-2798 *)
| FindRun (entity : nat) (iv : invoke_work).   (* :1745-1755 *)

Definition answer (e : effect) : Type :=
  match e with
  | Connect _ => option nat
  | Send _ _ => bool
  | Receive _ => option response
  | Sleep _ | AccountResults _ | LocalResults _ => unit
  | RemoteFirst => bool
  | Handshake => bool
  | Read => option request
  | Write _ => bool
  | CloseStream => bool
  | Update _ => bool
  | CountRuns => nat
  | GetRunStatus _ => option nat
  | GetResults _ => results_response
  | InitMetadata _ _ => init_response
  | GetRetryManifest _ _ => retry_state
  | LoadPartition _ _ => option (list nat)
  | FindRun _ _ => assigned_status
  end.

Inductive program (A : Type) : Type :=
| Return (a : A)
| Panic
| Ask (e : effect) (k : answer e -> program A).
Arguments Return {A} a.
Arguments Panic {A}.
Arguments Ask {A} e k.

Fixpoint bind {A B} (p : program A) (f : A -> program B) : program B :=
  match p with
  | Return a => f a
  | Panic => Panic
  | Ask e k => Ask e (fun a => bind (k a) f)
  end.
Notation "'let*' x := p 'in' q" := (bind p (fun x => q)) (at level 200, x pattern, p at level 100, q at level 200).
Definition ask (e : effect) : program (answer e) := Ask e (fun a => Return a).

(* ------------------------------------------------------------------ *)
(* The calling side.                                                    *)

(* abq_utils/src/retry.rs:3-28, the turns of the loop from [attempt] on *)
Fixpoint retry_loop {A} (left : nat) (delay : N) (operation : nat -> program (option A)) (attempt : nat) : program (option A) :=
  let* r := operation attempt in
  match r, left with
  | Some v, _ => Return (Some v)
  | None, 0 => Return None
  | None, S left' => let* _ := ask (Sleep delay) in retry_loop left' delay operation (attempt + 1)
  end.
Definition async_retry_n {A} (max_attempts : nat) (delay : N) (operation : nat -> program (option A)) : program (option A) :=
  retry_loop (max_attempts - 1) delay operation 1.

(* what a call ends with *)
Inductive result :=
| RTold                                        (* the request was acknowledged *)
| RInit (r : init_response)                    (* InitWith or InitAlreadyCompleted *)
| RRetry (r : retry_response)                  (* RetryManifest or RetryError *)
| RAttach (r : attach_response)                (* anything but NotYetKnown *)
| RNegotiator (a : address)
| RIncompatible (version : nat)
| RHealth (h : option (bool * nat))
| RResults (r : results_response)              (* anything but ResultsPending *)
| RIoError
| RAsking.                                     (* still in the loop, after the turns the model was given *)

(* runner_strategy.rs:182-207.  An acknowledgement is an empty struct: any object is read as
   one; the model takes any response for one, as the other three calls that are told do. *)
Definition notify_all_tests_run (entity run : nat) (queue_addr : address) : program result :=
  let* stream := async_retry_n 5 3000 (fun _ => ask (Connect queue_addr)) in
  match stream with
  | None => Panic
  | Some c =>
      let* w := ask (Send c {| rq_entity := entity; rq_message := WorkerRanAllTests run |}) in
      if negb w then Panic else
      let* r := ask (Receive c) in
      match r with Some _ => Return RTold | None => Panic end
  end.

(* runner_strategy.rs:250-253, negotiate.rs:370-374 *)
Definition next_decay (decay : N) : N := let d := (decay * 2)%N in if (3000 <=? d)%N then 3000%N else d.

(* runner_strategy.rs:221-264; [turns] bounds the turns of the loop *)
Fixpoint get_init_context (turns : nat) (decay : N) (run entity : nat) (work_server_addr : address) : program result :=
  match turns with
  | 0 => Return RAsking
  | S turns' =>
      let* stream := ask (Connect work_server_addr) in
      match stream with
      | None => Return RIoError
      | Some c =>
          let* w := ask (Send c {| rq_entity := entity; rq_message := InitContext run |}) in
          if negb w then Return RIoError else
          let* r := ask (Receive c) in
          match r with
          | Some (Init WaitingForManifest) =>
              let* _ := ask (Sleep decay) in get_init_context turns' (next_decay decay) run entity work_server_addr
          | Some (Init r) => Return (RInit r)
          | _ => Return RIoError
          end
      end
  end.

(* runner_strategy.rs:279-306 *)
Definition send_manifest (entity run : nat) (m : manifest_result) (queue_results_addr : address) : program result :=
  let* stream := async_retry_n 5 3000 (fun _ => ask (Connect queue_results_addr)) in
  match stream with
  | None => Panic
  | Some c =>
      let* w := ask (Send c {| rq_entity := entity; rq_message := ManifestResult run m |}) in
      if negb w then Panic else
      let* r := ask (Receive c) in
      match r with Some _ => Return RTold | None => Panic end
  end.

(* runner_strategy.rs:318-348 *)
Definition cancel (entity run : nat) (queue_addr : address) : program result :=
  let* stream := async_retry_n 5 3000 (fun _ => ask (Connect queue_addr)) in
  match stream with
  | None => Panic
  | Some c =>
      let* w := ask (Send c {| rq_entity := entity; rq_message := CancelRun run |}) in
      if negb w then Panic else
      let* r := ask (Receive c) in
      match r with Some _ => Return RTold | None => Panic end
  end.

(* results_handler.rs:81-109 (QueueResultsSender) *)
Definition send_results_to_queue (entity run : nat) (results : list nat) (queue_results_addr : address) : program result :=
  let* stream := async_retry_n 5 3000 (fun _ => ask (Connect queue_results_addr)) in
  match stream with
  | None => Panic
  | Some c =>
      let* w := ask (Send c {| rq_entity := entity; rq_message := WorkerResult run results |}) in
      if negb w then Panic else
      let* r := ask (Receive c) in
      match r with Some _ => Return RTold | None => Panic end
  end.

(* results_handler.rs:41-51.  The local handler is one step (it puts the results into a
   channel or the reporters' lock); the halves of join! take turns only at its ends. *)
Definition send_results (should_send : bool) (entity run : nat) (results : list nat) (queue_results_addr : address) : program result :=
  let* _ := ask (AccountResults results) in
  if should_send then
    let* first := ask RemoteFirst in
    if first then
      let* _ := send_results_to_queue entity run results queue_results_addr in
      let* _ := ask (LocalResults results) in Return RTold
    else
      let* _ := ask (LocalResults results) in
      send_results_to_queue entity run results queue_results_addr
  else let* _ := ask (LocalResults results) in Return RTold.

(* out_of_process_retry_manifest_fetcher.rs:78-109 *)
Definition try_fetch_manifest (entity run : nat) (work_server_addr : address) : program (option result) :=
  let* conn := async_retry_n 5 3000 (fun _ => ask (Connect work_server_addr)) in
  match conn with
  | None => Panic
  | Some c =>
      let* w := ask (Send c {| rq_entity := entity; rq_message := RetryManifestPartition run entity |}) in
      if negb w then Panic else
      let* r := ask (Receive c) in
      match r with
      | Some (Retry NotYetPersisted) => Return None
      | Some (Retry r) => Return (Some (RRetry r))
      | _ => Panic
      end
  end.
(* :68-123, with the numbers of :16-20 *)
Definition fetch_retry_manifest (entity run : nat) (work_server_addr : address) : program result :=
  let* r := async_retry_n 20 3000 (fun _ => try_fetch_manifest entity run work_server_addr) in
  match r with Some x => Return x | None => Panic end.

(* negotiate.rs:411-445; [version] is abq_utils::VERSION of the caller *)
Definition ask_queue (version entity run : nat) (queue_addr : address) : program result :=
  let* conn := ask (Connect queue_addr) in
  match conn with
  | None => Return RIoError
  | Some c =>
      let* w := ask (Send c {| rq_entity := entity; rq_message := NegotiatorInfo run |}) in
      if negb w then Return RIoError else
      let* r := ask (Receive c) in
      match r with
      | Some (TheNegotiator a v) => if Nat.eqb v version then Return (RNegotiator a) else Return (RIncompatible v)
      | _ => Return RIoError
      end
  end.

(* negotiate.rs:325-381 *)
Fixpoint attach (turns : nat) (decay : N) (entity : nat) (iv : invoke_work) (negotiator_addr : address) : program result :=
  match turns with
  | 0 => Return RAsking
  | S turns' =>
      let* conn := ask (Connect negotiator_addr) in
      match conn with
      | None => Return RIoError
      | Some c =>
          let* w := ask (Send c {| rq_entity := entity; rq_message := WantsToAttach iv |}) in
          if negb w then Return RIoError else
          let* r := ask (Receive c) in
          match r with
          | Some (Attach NotYetKnown) => let* _ := ask (Sleep decay) in attach turns' (next_decay decay) entity iv negotiator_addr
          | Some (Attach r) => Return (RAttach r)
          | _ => Return RIoError
          end
      end
  end.

(* health.rs:38-87; [kind] is the service that the user asks about (HealthCheckKind): it changes
   the type of the request, but not its text *)
Definition health_check (kind : server) : message :=
  match kind with MainServer => HealthCheck | WorkServer => HealthCheck | Negotiator => HealthCheck end.
Definition get_health (kind : server) (entity : nat) (addr : address) : program result :=
  let* conn := ask (Connect addr) in
  match conn with
  | None => Return (RHealth None)
  | Some c =>
      let* w := ask (Send c {| rq_entity := entity; rq_message := health_check kind |}) in
      if negb w then Return (RHealth None) else
      let* r := ask (Receive c) in
      match r with Some (Health h v) => Return (RHealth (Some (h, v))) | _ => Return (RHealth None) end
  end.

(* report.rs:249-310, with RECONNECT_ATTEMPTS, RECONNECT_DELAY and PENDING_RESULTS_DELAY of
   :36-39; the time limit of :236-246 cuts it off at any wait *)
Definition RECONNECT_ATTEMPTS := 5.
Definition RECONNECT_DELAY : N := 3000.
Definition PENDING_RESULTS_DELAY : N := 2000.
Fixpoint wait_for_results (turns : nat) (entity run : nat) (queue_addr : address) : program result :=
  match turns with
  | 0 => Return RAsking
  | S turns' =>
      let* conn := async_retry_n RECONNECT_ATTEMPTS RECONNECT_DELAY (fun _ => ask (Connect queue_addr)) in
      match conn with
      | None => Return RIoError
      | Some c =>
          let* w := ask (Send c {| rq_entity := entity; rq_message := TestResults run |}) in
          if negb w then Return RIoError else
          let* r := ask (Receive c) in
          match r with
          | Some (Results ResultsPending) => let* _ := ask (Sleep PENDING_RESULTS_DELAY) in wait_for_results turns' entity run queue_addr
          | Some (Results r) => Return (RResults r)
          | _ => Return RIoError
          end
      end
  end.

(* the calls; [at_] is the address the caller uses *)
Inductive call :=
| TellRanAll (entity run : nat)
| TellManifest (entity run : nat) (m : manifest_result)
| TellCancel (entity run : nat)
| TellResults (should_send : bool) (entity run : nat) (results : list nat)
| AskInit (turns entity run : nat)
| AskRetryManifest (entity run : nat)
| AskQueue (version entity run : nat)
| AskAttach (turns entity : nat) (iv : invoke_work)
| AskHealth (kind : server) (entity : nat)
| AskResults (turns entity run : nat).

Definition calling (c : call) (at_ : address) : program result :=
  match c with
  | TellRanAll e r => notify_all_tests_run e r at_
  | TellManifest e r m => send_manifest e r m at_
  | TellCancel e r => cancel e r at_
  | TellResults s e r rs => send_results s e r rs at_
  | AskInit n e r => get_init_context n 10 r e at_
  | AskRetryManifest e r => fetch_retry_manifest e r at_
  | AskQueue v e r => ask_queue v e r at_
  | AskAttach n e iv => attach n 10 e iv at_
  | AskHealth k e => get_health k e at_
  | AskResults n e r => wait_for_results n e r at_
  end.

(* runner_strategy.rs:101-169 and negotiate.rs:216-222, 271-280, abq_cli/src/report.rs:233: which
   of the addresses it knows a worker uses for which call; [b_queue] is the one it was told on
   its command line *)
Record book := { b_queue : address; b_negotiator : address; b_work : address; b_results : address }.
Definition dials (b : book) (c : call) : address :=
  match c with
  | TellRanAll _ _ | TellManifest _ _ _ | TellCancel _ _ | TellResults _ _ _ _ => b_results b
  | AskInit _ _ _ | AskRetryManifest _ _ => b_work b
  | AskQueue _ _ _ | AskResults _ _ _ => b_queue b
  | AskAttach _ _ _ => b_negotiator b
  | AskHealth _ _ => b_queue b
  end.

(* ------------------------------------------------------------------ *)
(* The queue.                                                           *)

(* queue.rs:1562-1584: addresses and ports; [c_version] is abq_utils::VERSION of the queue *)
Record config := { c_public_ip : nat; c_bind_ip : nat; c_server_port : nat; c_work_port : nat; c_negotiator_port : nat; c_version : nat }.

(* queue.rs:1455-1470, 1798-1804, negotiate.rs:469-478: the listening addresses of the three
   servers, and what the contexts of the servers advertise *)
Record queue := {
  q_public_ip : nat; q_version : nat;
  q_server_addr : address; q_work_addr : address; q_negotiator_addr : address;
  q_public_negotiator_addr : address;             (* QueueServerCtx *)
  q_advertised_work_addr : address;               (* QueueNegotiatorCtx *)
  q_advertised_results_addr : address
}.

(* net_protocol.rs:926-929 *)
Definition publicize_addr (a : address) (public_ip : nat) : address := {| a_ip := public_ip; a_port := a_port a |}.

(* queue.rs:1615-1713 with negotiate.rs:498-525.  [bound s p]: the port the operating system
   gives a listener of server [s] that asks for port [p], if any; None: an unwrap panics *)
Definition start_queue (c : config) (bound : server -> nat -> option nat) : option queue :=
  match bound MainServer (c_server_port c) with
  | None => None
  | Some sp =>
      let server_addr := {| a_ip := c_bind_ip c; a_port := sp |} in
      match bound Negotiator (c_negotiator_port c) with
      | None => None
      | Some np =>
          let negotiator_addr := {| a_ip := c_bind_ip c; a_port := np |} in
          let public_negotiator_addr := publicize_addr negotiator_addr (c_public_ip c) in
          match bound WorkServer (c_work_port c) with
          | None => None
          | Some wp =>
              let new_work_server_addr := {| a_ip := c_bind_ip c; a_port := wp |} in
              Some {| q_public_ip := c_public_ip c; q_version := c_version c;
                      q_server_addr := server_addr; q_work_addr := new_work_server_addr; q_negotiator_addr := negotiator_addr;
                      q_public_negotiator_addr := public_negotiator_addr;
                      q_advertised_work_addr := publicize_addr new_work_server_addr (c_public_ip c);
                      q_advertised_results_addr := publicize_addr server_addr (c_public_ip c) |}
          end
      end
  end.

(* queue.rs:2070-2130, 2133-2190, 2193-2261 *)
Definition handle_manifest_empty_or_failure (run : nat) (ok : bool) : program bool :=
  let* w := ask (Write AckManifest) in
  if negb w then Return false else
  if ok then
    let* recorded := ask (Update (MarkEmptyManifest run)) in
    if recorded then ask (Update (PersistSummary run 0)) else Return true
  else let* _ := ask (Update (MarkFailedManifest run)) in Return true.
Definition handle_manifest_success (run : nat) (tests : list nat) : program bool :=
  let* w := ask (Write AckManifest) in
  if negb w then Return false else
  let* added := ask (Update (AddManifest run tests)) in
  if added then ask (Update (PersistSummary run (length tests))) else Return true.
Definition handle_manifest_result (run : nat) (m : manifest_result) : program bool :=
  match m with
  | Manifest [] => handle_manifest_empty_or_failure run true
  | Manifest tests => handle_manifest_success run tests
  | TestRunnerError => handle_manifest_empty_or_failure run false
  end.

(* queue.rs:2264-2315 *)
Definition handle_worker_results (run : nat) (results : list nat) : program bool :=
  let* cell := ask (Update (PlanResults run results)) in
  let* acked := ask (Write AckTestResults) in
  let* _ := ask CloseStream in
  if cell then
    let* stored := ask (Update (PersistResults run results)) in Return (stored || acked)
  else Return false.

(* queue.rs:2318-2364 and 2471-2499; the message StreamingResults and the stream that follows
   are one response here *)
Definition handle_test_results_request (run : nat) : program bool :=
  let* r := ask (GetResults run) in
  let* w := ask (Write (Results r)) in
  Return (w && match r with ResultsError _ => false | _ => true end).

(* queue.rs:1895-2004 with the handlers of :2008-2067, 2367-2400 *)
Definition handle_main (q : queue) : program bool :=
  let* shaken := ask Handshake in
  if negb shaken then Return false else
  let* rq := ask Read in
  match rq with
  | None => Return false
  | Some rq =>
      let entity := rq_entity rq in
      match rq_message rq with
      | HealthCheck => ask (Write (Health true (q_version q)))
      | ActiveTestRuns => let* n := ask CountRuns in ask (Write (ActiveRuns n))
      | NegotiatorInfo _ => ask (Write (TheNegotiator (q_public_negotiator_addr q) (q_version q)))
      | CancelRun run =>
          let* w := ask (Write AckTestCancellation) in
          if negb w then Return false else
          let* _ := ask CloseStream in
          let* _ := ask (Update (MarkCancelled run entity)) in Return true
      | ManifestResult run m => handle_manifest_result run m
      | WorkerResult run results => handle_worker_results run results
      | WorkerRanAllTests run =>
          let* w := ask (Write AckWorkerRanAllTests) in
          if negb w then Return false else
          let* _ := ask (Update (MarkWorkerComplete run entity)) in Return true
      | TestResults run => handle_test_results_request run
      | RunStatus run =>
          let* s := ask (GetRunStatus run) in
          match s with None => Return false | Some s => ask (Write (Status s)) end
      | _ => Return false                              (* not a request of this server: it is not read *)
      end
  end.

(* queue.rs:2587-2665, 2791-2813 *)
Definition handle_work (q : queue) : program bool :=
  let* shaken := ask Handshake in
  if negb shaken then Return false else
  let* rq := ask Read in
  match rq with
  | None => Return false
  | Some rq =>
      let entity := rq_entity rq in
      match rq_message rq with
      | HealthCheck => let* _ := ask (Write (Health true (q_version q))) in Return true
      | InitContext run => let* r := ask (InitMetadata run entity) in ask (Write (Init r))
      | PersistentWorkerNextTestsConnection run => let* _ := ask (Update (HandOutTests run entity)) in Return true
      | RetryManifestPartition run entity =>
          let* s := ask (GetRetryManifest run entity) in
          match s with
          | RManifest man => ask (Write (Retry (RetryManifest man)))
          | FetchFromPersistence =>
              let* l := ask (LoadPartition run entity) in
              match l with
              | Some man => ask (Write (Retry (RetryManifest man)))
              | None => ask (Write (Retry (RetryError FailedToLoad)))
              end
          | RNotYetPersisted => ask (Write (Retry NotYetPersisted))
          | RError e => ask (Write (Retry (RetryError e)))
          end
      | _ => Return false
      end
  end.

(* queue.rs:1722-1772 (the cap on the batch size is in RunModel) *)
Definition get_assigned_run (entity : nat) (iv : invoke_work) : program assigned_status :=
  let* s := ask (FindRun entity iv) in
  match s with
  | Run (Fresh true) _ => let* _ := ask (Update (ProgressTimeout (iv_run iv))) in Return s
  | _ => Return s
  end.
(* negotiate.rs:567-643 *)
Definition handle_negotiator (q : queue) : program bool :=
  let* shaken := ask Handshake in
  if negb shaken then Return false else
  let* rq := ask Read in
  match rq with
  | None => Return false
  | Some rq =>
      match rq_message rq with
      | HealthCheck => ask (Write (Health true (q_version q)))
      | WantsToAttach iv =>
          let* s := get_assigned_run (rq_entity rq) iv in
          ask (Write (Attach
            match s with
            | Run k d => ExecutionContext {| x_work := q_advertised_work_addr q; x_results := q_advertised_results_addr q; x_assigned := (k, d) |}
            | AlreadyDone code => RunAlreadyCompleted code
            | Cancelled reason => RunCancelled reason
            | RunUnknown => NotYetKnown
            | FatalError e => AttachFatal e
            end))
      | _ => Return false
      end
  end.

Definition serve (q : queue) (s : server) : program bool :=
  match s with MainServer => handle_main q | WorkServer => handle_work q | Negotiator => handle_negotiator q end.

(* ------------------------------------------------------------------ *)
(* Executions.                                                          *)

(* what happened at a wait *)
Inductive event :=
| Connected (a : address) (conn : option nat)
| Sent (conn : nat) (rq : request) (ok : bool)
| Received (conn : nat) (r : option response)
| Slept (ms : N)
| Accounted (results : list nat)
| ShownLocally (results : list nat)
| Chose (remote_first : bool)
| Shook (ok : bool)
| GotRequest (rq : option request)
| Wrote (r : response) (ok : bool)
| Closed (ok : bool)
| Updated (u : update) (ok : bool)
| Counted (n : nat)
| SawStatus (run : nat) (s : option nat)
| SawResults (run : nat) (r : results_response)
| SawInit (run entity : nat) (r : init_response)
| SawRetryManifest (run entity : nat) (s : retry_state)
| LoadedPartition (run entity : nat) (l : option (list nat))
| FoundRun (entity : nat) (iv : invoke_work) (s : assigned_status).

Definition ev (e : effect) : answer e -> event :=
  match e with
  | Connect a => Connected a
  | Send c rq => Sent c rq
  | Receive c => Received c
  | Sleep ms => fun _ => Slept ms
  | AccountResults rs => fun _ => Accounted rs
  | LocalResults rs => fun _ => ShownLocally rs
  | RemoteFirst => Chose
  | Handshake => Shook
  | Read => GotRequest
  | Write r => Wrote r
  | CloseStream => Closed
  | Update u => Updated u
  | CountRuns => Counted
  | GetRunStatus r => SawStatus r
  | GetResults r => SawResults r
  | InitMetadata r e => SawInit r e
  | GetRetryManifest r e => SawRetryManifest r e
  | LoadPartition r e => LoadedPartition r e
  | FindRun e iv => FoundRun e iv
  end.

Inductive outcome (A : Type) := Waiting | Done (a : A) | Panicked.
Arguments Waiting {A}.
Arguments Done {A} a.
Arguments Panicked {A}.

(* [executes p tr o]: after the waits of [tr] the program is at another wait ([Waiting]; also
   if its process ends there), has returned, or has panicked *)
Fixpoint executes {A} (p : program A) (tr : list event) (o : outcome A) : Prop :=
  match p with
  | Return a => tr = [] /\ o = Done a
  | Panic => tr = [] /\ o = Panicked
  | Ask e k => (tr = [] /\ o = Waiting) \/ exists a tr', tr = ev e a :: tr' /\ executes (k a) tr' o
  end.

(* ------------------------------------------------------------------ *)
(* Histories: any number of calls and of connections of one queue.      *)

Inductive party := Caller (c : nat) | Task (conn : nat).
Definition party_eqb (p p' : party) : bool :=
  match p, p' with Caller c, Caller c' => Nat.eqb c c' | Task i, Task i' => Nat.eqb i i' | _, _ => false end.
Record moment := { who : party; what : event }.
Definition events_of (p : party) (h : list moment) : list event := map what (filter (fun m => party_eqb (who m) p) h).

(* An address leads to a server if it is the public address of one of the listeners (the public
   IP leads to the host that the listeners are on). *)
Definition reach (q : queue) (a : address) : option server :=
  if Nat.eqb (a_ip a) (q_public_ip q) then
    if Nat.eqb (a_port a) (a_port (q_server_addr q)) then Some MainServer
    else if Nat.eqb (a_port a) (a_port (q_work_addr q)) then Some WorkServer
    else if Nat.eqb (a_port a) (a_port (q_negotiator_addr q)) then Some Negotiator
    else None
  else None.

Definition opens (m : moment) : bool := match what m with Connected _ (Some _) => true | _ => false end.
Definition connections (h : list moment) : nat := length (filter opens h).

(* What the network does: a connection gets the next number and reaches a server; its task works
   only after that; what is read was sent on it, what is received was written to it with
   success.  Anything else can happen: a connection can fail at any time, and a message that was
   sent need not arrive, also if it was sent with success. *)
Definition open (h : list moment) (i : nat) : Prop := exists c a, In {| who := Caller c; what := Connected a (Some i) |} h.
Definition network (q : queue) (h : list moment) : Prop :=
  forall h1 m h2, h = h1 ++ m :: h2 ->
    match who m, what m with
    | Caller _, Connected a (Some i) => i = connections h1 /\ reach q a <> None
    | Caller _, Received i (Some r) => In {| who := Task i; what := Wrote r true |} h1
    | Task i, GotRequest (Some rq) => open h1 i /\ exists c ok, In {| who := Caller c; what := Sent i rq ok |} h1
    | Task i, _ => open h1 i
    | _, _ => True
    end.

(* [calls c]: the call that caller [c] makes, and the address it dials *)
Definition history (q : queue) (calls : nat -> option (call * address)) (h : list moment) : Prop :=
  network q h /\
  (forall c, match calls c with
             | Some (k, a) => exists o, executes (calling k a) (events_of (Caller c) h) o
             | None => events_of (Caller c) h = []
             end) /\
  (forall i c a s, In {| who := Caller c; what := Connected a (Some i) |} h -> reach q a = Some s ->
     exists o, executes (serve q s) (events_of (Task i) h) o).

(* caller [c] has come to the end of its call in [h] *)
Definition returned (calls : nat -> option (call * address)) (h : list moment) (c : nat) (r : result) : Prop :=
  exists k a, calls c = Some (k, a) /\ executes (calling k a) (events_of (Caller c) h) (Done r).
(* the task of connection [i] has come to its end in [h] *)
Definition served (q : queue) (h : list moment) (i : nat) : Prop :=
  exists c a s o, In {| who := Caller c; what := Connected a (Some i) |} h /\ reach q a = Some s /\
    executes (serve q s) (events_of (Task i) h) o /\ o <> Waiting.
