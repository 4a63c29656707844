(* Model of the three tasks a runner executes its tests with:
   crates/abq_runners/generic_test_runner/src/lib.rs:905-1070 (execute_all_tests),
   message_buffer.rs (the buffer of fetched tests) and buffered_results.rs.
   The tasks are joined (lib.rs:1060-1061) and interleave at their awaits; one step is
   what one task does between two awaits.  The fetcher is FetchModel; an answer of the
   native runner to a test is an input: the test's results, or a crash or timeout
   (handle_one_test, lib.rs:1100-1163).  Sending a batch of results to the queue and to the
   local handler is taken to succeed (results_handler.rs:93-108 panics otherwise), and so
   is starting the native runner of a retry (reconcile_run_number, :628-680).  Captured
   output, timings and the text of error messages are left out. *)
From Verif Require Import Base StatusModel FetchModel.

(* message_buffer.rs:11-15 *)
Inductive msg := BatchSize (n : nat) | Item (t : wtest) | ForceFlush.
(* lib.rs:879-882 *)
Inductive rmsg := Results (r : aresult) | ResultsFlush.

(* fetch_tests_task: message_buffer.rs:91-125 *)
Inductive producer :=
| PFetch                                   (* awaits fetcher.fetch() :96 *)
| PSend (ms : list msg) (completed : bool) (* has these messages to send :100-113 *)
| PWait                                    (* awaits refill_rx.recv() :120 *)
| PExit.                                   (* returned: msg_tx and refill_rx are dropped *)

(* run_tests_task: lib.rs:968-1042, with the consumer of message_buffer.rs:134-208 *)
Inductive task :=
| TRecv                                    (* awaits a message in recv :137 *)
| TMid                                     (* awaits the item after a batch size :145 *)
| TRefill (t : wtest)                      (* awaits refill_tx.send() :173 *)
| TRun (t : wtest)                         (* runs a test on the native runner, lib.rs:985-996 *)
| TPush (m : rmsg)                         (* awaits results_tx.send(), lib.rs:1147-1152, :1037-1039 *)
| TFlush (t : wtest) (remaining : list wtest) (* the native runner failed on t; flush() :185-207 *)
| TReport (rs : list aresult)              (* handle_native_runner_failure, lib.rs:1359-1392 *)
| TDone (crashed : bool)                   (* returned: results_tx is dropped *)
| TPanic.                                  (* the panic at message_buffer.rs:148 *)

Record runner := {
  r_world : world;                         (* the fetcher, what it answered, the results accounted *)
  r_prod : producer;
  r_chan : list msg;                       (* the channel of tests *)
  r_refills : nat;                         (* messages in the refill channel *)
  r_refill_open : bool;                    (* refill_tx is not dropped *)
  r_eligible : bool; r_size : nat; r_processed : nat;  (* message_buffer.rs:40-44 *)
  r_task : task;
  r_results : list rmsg;                   (* the channel of results *)
  r_buffer : list aresult;                 (* BufferedResults.buffer *)
  r_sent : list (list aresult);            (* ghost: the batches sent *)
  r_sender_done : bool                     (* send_results_task returned *)
}.

(* lib.rs:953-954, message_buffer.rs:54-77; a channel of capacity n of tokio holds n messages *)
Definition rinit (sources : list (list reply)) (max_run_number : nat) : runner :=
  {| r_world := start sources max_run_number; r_prod := PFetch; r_chan := []; r_refills := 0; r_refill_open := true;
     r_eligible := true; r_size := 0; r_processed := 0; r_task := TRecv; r_results := []; r_buffer := []; r_sent := [];
     r_sender_done := false |}.

Definition set_prod (s : runner) (w : world) (p : producer) (ch : list msg) (refills : nat) : runner :=
  {| r_world := w; r_prod := p; r_chan := ch; r_refills := refills; r_refill_open := r_refill_open s;
     r_eligible := r_eligible s; r_size := r_size s; r_processed := r_processed s; r_task := r_task s;
     r_results := r_results s; r_buffer := r_buffer s; r_sent := r_sent s; r_sender_done := r_sender_done s |}.

Definition set_task (s : runner) (t : task) (ch : list msg) : runner :=
  {| r_world := r_world s; r_prod := r_prod s; r_chan := ch; r_refills := r_refills s; r_refill_open := r_refill_open s;
     r_eligible := r_eligible s; r_size := r_size s; r_processed := r_processed s; r_task := t;
     r_results := r_results s; r_buffer := r_buffer s; r_sent := r_sent s; r_sender_done := r_sender_done s |}.

(* a message goes into the channel of results *)
Definition push_result (s : runner) (t : task) (m : rmsg) : runner :=
  {| r_world := r_world s; r_prod := r_prod s; r_chan := r_chan s; r_refills := r_refills s; r_refill_open := r_refill_open s;
     r_eligible := r_eligible s; r_size := r_size s; r_processed := r_processed s; r_task := t;
     r_results := r_results s ++ [m]; r_buffer := r_buffer s; r_sent := r_sent s; r_sender_done := r_sender_done s |}.

Definition set_sender (s : runner) (w : world) (rs : list rmsg) (buf : list aresult) (sent : list (list aresult)) (fin : bool) : runner :=
  {| r_world := w; r_prod := r_prod s; r_chan := r_chan s; r_refills := r_refills s; r_refill_open := r_refill_open s;
     r_eligible := r_eligible s; r_size := r_size s; r_processed := r_processed s; r_task := r_task s;
     r_results := rs; r_buffer := buf; r_sent := sent; r_sender_done := fin |}.

Definition is_exited (p : producer) : bool := match p with PExit => true | _ => false end.
(* msg_rx is dropped with the task *)
Definition rx_open (s : runner) : bool := match r_task s with TDone _ | TReport _ => false | _ => true end.

(* message_buffer.rs:100-118: the messages of a batch *)
Definition batch_messages (ts : list wtest) : list msg :=
  match ts with [] => [] | _ => BatchSize (length ts) :: map Item ts ++ [ForceFlush] end.

(* message_buffer.rs:91-125; [cap]: the asked capacity *)
Definition step_producer (cap : nat) (s : runner) : runner :=
  match r_prod s with
  | PFetch =>
      let w' := fstep (r_world s) Fetch in
      if w_ended (r_world s) then s else
      match skipn (length (w_answers (r_world s))) (w_answers w') with
      | b :: _ => set_prod s w' (PSend (batch_messages (b_work b)) (b_eow b)) (r_chan s) (r_refills s)
      | [] => set_prod s w' (if w_ended w' then PExit else PFetch) (r_chan s) (r_refills s)
      end
  | PSend (m :: ms) completed =>
      if negb (rx_open s) then set_prod s (r_world s) PExit (r_chan s) (r_refills s)
      else if Nat.ltb (length (r_chan s)) (cap * 2) then set_prod s (r_world s) (PSend ms completed) (r_chan s ++ [m]) (r_refills s)
      else s
  | PSend [] completed => set_prod s (r_world s) (if completed then PExit else PWait) (r_chan s) (r_refills s)
  | PWait =>
      match r_refills s with
      | S n => set_prod s (r_world s) PFetch (r_chan s) n
      | 0 => if r_refill_open s then s else set_prod s (r_world s) PExit (r_chan s) 0
      end
  | PExit => s
  end.

(* message_buffer.rs:155-179 *)
Definition accept_item (s : runner) (t : wtest) (ch : list msg) : runner :=
  let processed := r_processed s + 1 in
  let should_refill := r_eligible s && Nat.leb (r_size s / 2) processed in
  {| r_world := r_world s; r_prod := r_prod s; r_chan := ch; r_refills := r_refills s; r_refill_open := r_refill_open s;
     r_eligible := r_eligible s; r_size := r_size s; r_processed := processed;
     r_task := if should_refill then TRefill t else TRun t;
     r_results := r_results s; r_buffer := r_buffer s; r_sent := r_sent s; r_sender_done := r_sender_done s |}.
(* message_buffer.rs:139-143 *)
Definition accept_size (s : runner) (n : nat) (ch : list msg) : runner :=
  {| r_world := r_world s; r_prod := r_prod s; r_chan := ch; r_refills := r_refills s; r_refill_open := r_refill_open s;
     r_eligible := true; r_size := n; r_processed := 0; r_task := TMid;
     r_results := r_results s; r_buffer := r_buffer s; r_sent := r_sent s; r_sender_done := r_sender_done s |}.
(* message_buffer.rs:173-175 *)
Definition refilled (s : runner) (t : wtest) (refills : nat) : runner :=
  {| r_world := r_world s; r_prod := r_prod s; r_chan := r_chan s; r_refills := refills; r_refill_open := r_refill_open s;
     r_eligible := false; r_size := r_size s; r_processed := r_processed s; r_task := TRun t;
     r_results := r_results s; r_buffer := r_buffer s; r_sent := r_sent s; r_sender_done := r_sender_done s |}.
(* message_buffer.rs:196 *)
Definition begin_flush (s : runner) (t : wtest) : runner :=
  {| r_world := r_world s; r_prod := r_prod s; r_chan := r_chan s; r_refills := r_refills s; r_refill_open := false;
     r_eligible := r_eligible s; r_size := r_size s; r_processed := r_processed s; r_task := TFlush t [];
     r_results := r_results s; r_buffer := r_buffer s; r_sent := r_sent s; r_sender_done := r_sender_done s |}.
(* the task returns: refill_tx and results_tx are dropped *)
Definition finish_task (s : runner) (crashed : bool) : runner :=
  {| r_world := r_world s; r_prod := r_prod s; r_chan := r_chan s; r_refills := r_refills s; r_refill_open := false;
     r_eligible := r_eligible s; r_size := r_size s; r_processed := r_processed s; r_task := TDone crashed;
     r_results := r_results s; r_buffer := r_buffer s; r_sent := r_sent s; r_sender_done := r_sender_done s |}.

(* lib.rs:1359-1383: the report for a test that was not run; the status is
   PrivateNativeRunnerError, the run number that of the test the runner failed on, the id
   of the result a fresh one *)
Definition error_result (run_number fresh : nat) (work_id : nat) : aresult :=
  {| ar_work := work_id; ar_run := run_number; ar_results := [(fresh, PrivateNativeRunnerError)] |}.

(* What the native runner does with a test: its results, or a failure to answer. *)
Inductive native := Answered (rs : list (nat * rstatus)) | Failed.

Definition step_task (batch : nat) (s : runner) (o : native) : runner :=
  match r_task s with
  | TRecv =>
      match r_chan s with
      | [] => if is_exited (r_prod s) then finish_task s false else s
      | BatchSize n :: ch => accept_size s n ch
      | Item t :: ch => accept_item s t ch
      | ForceFlush :: ch => set_task s (TPush ResultsFlush) ch
      end
  | TMid =>
      match r_chan s with
      | [] => if is_exited (r_prod s) then finish_task s false else s
      | Item t :: ch => accept_item s t ch
      | _ :: ch => set_task s TPanic ch
      end
  | TRefill t =>
      if is_exited (r_prod s) then refilled s t (r_refills s)
      else if Nat.ltb (r_refills s) 1 then refilled s t (r_refills s + 1)
      else s
  | TRun t =>
      match o with
      | Answered rs => set_task s (TPush (Results {| ar_work := sp_id (wt_spec t); ar_run := wt_run t; ar_results := rs |})) (r_chan s)
      | Failed => begin_flush s t
      end
  | TPush m => if Nat.ltb (length (r_results s)) (batch * 2) then push_result s TRecv m else s
  | TFlush t remaining =>
      match r_chan s with
      | [] => if is_exited (r_prod s)
              then set_task s (TReport (map (fun u => error_result (wt_run t) 0 (sp_id (wt_spec u))) (t :: remaining))) []
              else s
      | Item u :: ch => set_task s (TFlush t (remaining ++ [u])) ch
      | _ :: ch => set_task s (TFlush t remaining) ch
      end
  | TReport [] => finish_task s true
  | TReport (r :: rs) => if Nat.ltb (length (r_results s)) (batch * 2) then push_result s (TReport rs) (Results r) else s
  | TDone _ | TPanic => s
  end.

(* buffered_results.rs:33-38 with results_handler.rs:41-52 *)
Definition send_buffer (s : runner) (rs : list rmsg) (buf : list aresult) (fin : bool) : runner :=
  set_sender s (fstep (r_world s) (Account buf)) rs [] (r_sent s ++ [buf]) fin.
(* lib.rs:956-966 with buffered_results.rs:20-31 *)
Definition step_sender (batch : nat) (s : runner) : runner :=
  if r_sender_done s then s else
  match r_results s with
  | Results r :: rs =>
      let buf := r_buffer s ++ [r] in
      if Nat.leb batch (length buf) then send_buffer s rs buf false else set_sender s (r_world s) rs buf (r_sent s) false
  | ResultsFlush :: rs =>
      match r_buffer s with
      | [] => set_sender s (r_world s) rs [] (r_sent s) false
      | _ => send_buffer s rs (r_buffer s) false
      end
  | [] =>
      match r_task s with
      | TDone _ => match r_buffer s with
                   | [] => set_sender s (r_world s) [] [] (r_sent s) true
                   | _ => send_buffer s [] (r_buffer s) true
                   end
      | _ => s
      end
  end.

Inductive revent := Producer | Task (o : native) | Sender.
Definition rstep (batch : nat) (s : runner) (e : revent) : runner :=
  match e with
  | Producer => step_producer batch s
  | Task o => step_task batch s o
  | Sender => step_sender batch s
  end.
