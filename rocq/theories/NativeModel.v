(* The life of the native test-runner processes of one runner:
   crates/abq_runners/generic_test_runner/src/lib.rs:98-1070 and 1277-1395
   (open_native_runner_connection, retrieve_manifest, NativeRunnerHandle, run_async,
   run_help, execute_all_tests), with the output handlers of
   crates/abq_utils/src/capture_output/capture_pipes.rs:80-117.

   The code is a sequential program that waits for answers from outside: from the operating
   system (binding a port, starting, waiting for and killing a process), from the native
   process at the other end of the connection, and from the queue.  The model is that program
   as a tree: at each wait it names what it asks for, and continues with any answer.  An
   answer that never comes, and a shutdown that drops the program while it waits, are both a
   program that stays at a wait. *)
From Coq Require Import List Arith Bool String ZArith Lia.
Import ListNotations.
Open Scope string_scope.

(* ------------------------------------------------------------------ *)
(* Data.                                                               *)

(* crates/abq_utils/src/net_protocol/runners.rs:1031-1062 (CapturedOutput::append): what was
   captured of a process; a character is a number *)
Record captured := { c_stdout : list nat; c_stderr : list nat; c_combined : list nat }.
Definition append_captured (a b : captured) : captured :=
  {| c_stdout := c_stdout a ++ c_stdout b; c_stderr := c_stderr a ++ c_stderr b;
     c_combined := c_combined a ++ c_combined b |}.

(* lib.rs:134-141, runners.rs:45-58: what a native runner says of itself when it connects: its
   protocol version, major and minor, and its specification (opaque) *)
Record spoken := { sp_version : nat * nat; sp_spec : nat }.
Definition supported (v : nat * nat) : bool := Nat.eqb (fst v) 0 && Nat.eqb (snd v) 2.

(* lib.rs:227-235, 1088-1096: the errors a runner can end with *)
Inductive error :=
| EIo                       (* an I/O error of the operating system *)
| EProtocolTimeout          (* ProtocolVersionError::Timeout *)
| ENotCompatible            (* ProtocolVersionError::NotCompatible *)
| ERunner (said : nat)      (* the error message of the native runner (OOBError) *)
| ETestIo                   (* NativeTestRunnerError::Io: it stopped talking *)
| ETestTimedOut             (* NativeTestRunnerError::TimedOut *)
| EFetch.                   (* fetching tests failed *)

Inductive res (A : Type) := Ok (a : A) | Err (e : error).
Arguments Ok {A} a.
Arguments Err {A} e.

(* what a process is started with, lib.rs:472-501.  The program, its arguments and its
   directory are the same for every process of a runner and are left out; [l_retry]: its
   captured output begins with the header for retries (capture_pipes.rs:28-32) *)
Record launch := { l_env : list (string * string); l_retry : bool; l_kill_on_drop : bool }.

(* the answer of the native runner to a request for its manifest, lib.rs:174-183 *)
Inductive manifest_message := MSuccess (manifest : nat) | MFailure (said : nat).
(* lib.rs:194-198, 803-819: what the queue is sent.  A manifest goes with the version and
   specification of the runner that made it; a failure with the error and the captured
   standard output and error *)
Inductive manifest_result :=
| Manifest (manifest : nat) (from : spoken)
| TestRunnerError (e : error) (output : list nat * list nat).

(* a test for the worker: its work id and its run number, lib.rs:984-987 *)
Record test := { t_work : nat; t_run : nat }.
(* message_buffer.rs:132-135: what the runner receives from the buffer of fetched tests *)
Inductive received := Item (t : test) | FlushProcessed.

(* what a native process is told, lib.rs:565-600 *)
Inductive message :=
| InitMessage (meta : nat) (fast_exit : bool)
| TestCase (work : nat).
(* InitMeta::default() (lib.rs:588) is the empty map; metadata are opaque *)
Definition default_meta : nat := 0.

(* the first message of a process on its connection, lib.rs:114-132: the time runs out, the
   connection or the read fails, or it introduces itself *)
Inductive hello := HTimeout | HIo | HSaid (s : spoken).
(* how a test went, lib.rs:1118-1127, 1150-1162: results; the connection failed; or the time
   ran out *)
Inductive tested := Answered (results : nat) | Broken | TimedOut.
(* results sent for a test: what the native runner answered, or the internal error of
   lib.rs:1366-1377 *)
Inductive reported := Results (results : nat) | InternalError.
(* lib.rs:931-947, queue: the metadata to start with, or the run is over *)
Inductive init_answer := Context (meta : nat) | AlreadyCompleted (cancelled : bool).

(* ------------------------------------------------------------------ *)
(* What the program waits for.  A process is named by the number of processes the runner
   started before it.                                                   *)
Inductive effect :=
| Bind                                   (* TcpListener::bind + local_addr, lib.rs:462-463 *)
| Spawn (p : nat) (l : launch)           (* lib.rs:495 *)
| Hello (p : nat)                        (* lib.rs:504-507 *)
| Finish (p : nat)                       (* child_output.finish(), capture_pipes.rs:89-117 *)
| FinishOrTimeout (p : nat)              (* lib.rs:553-562 *)
| Kill (p : nat)                         (* child.kill(): SIGKILL, then wait *)
| ReadManifest (p : nat)                 (* lib.rs:156-160 *)
| Wait (p : nat)                         (* child.wait() *)
| Write (p : nat) (m : message)          (* conn.write(..) *)
| ReadInitSuccess (p : nat)              (* lib.rs:580 *)
| CloseConnection (p : nat)              (* conn.stream.shutdown() *)
| RunTest (p : nat) (t : test)           (* write the test case, read its results: lib.rs:1165-1253 *)
| SendManifest (r : manifest_result)     (* lib.rs:807-817 *)
| GetInit                                (* lib.rs:931 *)
| Report (work run : nat) (r : reported) (* into the channel of results, lib.rs:887-903 *)
| FlushResults                           (* lib.rs:1039 *)
| NotifyAllRun                           (* notify_all_tests_run() *)
.

Definition answer (e : effect) : Type :=
  match e with
  | Bind => option string
  | Spawn _ _ => bool
  | Hello _ => hello
  | Finish _ => option captured
  | FinishOrTimeout _ => option (option captured)
  | Kill _ => bool
  | ReadManifest _ => option manifest_message
  | Wait _ => option (option Z)           (* an exit status: its code, if it has one *)
  | Write _ _ => bool
  | ReadInitSuccess _ => bool
  | CloseConnection _ => bool
  | RunTest _ _ => tested
  | GetInit => option init_answer
  (* neither can fail: the manifest sender retries inside, and the receiver of the channel of
     results (lib.rs:966-979) lives until its sender is dropped *)
  | SendManifest _ | Report _ _ _ | FlushResults | NotifyAllRun => unit
  end.

Inductive program (A : Type) : Type :=
| Return (a : A)
| Panic
| Ask (e : effect) (k : answer e -> program A).
Arguments Return {A} a.
Arguments Panic {A}.
Arguments Ask {A} e k.

Fixpoint bind {A B} (p : program A) (f : A -> program B) : program B :=
  match p with
  | Return a => f a
  | Panic => Panic
  | Ask e k => Ask e (fun a => bind (k a) f)
  end.
Notation "'let*' x := p 'in' q" := (bind p (fun x => q)) (at level 200, x pattern, p at level 100, q at level 200).
Definition ask (e : effect) : program (answer e) := Ask e (fun a => Return a).

(* ------------------------------------------------------------------ *)
(* The handle of the current process.                                   *)

(* lib.rs:351-362.  [s_finished]: the output's copying tasks have been waited for: waiting for
   a finished task a second time panics (tokio: JoinHandle polled after completion), which is
   what a second [finish] would do (capture_pipes.rs:100-101) *)
Record state := { s_proc : nat; s_finished : bool; s_previous : option captured; s_info : spoken; s_for_manifest : bool }.
(* lib.rs:373-382; [h_next]: the processes started so far *)
Record handle := { h_run : nat; h_state : state; h_next : nat }.

(* lib.rs:238-242; the output is standard output and standard error *)
Record runner_error := { re_error : error; re_output : list nat * list nat; re_info : option spoken }.
(* lib.rs:146-154: try_setup! *)
Definition setup_error (e : error) : runner_error := {| re_error := e; re_output := ([], []); re_info := None |}.
Definition stdio (c : captured) : list nat * list nat := (c_stdout c, c_stderr c).

(* what every process of a runner is started with, lib.rs:711-727: the environment of the
   worker itself, and the extra environment of the runner with ABQ_WORKER put in.  A later
   entry for the same variable stands before an earlier one *)
Record params := { p_inherited : list (string * string); p_extra : list (string * string); p_worker : string }.
(* lib.rs:717-720 *)
Definition additional_env (c : params) : list (string * string) := ("ABQ_WORKER", p_worker c) :: p_extra c.
(* lib.rs:472-478 *)
Definition command_env (c : params) (addr : string) (should_generate_manifest : bool) : list (string * string) :=
  (additional_env c ++
   (if should_generate_manifest then [("ABQ_GENERATE_MANIFEST", "1")] else []) ++
   ("ABQ_SOCKET", addr) :: p_inherited c)%list.

(* child_output.finish() on the handle's process, capture_pipes.rs:89-117; whether it fails or
   not, the tasks are waited for *)
Definition set_finished (s : state) : state :=
  {| s_proc := s_proc s; s_finished := true; s_previous := s_previous s; s_info := s_info s; s_for_manifest := s_for_manifest s |}.
Definition set_previous (s : state) (o : option captured) : state :=
  {| s_proc := s_proc s; s_finished := s_finished s; s_previous := o; s_info := s_info s; s_for_manifest := s_for_manifest s |}.
Definition with_state (h : handle) (s : state) : handle := {| h_run := h_run h; h_state := s; h_next := h_next h |}.
Definition finish (h : handle) : program (handle * option captured) :=
  if s_finished (h_state h) then Panic
  else let* r := ask (Finish (s_proc (h_state h))) in Return (with_state h (set_finished (h_state h)), r).

(* lib.rs:541-563; the process is dropped at the end, and killed if it still runs *)
Definition handle_connection_error (p : nat) : program (list nat * list nat) :=
  let* r := ask (FinishOrTimeout p) in
  match r with
  | Some (Some c) => Return (stdio c)
  | Some None => Return ([], [])
  | None => let* _ := ask (Kill p) in Return ([], [])
  end.

(* lib.rs:103-144 *)
Definition checked_hello (r : hello) : res spoken :=
  match r with
  | HTimeout => Err EProtocolTimeout
  | HIo => Err EIo
  | HSaid s => if supported (sp_version s) then Ok s else Err ENotCompatible
  end.

(* lib.rs:453-537; [p]: the number of the new process *)
Definition new_native_runner (c : params) (should_generate_manifest is_retry : bool) (previous : option captured) (p : nat)
  : program (state + runner_error) :=
  let* addr := ask Bind in
  match addr with
  | None => Return (inr (setup_error EIo))
  | Some addr =>
      let* started := ask (Spawn p {| l_env := command_env c addr should_generate_manifest; l_retry := is_retry; l_kill_on_drop := true |}) in
      if negb started then Return (inr (setup_error EIo)) else
      let* said := ask (Hello p) in
      match checked_hello said with
      | Err e => let* output := handle_connection_error p in
                 Return (inr {| re_error := e; re_output := output; re_info := None |})
      | Ok info => Return (inl {| s_proc := p; s_finished := false; s_previous := previous; s_info := info; s_for_manifest := should_generate_manifest |})
      end
  end.

(* lib.rs:565-583; true: it went well *)
Definition send_init_message (h : handle) (meta : nat) : program bool :=
  let p := s_proc (h_state h) in
  let* written := ask (Write p (InitMessage meta false)) in
  if negb written then Return false else ask (ReadInitSuccess p).

(* exit.rs:24-29; 101 is CODE_ERROR *)
Definition exit_code (status : option Z) : Z := match status with Some c => c | None => 101%Z end.
(* exit.rs:12 *)
Definition cancelled_code : Z := 1%Z.

(* lib.rs:585-600 *)
Definition send_fast_exit_message (h : handle) : program (res Z) :=
  let p := s_proc (h_state h) in
  let* written := ask (Write p (InitMessage default_meta true)) in
  if negb written then Return (Err EIo) else
  let* closed := ask (CloseConnection p) in
  if negb closed then Return (Err EIo) else
  let* status := ask (Wait p) in
  match status with Some st => Return (Ok (exit_code st)) | None => Return (Err EIo) end.

(* lib.rs:604-623 *)
Definition reconcile_for_start_of_run (c : params) (h : handle) : program (handle + runner_error) :=
  if negb (s_for_manifest (h_state h)) then Return (inl h) else
  let* r := new_native_runner c false false None (h_next h) in
  match r with
  | inl s => Return (inl {| h_run := h_run h; h_state := s; h_next := h_next h + 1 |})
  | inr e => Return (inr e)
  end.

(* lib.rs:627-678.  The handle is returned as it is left, also after an error; the assertion
   of lib.rs:636-639 is only compiled into debug builds *)
Definition reconcile_run_number (c : params) (h : handle) (new_run_number : nat) (meta : nat) : program (handle * res unit) :=
  if Nat.eqb new_run_number (h_run h) then Return (h, Ok tt) else
  let p := s_proc (h_state h) in
  let* closed := ask (CloseConnection p) in
  if negb closed then Return (h, Err EIo) else
  let* status := ask (Wait p) in
  match status with
  | None => Return (h, Err EIo)
  | Some _ =>
      let* (h1, out) := finish h in
      match out with
      | None => Return (h1, Err EIo)
      | Some output =>
          let previous := match s_previous (h_state h1) with Some o => append_captured o output | None => output end in
          (* self.previous_child_output.take(), lib.rs:657 *)
          let h2 := with_state h1 (set_previous (h_state h1) None) in
          let* r := new_native_runner c false true (Some previous) (h_next h2) in
          match r with
          | inr e => Return (h2, Err (re_error e))
          | inl s =>
              let h3 := {| h_run := new_run_number; h_state := s; h_next := h_next h2 + 1 |} in
              let* ok := send_init_message h3 meta in
              Return (h3, if ok then Ok tt else Err EIo)
          end
      end
  end.

(* lib.rs:1277-1395: one internal error for each test, with the run number of the test the
   process failed on *)
Fixpoint report_failures (run : nat) (works : list nat) : program unit :=
  match works with
  | [] => Return tt
  | w :: ws => let* _ := ask (Report w run InternalError) in report_failures run ws
  end.

(* message_buffer.rs:187-211 *)
Definition flushed (rest : list received) : list nat :=
  flat_map (fun m => match m with Item t => [t_work t] | FlushProcessed => [] end) rest.

(* lib.rs:1009-1036 *)
Definition native_failure (h : handle) (t : test) (rest : list received) (e : error) : program (handle * res Z) :=
  let* _ := ask (Wait (s_proc (h_state h))) in
  let* _ := report_failures (t_run t) (t_work t :: flushed rest) in
  let* _ := ask NotifyAllRun in
  Return (h, Err e).

(* lib.rs:981-1060, with handle_one_test (1100-1163).  [msgs]: all that the buffer of fetched
   tests will deliver.  The two halves of the join! of lib.rs:1047-1055 are taken one after the
   other.  A killed process's output tasks are replaced by trivial ones (capture_pipes.rs:80-87),
   which can be waited for *)
Fixpoint run_tests (c : params) (meta : nat) (h : handle) (msgs : list received) : program (handle * res Z) :=
  match msgs with
  | [] =>
      let* _ := ask NotifyAllRun in
      let p := s_proc (h_state h) in
      let* closed := ask (CloseConnection p) in
      if negb closed then Return (h, Err EIo) else
      let* status := ask (Wait p) in
      match status with Some st => Return (h, Ok (exit_code st)) | None => Return (h, Err EIo) end
  | FlushProcessed :: rest => let* _ := ask FlushResults in run_tests c meta h rest
  | Item t :: rest =>
      let* (h, r) := reconcile_run_number c h (t_run t) meta in
      match r with
      | Err e => Return (h, Err e)
      | Ok _ =>
          let p := s_proc (h_state h) in
          let* tested := ask (RunTest p t) in
          match tested with
          | Answered rs => let* _ := ask (Report (t_work t) (t_run t) (Results rs)) in run_tests c meta h rest
          | Broken => native_failure h t rest ETestIo
          | TimedOut =>
              let* killed := ask (Kill p) in
              if killed then native_failure h t rest ETestTimedOut else Return (h, Err EIo)
          end
      end
  end.

(* lib.rs:905-1070.  [msgs]: the tests that will be fetched; [fetched]: whether fetching ends
   well, which the end of the task of fetching tells (lib.rs:1063-1067) *)
Definition execute_all_tests (c : params) (h : handle) (msgs : list received) (fetched : bool) : program (handle * res Z) :=
  let* init := ask GetInit in
  match init with
  | None => Return (h, Err EIo)
  | Some (AlreadyCompleted cancelled) =>
      let* r := send_fast_exit_message h in
      Return (h, match r with Ok code => Ok (if cancelled then Z.max code cancelled_code else code) | Err e => Err e end)
  | Some (Context meta) =>
      let* ok := send_init_message h meta in
      if negb ok then Return (h, Err EIo) else
      let* (h, r) := run_tests c meta h msgs in
      Return (h, if fetched then r else Err EFetch)
  end.

(* lib.rs:164-214; debug_assert!(status.success()) is only compiled into debug builds *)
Definition retrieve_manifest (h : handle) : program (handle * ((manifest_result * list nat) + runner_error)) :=
  let p := s_proc (h_state h) in
  let* msg := ask (ReadManifest p) in
  let* result :=
    match msg with
    | None => Return (Err EIo)
    | Some m => let* status := ask (Wait p) in
                match status with Some _ => Return (Ok m) | None => Return (Err EIo) end
    end in
  let* (h, out) := finish h in
  match out with
  | None => Return (h, inr (setup_error EIo))
  | Some output =>
      let info := s_info (h_state h) in
      match result with
      | Ok (MSuccess m) => Return (h, inl (Manifest m info, c_combined output))
      | Ok (MFailure said) => Return (h, inr {| re_error := ERunner said; re_output := stdio output; re_info := Some info |})
      | Err e => Return (h, inr {| re_error := e; re_output := stdio output; re_info := Some info |})
      end
  end.

(* lib.rs:301, TestRunnerExit *)
Record runner_exit := {
  x_code : Z; x_info : option spoken; x_manifest_output : option (list nat);
  x_stdio : list nat * list nat; x_process : list nat }.

(* lib.rs:826-875: the part of run_help after the manifest *)
Definition run_the_tests (c : params) (h : handle) (manifest_output : option (list nat)) (msgs : list received) (fetched : bool)
  : program (runner_exit + runner_error) :=
  let* r := reconcile_for_start_of_run c h in
  match r with
  | inr e => Return (inr e)
  | inl h =>
      let* (h, opt_err) := execute_all_tests c h msgs fetched in
      let previous := s_previous (h_state h) in
      let* (h, out) := finish h in
      match out with
      | None => Panic                                 (* .unwrap(), lib.rs:847 *)
      | Some current =>
          let output := match previous with Some o => append_captured o current | None => current end in
          let info := s_info (h_state h) in
          Return
            match opt_err with
            | Ok code => inl {| x_code := code; x_info := Some info; x_manifest_output := manifest_output;
                                x_stdio := stdio output; x_process := c_combined output |}
            | Err e => inr {| re_error := e; re_output := stdio output; re_info := Some info |}
            end
      end
  end.

(* lib.rs:729-751 and 775-876; [asked]: a manifest is to be sent *)
Definition run_to_completion (c : params) (asked : bool) (msgs : list received) (fetched : bool)
  : program (runner_exit + runner_error) :=
  (* lib.rs:401-427; INIT_RUN_NUMBER is 1 *)
  let* r := new_native_runner c asked false None 0 in
  let opt_handle := match r with inl s => inl {| h_run := 1; h_state := s; h_next := 1 |} | inr e => inr e end in
  if asked then
    let* r :=
      match opt_handle with
      | inr e => Return (inr e)
      | inl h => let* (h, r) := retrieve_manifest h in
                 Return match r with inl m => inl (m, h) | inr e => inr e end
      end in
    match r with
    | inr e => let* _ := ask (SendManifest (TestRunnerError (re_error e) (re_output e))) in Return (inr e)
    | inl ((m, output), h) =>
        let* _ := ask (SendManifest m) in
        run_the_tests c h (Some output) msgs fetched
    end
  else
    match opt_handle with
    | inr e => Return (inr e)
    | inl h => run_the_tests c h None msgs fetched
    end.

(* ------------------------------------------------------------------ *)
(* Executions.                                                          *)

(* one thing asked and answered *)
Inductive event := Ev (e : effect) (a : answer e).

(* where an execution is: it waits, it ended, or it panicked *)
Inductive outcome (A : Type) := Waiting (e : effect) | Done (a : A) | Panicked.
Arguments Waiting {A} e.
Arguments Done {A} a.
Arguments Panicked {A}.

(* the executions of a program: every answer may come, or not yet *)
Fixpoint executes {A} (p : program A) (tr : list event) (o : outcome A) : Prop :=
  match p with
  | Return a => tr = [] /\ o = Done a
  | Panic => tr = [] /\ o = Panicked
  | Ask e k => (tr = [] /\ o = Waiting e) \/ (exists a tr', tr = Ev e a :: tr' /\ executes (k a) tr' o)
  end.

(* How a runner ends: with an exit, with an error, or its task panics. *)
Inductive ending := Exited (x : runner_exit) | Failed (e : runner_error) | TaskPanicked.
(* What a runner leaves behind: what was asked and answered, and the notification of
   cancellation. *)
Record ended := { e_trace : list event; e_cancel_notified : bool; e_ending : ending }.

(* lib.rs:764-770: ExitCode::CANCELLED and nothing captured *)
Definition cancelled_exit : runner_exit :=
  {| x_code := cancelled_code; x_info := None; x_manifest_output := None; x_stdio := ([], []); x_process := [] |}.

(* lib.rs:753-772: run_async ends when the program ends, or when the shutdown arrives while the
   program waits, which drops the program there *)
Inductive run_async (c : params) (asked : bool) (msgs : list received) (fetched : bool) : ended -> Prop :=
| ran tr r : executes (run_to_completion c asked msgs fetched) tr (Done r) ->
    run_async c asked msgs fetched
      {| e_trace := tr; e_cancel_notified := false; e_ending := match r with inl x => Exited x | inr e => Failed e end |}
| panicked tr : executes (run_to_completion c asked msgs fetched) tr Panicked ->
    run_async c asked msgs fetched {| e_trace := tr; e_cancel_notified := false; e_ending := TaskPanicked |}
| shut_down tr e : executes (run_to_completion c asked msgs fetched) tr (Waiting e) ->
    run_async c asked msgs fetched {| e_trace := tr; e_cancel_notified := true; e_ending := Exited cancelled_exit |}.

(* A process's handle is dropped with the program: what was started, with [kill_on_drop]
   (lib.rs:488), and neither waited for nor killed, is killed then. *)
Definition ends (p : nat) (x : event) : bool :=
  match x with
  | Ev (Wait q) (Some _) => Nat.eqb p q
  | Ev (Kill q) true => Nat.eqb p q
  | _ => false
  end.
Definition starts (p : nat) (x : event) : bool :=
  match x with Ev (Spawn q _) true => Nat.eqb p q | _ => false end.
Definition killed_by_drop (p : nat) (x : event) : bool :=
  match x with Ev (Spawn q l) true => Nat.eqb p q && l_kill_on_drop l | _ => false end.
