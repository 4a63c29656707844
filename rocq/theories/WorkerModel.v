(* Model of the process of one worker, `abq test`: how it attaches to a run and how it
   exits.  crates/abq_workers/src/negotiate.rs:76-91, 143-395, 567-643,
   crates/abq_workers/src/runner_strategy.rs:94-100, crates/abq_cli/src/workers.rs:46-265.
   The connection to the queue, whether a write succeeds, how the runners of the pool end
   and what the suite's summary is are inputs.  A panic of the process's main task ends it
   with status 101 (the Rust runtime).  The messages' texts are kept as bytes where they
   are printed; failures of printing are left out, and telemetry
   (abq_cli/src/workers.rs:223-235) is in TellModel. *)
From Verif Require Import Base RunModel PoolModel.
From Coq Require Import ZArith Ascii String.
Local Open Scope Z_scope.
Local Open Scope list_scope.

Definition bytes (s : string) : text := map nat_of_ascii (list_ascii_of_string s).

(* negotiate.rs:78-91; the addresses are left out *)
Inductive message :=
| MCompleted (code : Z) | MCancelled (reason : cancel_reason)
| MContext (kind : assigned_kind) (differs : bool)
| MUnknown | MFatal.

(* negotiate.rs:602-636: the queue's side *)
Definition reply_to (a : assigned) : message :=
  match a with
  | AssignedRun kind differs => MContext kind differs
  | AlreadyDone code => MCompleted (Z.of_nat code)
  | AssignedCancelled reason => MCancelled reason
  | RunUnknown => MUnknown
  | FatalError => MFatal
  end.

(* negotiate.rs:334-343: one turn of the loop, until an answer is read *)
Inductive attempt := NoConnection | WriteFailed | ReadFailed | Got (m : message).

(* negotiate.rs:144-151; for a pool: whether one of its runners is to generate the manifest,
   and whether its runners first run the tests of a retry manifest *)
Inductive negotiated := Redundant (code : Z) | NCancelled (reason : cancel_reason) | Pool (generate retry : bool).

(* negotiate.rs:345-357 *)
Definition cancel_text (r : cancel_reason) : text :=
  bytes ("Error: This ABQ run was cancelled. When an ABQ run is cancelled, it can no longer be retried. You must start a run with a new run ID instead."
         ++ String (ascii_of_nat 10) "This run was cancelled because ") ++
  bytes match r with
        | CRUser => "a worker received a cancellation signal while still working on tests."
        | CRManifestHadNoProgress => "the run timed out before any tests were completed."
        | CRManifestNeverReceived => "the run timed out before the test manifest was received."
        end.

(* what the reporting task summed up: the suite's exit code, its number of tests, and the
   errors of reporters that could not finish *)
Record report := { p_suite : nat; p_count : nat; p_errors : list text }.
(* how the runners of a pool ended: with these results and this report (none: the reporting
   task panicked), or with a panic of a runner's task *)
Inductive pool_end := Ended (rs : list (runner_exit unit)) (p : option report) | RunnerPanicked.

Inductive phase :=
| Negotiating (decay : Z)                                (* in milliseconds *)
| Waiting (n : negotiated) (ended : option pool_end)     (* abq_cli/src/workers.rs:123-132 *)
| Cancelling (n : negotiated) (ended : option pool_end)  (* :240-243 *)
| Exited (code : Z).

(* what is seen of the process *)
Inductive out :=
| Asked                              (* it sent a request to attach *)
| Slept (ms : Z)
| Warned                             (* the warning that the test command differs *)
| Started (generate retry : bool)    (* it started its runners *)
| ToldRunners                        (* it told its runners to stop *)
| PrintedManifest (t : text) | PrintedOutput (runner : nat) (t : text) | PrintedErrors (ts : list text)
| PrintedSummary | PrintedReplay.

Record worker := { w_phase : phase; w_signal : bool; w_log : list out }.
(* what the process was started with: whether its single runner shares its terminal
   (net_protocol.rs:153-155), whether it may write to the run (abq_cli/src/main.rs:461-464)
   and whether the queue is remote *)
Record wconfig := { g_piped : bool; g_write : bool; g_remote : bool }.

(* negotiate.rs:331-332 *)
Definition DECAY := 10. Definition MAX_DECAY := 3000.
(* negotiate.rs:369-373 *)
Definition next_decay (d : Z) : Z := if MAX_DECAY <=? d * 2 then MAX_DECAY else d * 2.

(* negotiate.rs:268-273 *)
Definition generates (k : assigned_kind) : bool := match k with Fresh b => b | RetryAndContinue => false end.
(* runner_strategy.rs:94-100 *)
Definition retries (k : assigned_kind) : bool := match k with Fresh _ => false | RetryAndContinue => true end.

Definition go (w : worker) (p : phase) (os : list out) : worker :=
  {| w_phase := p; w_signal := w_signal w; w_log := w_log w ++ os |}.

(* negotiate.rs:206-302 and 325-382, with the unwrap of abq_cli/src/workers.rs:115-116;
   [warn_ok] is whether the warning could be written *)
Definition negotiate (w : worker) (decay : Z) (a : attempt) (warn_ok : bool) : worker :=
  match a with
  | NoConnection | WriteFailed => go w (Exited ABQ_ERROR) []
  | ReadFailed => go w (Exited ABQ_ERROR) [Asked]
  | Got m =>
      match m with
      | MContext kind differs =>
          if differs && negb warn_ok then go w (Exited ABQ_ERROR) [Asked]
          else go w (Waiting (Pool (generates kind) (retries kind)) None)
                 ([Asked] ++ (if differs then [Warned] else []) ++ [Started (generates kind) (retries kind)])
      | MCancelled reason => go w (Waiting (NCancelled reason) None) [Asked]
      | MCompleted code => go w (Waiting (Redundant code) None) [Asked]
      | MFatal => go w (Exited ABQ_ERROR) [Asked]
      | MUnknown => go w (Negotiating (next_decay decay)) [Asked; Slept decay]
      end
  end.

(* crates/abq_utils/src/whitespace.rs:1-13; is_ascii_whitespace: tab, newline, form feed,
   carriage return, space *)
Definition is_space (b : nat) : bool := existsb (Nat.eqb b) [9; 10; 12; 13; 32]%nat.
Definition is_blank (t : text) : bool := forallb is_space t.

(* abq_cli/src/workers.rs:253-265 *)
Definition manifest_output (o : option (nat * text)) : list out :=
  match o with Some (_, t) => if is_blank t then [] else [PrintedManifest t] | None => [] end.
(* abq_cli/src/workers.rs:168-176 *)
Definition process_outputs (g : wconfig) (l : list (nat * text)) : list out :=
  flat_map (fun e => if g_piped g || match snd e with [] => true | _ => false end then [] else [PrintedOutput (fst e) (snd e)]) l.

(* negotiate.rs:154-174 with PoolModel.shutdown *)
Definition exit_of (n : negotiated) (rs : list (runner_exit unit)) : pool_exit unit :=
  match n with
  | Redundant code => {| x_status := Completed code; x_info := None; x_manifest_output := None; x_final := []; x_process := [] |}
  | NCancelled r => {| x_status := Errored [cancel_text r]; x_info := None; x_manifest_output := None; x_final := []; x_process := [] |}
  | Pool _ _ => shutdown rs
  end.

(* abq_cli/src/workers.rs:183-203 *)
Definition summary_output (g : wconfig) (st : status) (count : nat) : list out :=
  if (match st with Completed _ => true | Errored _ => false end) || Nat.ltb 0 count
  then PrintedSummary :: (if g_write g && g_remote g then [PrintedReplay] else [])
  else [].
Definition print_errors (ts : list text) : list out := match ts with [] => [] | _ => [PrintedErrors ts] end.
(* abq_cli/src/workers.rs:139-236; the panics are those of the runner's handle
   (workers.rs:274-279) and of the reporting task's (abq_cli/src/workers/reporting.rs:114-118) *)
Definition do_shutdown (g : wconfig) (w : worker) (n : negotiated) (e : pool_end) : worker :=
  match e with
  | RunnerPanicked | Ended _ None => go w (Exited ABQ_ERROR) []
  | Ended rs (Some p) =>
      let x := exit_of n rs in
      go w (Exited (worker_exit_code (x_status x) (Z.of_nat (p_suite p))))
        (manifest_output (x_manifest_output x) ++ process_outputs g (x_process x) ++ print_errors (p_errors p) ++
         summary_output g (x_status x) (p_count p) ++
         match x_status x with Errored es => print_errors es | Completed _ => [] end)
  end.

(* negotiate.rs:185-191: [wait] of workers that were not started is over at once, and their
   reporting task got no results *)
Definition wait_over (n : negotiated) (ended : option pool_end) : option pool_end :=
  match n with Redundant _ | NCancelled _ => Some (Ended [] (Some {| p_suite := 0; p_count := 0; p_errors := [] |})) | Pool _ _ => ended end.
(* negotiate.rs:176-182 and workers.rs:242-251 *)
Definition tell_runners (n : negotiated) : list out := match n with Pool _ _ => [ToldRunners] | _ => [] end.

Inductive wevent :=
| EAttempt (a : attempt) (warn_ok : bool)   (* a turn of the loop of the negotiation *)
| ESignal                                   (* the process gets a termination signal *)
| EPoolEnds (e : pool_end)                  (* all its runners have ended *)
| EPoll (signal_first : bool).              (* the main task is polled; which branch of
                                               select! is looked at first is random *)

Definition wstep (g : wconfig) (w : worker) (ev : wevent) : worker :=
  match ev, w_phase w with
  | _, Exited _ => w
  | ESignal, _ => {| w_phase := w_phase w; w_signal := true; w_log := w_log w |}
  | EAttempt a warn_ok, Negotiating decay => negotiate w decay a warn_ok
  | EPoolEnds e, Waiting (Pool b r) None => go w (Waiting (Pool b r) (Some e)) []
  | EPoolEnds e, Cancelling (Pool b r) None => go w (Cancelling (Pool b r) (Some e)) []
  | EPoll signal_first, Waiting n ended =>
      if w_signal w && (signal_first || match wait_over n ended with Some _ => false | None => true end)
      then go w (Cancelling n ended) (tell_runners n)
      else match wait_over n ended with
           | Some e => do_shutdown g w n e
           | None => w
           end
  | EPoll _, Cancelling n ended =>
      match wait_over n ended with
      | Some (Ended _ _) => go w (Exited CANCELLED) []
      | Some RunnerPanicked => go w (Exited ABQ_ERROR) []
      | None => w
      end
  | _, _ => w
  end.

Definition winit : worker := {| w_phase := Negotiating DECAY; w_signal := false; w_log := [] |}.
