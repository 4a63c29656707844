(* Model of a queue process: its periodic jobs
   (crates/abq_cli/src/instance/periodic_job.rs) and its reaction to
   termination signals (crates/abq_cli/src/instance.rs:120-159 with
   crates/abq_utils/src/server_shutdown.rs and crates/abq_queue/src/queue.rs:1500-1545). *)
From Verif Require Import Base RunModel.

(* ------------------------------------------------------------------ *)
(* periodic_job.rs:26-42 (ConcurrencyControlledJob::run).  Each trigger is one
   call of run; the calls interleave at the accesses of is_active.  Where a call
   is: not yet at the compare_exchange (29-33), in the job (38), after the job
   (40), returned, or gone: its future was dropped or the job panicked before it
   could go on. *)
Inductive job_pc := JStart | JRunning | JFinished | JReturned | JDropped.

(* What an observer of the job sees. *)
Inductive job_obs := JBegan (i : nat) | JEnded (i : nat) | JSkipped (i : nat).

(* periodic_job.rs:5-9: is_active; the calls made so far. *)
Record jstate := { j_active : bool; j_calls : list job_pc; j_log : list job_obs }.

(* periodic_job.rs:18-24 *)
Definition jinit : jstate := {| j_active := false; j_calls := []; j_log := [] |}.

Inductive jevent :=
| JTrigger                  (* instance.rs:189-192, 205-208: the scheduler calls run *)
| JCas (i : nat)            (* periodic_job.rs:29-36 *)
| JComplete (i : nat)       (* periodic_job.rs:38: the job's future is ready *)
| JStore (i : nat)          (* periodic_job.rs:40 *)
| JDrop (i : nat).          (* the future of call i is dropped, or its job panics *)

Definition jput (st : jstate) (a : bool) (i : nat) (p : job_pc) (o : list job_obs) : jstate :=
  {| j_active := a; j_calls := upd i p (j_calls st); j_log := j_log st ++ o |}.

Definition jstep (st : jstate) (ev : jevent) : jstate :=
  match ev with
  | JTrigger => {| j_active := j_active st; j_calls := j_calls st ++ [JStart]; j_log := j_log st |}
  | JCas i =>
      match nth_error (j_calls st) i with
      | Some JStart => if j_active st then jput st true i JReturned [JSkipped i]
                       else jput st true i JRunning [JBegan i]
      | _ => st
      end
  | JComplete i =>
      match nth_error (j_calls st) i with
      | Some JRunning => jput st (j_active st) i JFinished [JEnded i]
      | _ => st
      end
  | JStore i =>
      match nth_error (j_calls st) i with
      | Some JFinished => jput st false i JReturned []
      | _ => st
      end
  (* a future can only be dropped where it awaits, and only the job can panic;
     is_active is not reset *)
  | JDrop i =>
      match nth_error (j_calls st) i with
      | Some JStart => jput st (j_active st) i JDropped []
      | Some JRunning => jput st (j_active st) i JDropped [JEnded i]
      | _ => st
      end
  end.

(* ------------------------------------------------------------------ *)
(* instance.rs:120-152.  The signal thread: waiting for its one signal (126),
   between the send and its end (128-130), ended (its sender is dropped). *)
Inductive sig_pc := SigWait | SigSent | SigEnded.

Section Instance.
Context {T M : Type}.

(* The signals delivered so far; the thread; the channel of 122; the variable of
   133; the flag of server_shutdown.rs:13; whether the loop of 135 was left and
   the queue shut down (154-159); whether the assertion of 139 failed; the runs
   of the queue. *)
Record istate := { i_signals : nat; i_thread : sig_pc; i_chan : nat; i_received : bool;
                   i_retired : bool; i_killed : bool; i_panicked : bool; i_runs : RunModel.state T M }.

Definition iinit : istate :=
  {| i_signals := 0; i_thread := SigWait; i_chan := 0; i_received := false;
     i_retired := false; i_killed := false; i_panicked := false; i_runs := init_state |}.

Inductive ievent :=
| ISignal                               (* the process is sent a termination signal *)
| IThread                               (* the signal thread makes a step *)
| IMain                                 (* the loop of 135 makes a step *)
| IQueue (e : RunModel.event T M).      (* the queue serves a request *)

Definition iset (st : istate) (thread : sig_pc) (chan : nat) (received retired killed panicked : bool) : istate :=
  {| i_signals := i_signals st; i_thread := thread; i_chan := chan; i_received := received;
     i_retired := retired; i_killed := killed; i_panicked := panicked; i_runs := i_runs st |}.

(* instance.rs:137-150: whatever recv returned (the pattern is _) *)
Definition on_recv (st : istate) (chan : nat) : istate :=
  if i_received st then
    if i_retired st then iset st (i_thread st) chan true (i_retired st) true (i_panicked st)
    else iset st (i_thread st) chan true (i_retired st) (i_killed st) true
  else (* queue.rs:1502-1504, server_shutdown.rs:64-66 *)
    iset st (i_thread st) chan true true (i_killed st) (i_panicked st).

Definition istep (st : istate) (ev : ievent) : istate :=
  match ev with
  | ISignal => {| i_signals := S (i_signals st); i_thread := i_thread st; i_chan := i_chan st;
                  i_received := i_received st; i_retired := i_retired st; i_killed := i_killed st;
                  i_panicked := i_panicked st; i_runs := i_runs st |}
  (* instance.rs:125-130.  The channel has room for two, so the send never waits. *)
  | IThread =>
      match i_thread st with
      | SigWait => if Nat.ltb 0 (i_signals st)
                   then iset st SigSent (S (i_chan st)) (i_received st) (i_retired st) (i_killed st) (i_panicked st)
                   else st
      | SigSent => iset st SigEnded (i_chan st) (i_received st) (i_retired st) (i_killed st) (i_panicked st)
      | SigEnded => st
      end
  (* tokio::sync::mpsc recv: a message, or None once the sender is dropped *)
  | IMain =>
      if i_killed st || i_panicked st then st else
      match i_chan st, i_thread st with
      | S c, _ => on_recv st c
      | O, SigEnded => on_recv st 0
      | O, _ => st
      end
  (* the servers run until they are shut down; nothing on their paths reads the
     retirement flag (server_shutdown.rs:93-113 has no caller) *)
  | IQueue e =>
      if i_killed st || i_panicked st then st else
      {| i_signals := i_signals st; i_thread := i_thread st; i_chan := i_chan st;
         i_received := i_received st; i_retired := i_retired st; i_killed := i_killed st;
         i_panicked := i_panicked st; i_runs := RunModel.step (i_runs st) e |}
  end.
End Instance.
Arguments istate : clear implicits.
Arguments ievent : clear implicits.
