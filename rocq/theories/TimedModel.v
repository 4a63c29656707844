(* Model of the clock of a queue and of its manager of run timeouts, around the runs of RunModel:
   crates/abq_queue/src/timeout.rs:40-60 (the window), 60-118 (cells), 138-184 (insert,
   next_timeout), crates/abq_queue/src/queue.rs:1757-1768 (the first timeout of a run), 1853-1888
   (fired timeouts), 2409-2462 (handle_timeout).

   A timeout is a [tokio::time::Sleep] that starts when it is inserted and is ready no earlier
   than [window] after that; the stream of pending timeouts gives back ready ones, in any order, and
   loses none when a select! drops the future that waits for it (timeout.rs:170-182,
   queue.rs:1841-1860): [StreamExt::next] holds nothing of the stream.  So a timeout is pending until
   it is given back, and it is handled (RunModel, ETimer) when it is given back.
   Simplifications: time is a number; the window is a parameter (an hour for
   RunTimeoutStrategy::RUN_BASED; tests use other ones) and does not depend on the reason; the
   insertion of a timeout is at the instant of what it follows, as in RunModel (in the code it may
   wait for the lock of timeouts, for 10 microseconds at a time). *)
From Verif Require Import Base JobQueueModel WorkerSetModel RunModel.

Section Timed.
Context {T M : Type}.
Variable window : nat.      (* timeout.rs:41, 51-54 *)

(* The clock; the runs; for every pending timeout (of s_timers) when it is due; a ghost: for every
   request (of s_reqs) when it came in. *)
Record tstate := { t_now : nat; t_st : state T M; t_due : list nat; t_came : list nat }.

Definition tinit : tstate := {| t_now := 0; t_st := init_state; t_due := []; t_came := [] |}.

(* Time goes on, or something happens at the queue. *)
Inductive tevent := Tick (d : nat) | Do (e : event T M).

(* timeout.rs:101-115: a cell is ready when its sleep is over. *)
Definition ready (ts : tstate) (i : nat) : bool :=
  match nth_error (t_due ts) i with Some d => Nat.leb d (t_now ts) | None => false end.

(* timeout.rs:138-160: whatever was inserted starts to sleep now. *)
Definition extended (l : list nat) (n : nat) (x : nat) : list nat := l ++ repeat x (n - length l).

Definition happens (ts : tstate) (e : event T M) (due : list nat) : tstate :=
  let st := step (t_st ts) e in
  {| t_now := t_now ts; t_st := st;
     t_due := extended due (length (s_timers st)) (t_now ts + window);
     t_came := extended (t_came ts) (length (s_reqs st)) (t_now ts) |}.

Definition tstep (ts : tstate) (te : tevent) : tstate :=
  match te with
  | Tick d => {| t_now := t_now ts + d; t_st := t_st ts; t_due := t_due ts; t_came := t_came ts |}
  (* timeout.rs:166-184, queue.rs:1853-1855, 1876-1888 *)
  | Do (ETimer i) => if ready ts i then happens ts (ETimer i) (remove_at i (t_due ts)) else ts
  | Do e => happens ts e (t_due ts)
  end.

End Timed.
Arguments tstate : clear implicits.
Arguments tevent : clear implicits.
