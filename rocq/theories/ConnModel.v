(* Model of a worker's persistent connection for tests, with its failures:
   crates/abq_workers/src/test_fetching/persistent_test_fetcher.rs and
   start_persistent_next_tests_requests_task in crates/abq_queue/src/queue.rs:2667-2744.
   The queue is taken at the end of each pull: one pull is atomic here and takes a batch
   by test (the interleaving of pulls and the by-file strategy are in JobQueueModel);
   tests are numbers. *)
From Verif Require Import Base.

(* How one attempt (try_request, persistent_test_fetcher.rs:92-104) goes. *)
Inductive outcome :=
| Unreached                    (* connect, hello or request failed: no task of the queue read the request *)
| WriteFailed                  (* the queue pulled tests, its async_write failed: queue.rs:2712-2714 returns *)
| ReadFailed                   (* the queue wrote the response, the worker's async_read failed *)
| Delivered.                   (* the worker has the bundle *)

(* A pull as the queue logs it: worker, tests, end of work, outcome. *)
Record pull := { p_worker : nat; p_tests : list nat; p_eow : bool; p_out : outcome }.

Record cstate := {
  c_rem : list nat;            (* tests not pulled *)
  c_done : bool;               (* the run is at RunState::InitialManifestDone *)
  c_stored : nat;              (* how often the manifest and run state were persisted *)
  c_pulls : list pull          (* ghost: all pulls *)
}.
Definition cinit (manifest : list nat) : cstate := {| c_rem := manifest; c_done := false; c_stored := 0; c_pulls := [] |}.

Definition reaches (o : outcome) : bool := match o with Unreached => false | _ => true end.

(* queue.rs:2697-2744 with next_work :795-854, get_next_work_online :856-903 and
   try_mark_reached_end_of_manifest (a plan the first time the end is seen). *)
Definition serve (batch : nat) (s : cstate) (worker : nat) (o : outcome) : cstate :=
  let work := if c_done s then [] else firstn batch (c_rem s) in
  let rest := if c_done s then c_rem s else skipn batch (c_rem s) in
  let at_end := c_done s || match rest with [] => true | _ => false end in
  let plan := at_end && negb (c_done s) in
  {| c_rem := rest;
     c_done := at_end;
     (* the plan is carried out after the write, and dropped with the task if it failed *)
     c_stored := c_stored s + (if plan then match o with WriteFailed => 0 | _ => 1 end else 0);
     c_pulls := c_pulls s ++ [{| p_worker := worker; p_tests := work; p_eow := at_end; p_out := o |}] |}.

Definition attempt_once (batch : nat) (s : cstate) (worker : nat) (o : outcome) : cstate :=
  if reaches o then serve batch s worker o else s.

Inductive answer := Answer (tests : list nat) (eow : bool) | CallPanics | StillTrying.

Definition last_pull (s : cstate) : answer :=
  match rev (c_pulls s) with p :: _ => Answer (p_tests p) (p_eow p) | [] => StillTrying end.

(* persistent_test_fetcher.rs:15 *)
Definition DEFAULT_MAX_ATTEMPTS_IN_CYCLE := 3.

(* persistent_test_fetcher.rs:64-90: [left] attempts are left; the outcomes of the
   attempts are an input; without one the call is still trying. *)
Fixpoint call_loop (attempts : nat) (batch : nat) (s : cstate) (worker : nat) (os : list outcome) : cstate * answer :=
  match attempts with
  | 0 => (s, CallPanics)
  | S attempts' =>
      match os with
      | [] => (s, StillTrying)
      | o :: os' =>
          let s' := attempt_once batch s worker o in
          match o with
          | Delivered => (s', last_pull s')
          | _ => call_loop attempts' batch s' worker os'
          end
      end
  end.
Definition get_next_tests (batch : nat) (s : cstate) (worker : nat) (os : list outcome) : cstate * answer :=
  call_loop DEFAULT_MAX_ATTEMPTS_IN_CYCLE batch s worker os.

(* A history: calls by workers, with the outcomes of their attempts, one call at a time
   (concurrent calls meet only in the atomic pulls). *)
Definition cstep (batch : nat) (s : cstate) (c : nat * list outcome) : cstate := fst (get_next_tests batch s (fst c) (snd c)).
