(* Model of the state of all runs of a queue:
   crates/abq_queue/src/queue.rs:63-192 (RunState, Run, AllRuns), 340-1436 (its
   operations), 1723-1771 (get_assigned_run), 2043-2130 (cancellation and
   manifest requests), 2409-2462 (handle_timeout).

   Locking.  An operation is one step when the code runs it under the locks of
   queue.rs:171-178 without awaiting; an operation that drops its locks in the
   middle is several steps, and other operations may come between them:
   find_or_create_run (check, remote load and creation, lookup), next_work (the
   steps on the job queue under the shared lock of the run, then the exclusive
   lock for marking the end), handle_manifest_progress_timeout (shared, then
   exclusive).  An operation that needs the exclusive lock of a run is not
   possible while a next_work holds its shared lock: such an event leaves the
   state unchanged ([busy]).
   Simplifications: the outer map lock never blocks here (more interleavings
   than in the code); get_partition_for_entity reads the owner cells at one
   instant (as in JobQueueModel); log_assert! and illegal_state! only log, as in
   release builds (crates/abq_utils/src/log_assert.rs:4-20); instants are
   opaque numbers; run ids, hashes and entity ids are opaque numbers. *)
From Verif Require Import Base JobQueueModel WorkerSetModel.

Definition run_id := nat.

(* crates/abq_utils/src/net_protocol.rs, enum CancelReason *)
Inductive cancel_reason := CRUser | CRManifestHadNoProgress | CRManifestNeverReceived.

(* queue.rs:147 *)
Definition MAX_BATCH_SIZE : nat := 100.

(* net_protocol.rs, INIT_RUN_NUMBER *)
Definition INIT_RUN_NUMBER : nat := 1.

(* AtomicU64 arithmetic of num_active (wraps around). *)
Definition u64 (z : Z) : Z := (z mod 2 ^ 64)%Z.

Section Runs.
Context {T M : Type}.    (* test specifications, init metadata *)

(* net_protocol.rs, struct WorkerTest *)
Record worker_test := { wt_spec : T; wt_run_number : nat }.

Definition queue := (config worker_test * JobQueueModel.state)%type.

(* queue.rs:137-140 (ManifestPersistence); the cell is whether it is persisted. *)
Inductive manifest_persistence := MPersisted (is_persisted : bool) | MEmpty.

(* queue.rs:63-134 (RunState).  The result cells are in ServerModel.  The last
   field of Done and Cancelled is a ghost: the job queue the run had, which the
   code has dropped; no step reads it. *)
Inductive run_state :=
| Waiting (conns : wset nat) (batch : nat) (strat : strategy) (hash : nat)
| HasWork (q : queue) (meta : M) (batch : nat) (active : wset (option nat)) (hash : nat)
| Done (exit_code : nat) (meta : option M) (seen : wset bool) (mp : manifest_persistence)
       (hash : option nat) (old : option queue)
| Cancelled (reason : cancel_reason) (old : option queue).

(* crates/abq_workers/src/assigned_run.rs:10-38 *)
Inductive assigned_kind := Fresh (should_generate_manifest : bool) | RetryAndContinue.
Inductive assigned :=
| RunUnknown
| AssignedRun (kind : assigned_kind) (runner_test_command_differs : bool)
| AlreadyDone (exit_code : nat)
| AssignedCancelled (reason : cancel_reason)
| FatalError.

(* queue.rs:205-209 (InitMetadata) *)
Inductive init_metadata_answer :=
| IMetadata (m : option M) | IWaitingForManifest | IRunAlreadyCompleted (cancelled : bool).

(* queue.rs:271-276 (RetryManifestState) with net_protocol RetryManifestError *)
Inductive retry_answer :=
| RManifest (work : list worker_test) (eow : bool)
| RFetchFromPersistence | RNotYetPersisted
| RRunDoesNotExist | RManifestNeverReceived | RRunCancelled.

(* queue.rs:310-325 *)
Inductive progress :=
| PCancelledNoManifest | PCancelledNoProgress | PRunComplete | PNewProgress (index : nat).

(* net_protocol.rs:597-606 (RunStatus) *)
Inductive run_status := SActive | SManifestDone (num_active_workers : nat) | SCancelled.

(* crates/abq_queue/src/persistence/run_state.rs (RunState) *)
Record saved_state := { sv_exit : nat; sv_meta : option M; sv_seen : list entity; sv_hash : option nat }.

(* queue.rs:234-237 (PersistAfterManifestDone): the manifest view and the run
   state to persist. *)
Record plan := { pl_view : list worker_test * list tag; pl_state : saved_state }.

(* remote.try_load_run_state, queue.rs:524 *)
Inductive remote_answer := RemoteFound (s : saved_state) | RemoteNotFound
                         | RemoteIncompatible | RemoteError.

(* queue.rs:328-335 (RunParams), with the batch size as the worker asked for it. *)
Record find_params := { fp_run : run_id; fp_entity : entity; fp_batch : nat;
                        fp_strategy : strategy; fp_hash : nat }.

(* queue.rs:1735-1743: the clamp in get_assigned_run. *)
Definition clamp_batch (n : nat) : nat := if Nat.ltb MAX_BATCH_SIZE n then MAX_BATCH_SIZE else n.

(* Requests that take several steps. *)
Inductive find_pc := FRemote | FLookup | FAnswered.
Inductive next_pc :=
| NPull (j : nat)                      (* in get_next_work_online, as queue request j *)
| NEnd (j : nat) (tests : list worker_test)  (* saw the end, locks dropped, queue.rs:816-817 *)
| NAnswered (j : option nat).
Inductive request :=
| QFind (p : find_params) (pc : find_pc)
| QNext (r : run_id) (e : entity) (pc : next_pc)
| QTimeout (r : run_id) (last : nat) (answered : bool).

(* What participants see, in the order of the answers.  OAsk records that a
   next-tests request was received (it is not an answer). *)
Inductive obs :=
| OAssigned (p : find_params) (a : assigned)
| OMetadata (r : run_id) (e : entity) (a : init_metadata_answer)
| OAsk (k : nat) (r : run_id) (e : entity)
| OWork (k : nat) (r : run_id) (e : entity) (tests : list worker_test) (eow : bool) (p : option plan)
| ORetry (r : run_id) (e : entity) (a : retry_answer)
| OManifest (r : run_id) (size : nat) (accepted : bool)
| OManifestFailed (r : run_id)
| OCompleted (r : run_id) (e : entity)
| OCancel (r : run_id) (e : entity)
| OTimeout (r : run_id) (last : nat) (a : option progress)
| OStatus (r : run_id) (s : option run_status)
| OActiveRuns (n : Z)
| OPanic (r : run_id).                 (* an expect("no run recorded") failed *)

(* queue.rs:157-192 (AllRuns), the pending progress timers (timeout.rs:60-75),
   the requests in flight and the answers given so far. *)
Record state := { s_runs : list (run_id * run_state); s_active : Z;
                  s_timers : list (run_id * nat); s_reqs : list request; s_log : list obs }.

Definition init_state : state :=
  {| s_runs := []; s_active := 0%Z; s_timers := []; s_reqs := []; s_log := [] |}.

(* HashMap get / insert *)
Fixpoint get (r : run_id) (m : list (run_id * run_state)) : option run_state :=
  match m with
  | [] => None
  | (r', s) :: m' => if Nat.eqb r' r then Some s else get r m'
  end.
Fixpoint put (r : run_id) (s : run_state) (m : list (run_id * run_state)) : list (run_id * run_state) :=
  match m with
  | [] => [(r, s)]
  | (r', s') :: m' => if Nat.eqb r' r then (r', s) :: m' else (r', s') :: put r s m'
  end.

(* The shared lock of the run is held by a next_work (queue.rs:798-817). *)
Definition pulling (r : run_id) (q : request) : bool :=
  match q with QNext r' _ (NPull _) => Nat.eqb r' r | _ => false end.
Definition busy (st : state) (r : run_id) : bool := existsb (pulling r) (s_reqs st).

(* queue.rs:370-504: the lookup half of find_or_create_run. *)
Definition find_lookup (now : nat) (p : find_params) (s : run_state) : run_state * assigned :=
  let e := fp_entity p in
  match s with
  | Waiting conns b st h =>
      (Waiting (insert_by_tag e now conns) b st h,
       AssignedRun (Fresh false) (negb (Nat.eqb h (fp_hash p))))
  | HasWork q m b active h =>
      (HasWork q m b (insert_by_tag e None active) h,
       AssignedRun (match replaced_by_tag e active with
                    | None => Fresh false
                    | Some _ => RetryAndContinue
                    end) (negb (Nat.eqb h (fp_hash p))))
  | Done ec m seen mp h old =>
      (s, if contains_by_tag seen e
          then AssignedRun RetryAndContinue
                 (match h with Some h' => negb (Nat.eqb h' (fp_hash p)) | None => false end)
          else AlreadyDone ec)
  | Cancelled r _ => (s, AssignedCancelled r)
  end.

(* queue.rs:573-594: the fresh state of a run. *)
Definition fresh_run (now : nat) (p : find_params) : run_state :=
  Waiting (insert_by_tag (fp_entity p) now []) (clamp_batch (fp_batch p)) (fp_strategy p) (fp_hash p).

(* queue.rs:629-657: the state of a run known to the remote store. *)
Definition loaded_run (s : saved_state) : run_state :=
  Done (sv_exit s) (sv_meta s) (from_iter (map (fun e => (e, false)) (sv_seen s)))
       (MPersisted true) (sv_hash s) None.

(* queue.rs:687-750: add_manifest on the state of the run. *)
Definition add_manifest (flat : list (T * group)) (meta : M) (s : run_state) : run_state * bool :=
  match s with
  | Waiting conns b st h =>
      let c := {| cf_queue := map (fun p => ({| wt_spec := fst p; wt_run_number := INIT_RUN_NUMBER |}, snd p)) flat;
                  cf_strategy := st |} in
      (HasWork (c, init c) meta b
         (fold_left (fun a p => insert_by_tag (fst p) None a) conns []) h, true)
  | _ => (s, false)
  end.

(* queue.rs:1231-1274 (mark_empty_manifest_complete); the delta of num_active. *)
Definition mark_empty (s : run_state) : run_state * Z * bool :=
  match s with
  | Waiting _ _ _ h => (Done 0 None [] MEmpty (Some h) None, (-1)%Z, true)
  | _ => (s, 0%Z, false)
  end.

(* queue.rs:1205-1228 (mark_failed_to_receive_manifest) *)
Definition mark_failed (s : run_state) : run_state * Z :=
  match s with
  | Waiting _ _ _ _ => (Cancelled CRManifestNeverReceived None, (-1)%Z)
  | _ => (s, 0%Z)
  end.

(* The ghost copy of the queue of a run. *)
Definition queue_of (s : run_state) : option queue :=
  match s with
  | Waiting _ _ _ _ => None
  | HasWork q _ _ _ _ => Some q
  | Done _ _ _ _ _ old => old
  | Cancelled _ old => old
  end.

(* queue.rs:1300-1305 (mark_cancelled_help) *)
Definition cancel_help (r : cancel_reason) (s : run_state) : run_state * Z :=
  (Cancelled r (queue_of s), (-1)%Z).

(* queue.rs:1276-1298 (mark_cancelled) *)
Definition mark_cancelled (e : entity) (r : cancel_reason) (s : run_state) : run_state * Z :=
  match s with
  | Waiting _ _ _ _ | HasWork _ _ _ _ _ | Cancelled _ _ => cancel_help r s
  | Done ec m seen mp h old => (Done ec m (insert_by_tag e false seen) mp h old, 0%Z)
  end.

(* queue.rs:759-793 (init_metadata).  The check and the insertion are two lock
   acquisitions on seen_workers; entries are never removed, so one step is the same. *)
Definition init_metadata (e : entity) (s : run_state) : run_state * init_metadata_answer :=
  match s with
  | Waiting _ _ _ _ => (s, IWaitingForManifest)
  | HasWork _ m _ _ _ => (s, IMetadata (Some m))
  | Done ec m seen mp h old =>
      if contains_by_tag seen e
      then (Done ec m (insert_by_tag e true seen) mp h old, IMetadata m)
      else (s, IRunAlreadyCompleted false)
  | Cancelled _ _ => (s, IRunAlreadyCompleted true)
  end.

(* queue.rs:996-1061 (get_retry_manifest) *)
Definition retry_manifest (e : entity) (s : run_state) : run_state * retry_answer :=
  match s with
  | Waiting _ _ _ _ => (s, RManifestNeverReceived)
  | HasWork (c, js) m b active h =>
      (HasWork (c, js) m b (insert_by_tag e None active) h,
       RManifest (partition_for c js (en_tag e)) true)
  | Done ec m seen mp h old =>
      match mp with
      | MPersisted true => (Done ec m (insert_by_tag e true seen) mp h old, RFetchFromPersistence)
      | MPersisted false => (s, RNotYetPersisted)
      | MEmpty => (s, RManifest [] true)
      end
  | Cancelled _ _ => (s, RRunCancelled)
  end.

(* queue.rs:1063-1109 (mark_worker_complete) *)
Definition worker_complete (e : entity) (now : nat) (s : run_state) : run_state :=
  match s with
  | Waiting _ _ _ _ => s
  | HasWork q m b active h => HasWork q m b (insert_by_tag e (Some now) active) h
  | Done ec m seen mp h old => Done ec m (insert_by_tag e false seen) mp h old
  | Cancelled _ _ => s
  end.

(* queue.rs:1111-1203 (try_mark_reached_end_of_manifest) with exit code SUCCESS (queue.rs:821) *)
Definition try_mark_end (s : run_state) : run_state * Z * option plan :=
  match s with
  | HasWork (c, js) m b active h =>
      let seen := from_iter (map (fun p => (fst p, match snd p with None => true | Some _ => false end)) active) in
      (Done 0 (Some m) seen (MPersisted false) (Some h) (Some (c, js)), (-1)%Z,
       Some {| pl_view := manifest_view c js;
               pl_state := {| sv_exit := 0; sv_meta := Some m; sv_seen := map fst seen; sv_hash := Some h |} |})
  | _ => (s, 0%Z, None)
  end.

(* queue.rs:1307-1327 (get_run_status) *)
Definition get_run_status (s : run_state) : run_status :=
  match s with
  | Waiting _ _ _ _ | HasWork _ _ _ _ _ => SActive
  | Done _ _ seen _ _ _ => SManifestDone (length (filter (fun p : entity * bool => snd p) seen))
  | Cancelled _ _ => SCancelled
  end.

(* queue.rs:1372-1404 (query_manifest_progress_status) *)
Definition query_progress (last : nat) (s : run_state) : progress :=
  match s with
  | Waiting _ _ _ _ => PCancelledNoManifest
  | HasWork (_, js) _ _ _ _ =>
      if Nat.ltb last (read_index js) then PNewProgress (read_index js) else PCancelledNoProgress
  | Done _ _ _ _ _ _ | Cancelled _ _ => PRunComplete
  end.
Definition is_cancel (p : progress) : bool :=
  match p with PCancelledNoManifest | PCancelledNoProgress => true | _ => false end.

(* The events of a history. *)
Inductive event :=
| EFind (p : find_params)                      (* a worker connects *)
| EFindRemote (k : nat) (a : remote_answer) (now : nat)
| EFindLookup (k : nat) (now : nat)
| EManifest (r : run_id) (flat : list (T * group)) (meta : M)
| EManifestFailed (r : run_id)
| EInitMetadata (r : run_id) (e : entity)
| ENext (r : run_id) (e : entity)              (* a worker asks for tests *)
| EQueueStep (k : nat)                         (* request k makes a step on the job queue *)
| ENextFinish (k : nat)                        (* request k leaves the job queue / marks the end *)
| ERetryManifest (r : run_id) (e : entity)
| EWorkerComplete (r : run_id) (e : entity) (now : nat)
| ECancel (r : run_id) (e : entity)
| EPersisted (r : run_id)                      (* the manifest was persisted *)
| ETimer (i : nat)                             (* the i-th pending timer fires *)
| ETimerCancel (k : nat)
| EStatus (r : run_id)
| EActiveRuns.

Definition mk (st : state) runs active timers reqs log : state :=
  {| s_runs := runs; s_active := active; s_timers := timers; s_reqs := reqs; s_log := s_log st ++ log |}.
Definition say (st : state) (o : list obs) : state :=
  mk st (s_runs st) (s_active st) (s_timers st) (s_reqs st) o.

(* Replace the state of one run, adjust num_active and answer. *)
Definition set_run (st : state) (r : run_id) (s : run_state) (delta : Z) (o : list obs) : state :=
  mk st (put r s (s_runs st)) (u64 (s_active st + delta)) (s_timers st) (s_reqs st) o.

Definition set_req (st : state) (k : nat) (q : request) : state :=
  {| s_runs := s_runs st; s_active := s_active st; s_timers := s_timers st;
     s_reqs := upd k q (s_reqs st); s_log := s_log st |}.
Definition add_req (st : state) (q : request) : state :=
  {| s_runs := s_runs st; s_active := s_active st; s_timers := s_timers st;
     s_reqs := s_reqs st ++ [q]; s_log := s_log st |}.
Definition add_timer (st : state) (t : run_id * nat) : state :=
  {| s_runs := s_runs st; s_active := s_active st; s_timers := s_timers st ++ [t];
     s_reqs := s_reqs st; s_log := s_log st |}.

(* queue.rs:687-689 and the like: the exclusive lock of a run that must exist. *)
Definition exclusive (st : state) (r : run_id) (f : run_state -> state) : state :=
  match get r (s_runs st) with
  | None => say st [OPanic r]
  | Some s => if busy st r then st else f s
  end.

Fixpoint remove_at {B} (i : nat) (l : list B) : list B :=
  match l, i with
  | [], _ => []
  | _ :: t, O => t
  | h :: t, S i' => h :: remove_at i' t
  end.

Definition step (st : state) (ev : event) : state :=
  match ev with
  (* queue.rs:341; batch sizes are NonZeroU64, so 0 is not an event *)
  | EFind p =>
      if Nat.eqb (fp_batch p) 0 then st else
      add_req st (QFind p (match get (fp_run p) (s_runs st) with Some _ => FLookup | None => FRemote end))
  (* queue.rs:513-678, then 1757-1768: a timeout is set for an assignment that is freshly_created
     (assigned_run.rs:41-50), that is one with Fresh true; find_lookup gives none (C13_timeout_iff_fresh) *)
  | EFindRemote k a now =>
      match nth_error (s_reqs st) k with
      | Some (QFind p FRemote) =>
          match a with
          | RemoteError => set_req (say st [OAssigned p FatalError]) k (QFind p FAnswered)
          | RemoteFound s =>
              let st' := match get (fp_run p) (s_runs st) with
                         | Some _ => st
                         | None => set_run st (fp_run p) (loaded_run s) 0 []
                         end in
              set_req st' k (QFind p FLookup)
          | RemoteNotFound | RemoteIncompatible =>
              match get (fp_run p) (s_runs st) with
              | Some _ => set_req st k (QFind p FLookup)
              | None =>
                  add_timer
                    (set_req (set_run st (fp_run p) (fresh_run now p) 1
                                [OAssigned p (AssignedRun (Fresh true) false)]) k (QFind p FAnswered))
                    (fp_run p, 0)
              end
          end
      | _ => st
      end
  (* queue.rs:358-504 *)
  | EFindLookup k now =>
      match nth_error (s_reqs st) k with
      | Some (QFind p FLookup) =>
          match get (fp_run p) (s_runs st) with
          | None => set_req (say st [OAssigned p RunUnknown]) k (QFind p FAnswered)
          | Some s =>
              let '(s', a) := find_lookup now p s in
              set_req (set_run st (fp_run p) s' 0 [OAssigned p a]) k (QFind p FAnswered)
          end
      | _ => st
      end
  (* queue.rs:2070-2130, 2155-2157, 2233-2234 *)
  | EManifest r flat meta =>
      exclusive st r (fun s =>
        match flat with
        | [] => let '(s', d, ok) := mark_empty s in set_run st r s' d [OManifest r 0 ok]
        | _ => let '(s', ok) := add_manifest flat meta s in
               set_run st r s' 0 [OManifest r (length flat) ok]
        end)
  | EManifestFailed r =>
      exclusive st r (fun s => let '(s', d) := mark_failed s in set_run st r s' d [OManifestFailed r])
  | EInitMetadata r e =>
      match get r (s_runs st) with
      | None => say st [OPanic r]
      | Some s => let '(s', a) := init_metadata e s in set_run st r s' 0 [OMetadata r e a]
      end
  (* queue.rs:795-810, 831-852 *)
  | ENext r e =>
      let k := length (s_reqs st) in
      match get r (s_runs st) with
      | None => say st [OPanic r]
      | Some (HasWork (c, js) m b active h) =>
          let js' := JobQueueModel.step c js (Arrive (en_tag e) b) in
          add_req (set_run st r (HasWork (c, js') m b (insert_by_tag_if_missing e None active) h) 0 [OAsk k r e])
                  (QNext r e (NPull (length (st_threads js))))
      | Some (Done ec m seen mp h old) =>
          add_req (set_run st r (Done ec m (insert_by_tag_if_missing e true seen) mp h old) 0
                     [OAsk k r e; OWork k r e [] true None]) (QNext r e (NAnswered None))
      | Some (Cancelled _ _) | Some (Waiting _ _ _ _) =>
          add_req (say st [OAsk k r e; OWork k r e [] true None]) (QNext r e (NAnswered None))
      end
  (* job_queue.rs, one shared-memory access of request k *)
  | EQueueStep k =>
      match nth_error (s_reqs st) k with
      | Some (QNext r e (NPull j)) =>
          match get r (s_runs st) with
          | Some (HasWork (c, js) m b active h) =>
              set_run st r (HasWork (c, JobQueueModel.step c js (Step j)) m b active h) 0 []
          | _ => st
          end
      | _ => st
      end
  (* queue.rs:806-829: leave the queue; at the end, take the exclusive lock *)
  | ENextFinish k =>
      match nth_error (s_reqs st) k with
      | Some (QNext r e (NPull j)) =>
          match get r (s_runs st) with
          | Some (HasWork (c, js) _ _ _ _) =>
              match nth_error (st_threads js) j with
              | Some t =>
                  match status_of c t with
                  | Some MoreTestsRemaining =>
                      set_req (say st [OWork k r e (bundle c t) false None]) k (QNext r e (NAnswered (Some j)))
                  | Some PulledLastTest | Some QueueWasEmpty =>
                      set_req st k (QNext r e (NEnd j (bundle c t)))
                  | None => st
                  end
              | None => st
              end
          | _ => st
          end
      | Some (QNext r e (NEnd j tests)) =>
          exclusive st r (fun s =>
            let '(s', d, p) := try_mark_end s in
            set_req (set_run st r s' d [OWork k r e tests true p]) k (QNext r e (NAnswered (Some j))))
      | _ => st
      end
  | ERetryManifest r e =>
      match get r (s_runs st) with
      | None => say st [ORetry r e RRunDoesNotExist]
      | Some s => let '(s', a) := retry_manifest e s in set_run st r s' 0 [ORetry r e a]
      end
  | EWorkerComplete r e now =>
      match get r (s_runs st) with
      | None => st
      | Some s => set_run st r (worker_complete e now s) 0 [OCompleted r e]
      end
  (* queue.rs:2043-2062 *)
  | ECancel r e =>
      exclusive st r (fun s => let '(s', d) := mark_cancelled e CRUser s in set_run st r s' d [OCancel r e])
  (* persistence/manifest.rs, make_persistence_task: set_persisted *)
  | EPersisted r =>
      match get r (s_runs st) with
      | Some (Done ec m seen (MPersisted _) h old) =>
          set_run st r (Done ec m seen (MPersisted true) h old) 0 []
      | _ => st
      end
  (* queue.rs:2409-2462 with 1333-1350 *)
  | ETimer i =>
      match nth_error (s_timers st) i with
      | None => st
      | Some (r, last) =>
          let st0 := mk st (s_runs st) (s_active st) (remove_at i (s_timers st)) (s_reqs st) [] in
          match get r (s_runs st) with
          | None => say st0 [OTimeout r last None]
          | Some s =>
              match query_progress last s with
              | PNewProgress idx => add_timer (say st0 [OTimeout r last (Some (PNewProgress idx))]) (r, idx)
              | PRunComplete => say st0 [OTimeout r last (Some PRunComplete)]
              | _ => add_req st0 (QTimeout r last false)
              end
          end
      end
  (* queue.rs:1352-1366 *)
  | ETimerCancel k =>
      match nth_error (s_reqs st) k with
      | Some (QTimeout r last false) =>
          exclusive st r (fun s =>
            let res := query_progress last s in
            let st0 := set_req st k (QTimeout r last true) in
            if is_cancel res then
              let '(s', d) := cancel_help CRManifestHadNoProgress s in
              set_run st0 r s' d [OTimeout r last (Some res)]
            else match res with
                 | PNewProgress idx => add_timer (say st0 [OTimeout r last (Some res)]) (r, idx)
                 | _ => say st0 [OTimeout r last (Some res)]
                 end)
      | _ => st
      end
  | EStatus r => say st [OStatus r (option_map get_run_status (get r (s_runs st)))]
  (* queue.rs:1434-1436 *)
  | EActiveRuns => say st [OActiveRuns (s_active st)]
  end.

(* queue.rs:1514-1516 (is_drained) *)
Definition is_drained (st : state) : bool := Z.eqb (s_active st) 0.

End Runs.
Arguments run_state : clear implicits.
Arguments request : clear implicits.
Arguments state : clear implicits.
Arguments event : clear implicits.
Arguments obs : clear implicits.
Arguments plan : clear implicits.
Arguments saved_state : clear implicits.
Arguments worker_test : clear implicits.
Arguments remote_answer : clear implicits.
