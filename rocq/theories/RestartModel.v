(* Model of queue processes that come one after the other and share a remote store: what a
   process keeps of a run whose tests are exhausted, in which order, and what the next process
   makes of it.  crates/abq_queue/src/queue.rs:513-678 (try_create_run, try_load_remote_run),
   2667-2743 (the persistence at the end of a manifest), 2763-2814 (the tasks that do it, and
   fetch_persisted_manifest), crates/abq_queue/src/persistence/manifest.rs:126-158,
   crates/abq_queue/src/persistence/run_state.rs:114-132 (PersistRunStatePlan).

   The queue of one process is that of ServerModel; here are the two tasks that follow an
   answer with a plan, the loads of persisted manifests, the store, and crashes at any point.
   Simplifications: the stores hold views, states and lines, not bytes (RunStateModel,
   ManifestFsModel, ResultsFsModel and PersisterModel have the bytes); one process at a time
   uses the store, and all of them have the same schema version of run states; a dump of a
   manifest replaces the file (see C21); the results file of a run is loaded when the process
   starts, not at its first use, which nobody can tell, as nobody else changes the store. *)
From Verif Require Import Base JobQueueModel WorkerSetModel ManifestViewModel RunModel ServerModel.

Section Restart.
Context {T M L : Type}.

Definition mview := (list (worker_test T) * list tag)%type.

(* The request that got the plan: the answer is to be written to the worker (queue.rs:2707),
   or the two tasks run concurrently (queue.rs:2728), each to be done yet or not. *)
Inductive job_pc := JAnswer | JTasks (manifest state : bool).
Record job := { j_run : run_id; j_plan : plan T M; j_pc : job_pc }.

(* What clients and operators see.  QManifest: the answer to a worker that asked for the tests
   it had, when they are to be loaded (queue.rs:2791-2814). *)
Inductive loaded_manifest := LTests (tests : list (worker_test T)) | LFailed | LPanic.
Inductive qobs :=
| QRun (o : obs T M) | QRes (o : sobs L)
| QManifest (r : run_id) (e : entity) (a : loaded_manifest)
| QManifestKept (r : run_id) (p : plan T M) (ok : bool)  (* a manifest task ended *)
| QStateKept (r : run_id) (p : plan T M) (ok : bool)     (* a run-state task ended *)
| QStarted.                                              (* a new process *)

Record qstate := {
  q_server : sstate T M L;                       (* with the results of the store, sv_remote *)
  q_jobs : list job;
  q_loads : list (run_id * entity);              (* manifests to be loaded for workers *)
  q_disk : run_id -> option mview;               (* local manifest files that can be read *)
  q_manifests : run_id -> option mview;          (* the store: manifests *)
  q_states : run_id -> option (saved_state M);   (* the store: run states *)
  q_log : list qobs }.

Definition fresh_log {A} (old new : list A) : list A := skipn (length old) new.
Definition jobs_of (os : list (obs T M)) : list job :=
  flat_map (fun o => match o with
                     | OWork _ r _ _ _ (Some p) => [{| j_run := r; j_plan := p; j_pc := JAnswer |}]
                     | _ => []
                     end) os.
Definition loads_of (os : list (obs T M)) : list (run_id * entity) :=
  flat_map (fun o => match o with ORetry r e RFetchFromPersistence => [(r, e)] | _ => [] end) os.

(* The server makes a step. *)
Definition serve (st : qstate) (ev : sevent T M L) : qstate :=
  let s := q_server st in
  let s' := sstep s ev in
  let os := fresh_log (s_log (sv_core s)) (s_log (sv_core s')) in
  {| q_server := s'; q_jobs := q_jobs st ++ jobs_of os; q_loads := q_loads st ++ loads_of os;
     q_disk := q_disk st; q_manifests := q_manifests st; q_states := q_states st;
     q_log := q_log st ++ map QRun os ++ map QRes (fresh_log (sv_log s) (sv_log s')) |}.

(* How the dump of a manifest goes, manifest/fs.rs:247-275: stored in both places; written, but
   not stored; not even written, which leaves a file that cannot be read. *)
Inductive dump_outcome := DOk | DNotStored | DNotWritten.
(* How the load of a manifest that is not at hand goes, manifest/fs.rs:106-159: well; the file is
   there then, but could not be read (see C21); not at all. *)
Inductive fetch_outcome := FOk | FNotRead | FNotLoaded.

Inductive qevent :=
| QServer (ev : sevent T M L)
| QConsult (k : nat) (ok : bool) (now : nat)  (* the store answers request k for a place in a run, or fails to *)
| QAnswered (j : nat) (ok : bool)             (* the answer with the plan of job j is written, or cannot be *)
| QDump (j : nat) (o : dump_outcome)
| QStore (j : nat) (ok : bool)
| QLoad (i : nat) (o : fetch_outcome)         (* the i-th awaited manifest *)
| QRestart (same_disk : bool) (first : run_id -> option (list L)).
(* first: None if loading the results of a run that the store has goes well, Some the lines that
   are in the file if it fails *)

Definition set_job (st : qstate) (j : nat) (x : job) (pc : job_pc) srv disk manifests states log : qstate :=
  {| q_server := srv; q_jobs := upd j {| j_run := j_run x; j_plan := j_plan x; j_pc := pc |} (q_jobs st);
     q_loads := q_loads st; q_disk := disk; q_manifests := manifests; q_states := states; q_log := q_log st ++ log |}.

(* queue.rs:513-564: what the store says about a run *)
Definition consult (st : qstate) (r : run_id) : remote_answer M :=
  match q_states st r with Some s => RemoteFound s | None => RemoteNotFound end.

(* manifest.rs:44-58 *)
Definition part (v : mview) (t : tag) : loaded_manifest :=
  match view_partition {| v_items := fst v; v_entities := snd v |} t with Some ts => LTests ts | None => LPanic end.

(* results/fs.rs:159-197 in a new process: the file of a run *)
Definition first_file (st : qstate) (same_disk : bool) (first : run_id -> option (list L)) (r : run_id) : list L :=
  match first r with
  | Some ls => ls
  | None => match sv_remote (q_server st) r with
            | Some ls => ls
            | None => if same_disk then sv_file (q_server st) r else []
            end
  end.

Definition qstep (st : qstate) (ev : qevent) : qstate :=
  match ev with
  (* these two are not events of their own here *)
  | QServer (SCore (EFindRemote _ _ _)) | QServer (SCore (EPersisted _)) => st
  | QServer ev => serve st ev
  | QConsult k ok now =>
      match nth_error (s_reqs (sv_core (q_server st))) k with
      | Some (QFind p FRemote) => serve st (SCore (EFindRemote k (if ok then consult st (fp_run p) else RemoteError) now))
      | _ => st
      end
  (* queue.rs:2707-2728; the task ends when the answer cannot be written *)
  | QAnswered j ok =>
      match nth_error (q_jobs st) j with
      | Some x =>
          match j_pc x with
          | JAnswer => set_job st j x (JTasks ok ok) (q_server st) (q_disk st) (q_manifests st) (q_states st) []
          | JTasks _ _ => st
          end
      | None => st
      end
  (* manifest.rs:150-158, queue.rs:2763-2776 *)
  | QDump j o =>
      match nth_error (q_jobs st) j with
      | Some x =>
          match j_pc x with
          | JTasks true s =>
              let r := j_run x in
              let v := pl_view (j_plan x) in
              match o with
              | DOk => set_job st j x (JTasks false s) (sstep (q_server st) (SCore (EPersisted r)))
                         (fset (q_disk st) r (Some v)) (fset (q_manifests st) r (Some v)) (q_states st)
                         [QManifestKept r (j_plan x) true]
              | DNotStored => set_job st j x (JTasks false s) (q_server st) (fset (q_disk st) r (Some v)) (q_manifests st)
                         (q_states st) [QManifestKept r (j_plan x) false]
              | DNotWritten => set_job st j x (JTasks false s) (q_server st) (fset (q_disk st) r None) (q_manifests st)
                         (q_states st) [QManifestKept r (j_plan x) false]
              end
          | _ => st
          end
      | None => st
      end
  (* run_state.rs:114-132, queue.rs:2778-2789 *)
  | QStore j ok =>
      match nth_error (q_jobs st) j with
      | Some x =>
          match j_pc x with
          | JTasks m true =>
              let r := j_run x in
              set_job st j x (JTasks m false) (q_server st) (q_disk st) (q_manifests st)
                (if ok then fset (q_states st) r (Some (pl_state (j_plan x))) else q_states st)
                [QStateKept r (j_plan x) ok]
          | _ => st
          end
      | None => st
      end
  (* queue.rs:2791-2814, manifest/fs.rs:106-159 *)
  | QLoad i o =>
      match nth_error (q_loads st) i with
      | Some (r, e) =>
          let answer disk a := {| q_server := q_server st; q_jobs := q_jobs st; q_loads := remove_at i (q_loads st);
                                  q_disk := disk; q_manifests := q_manifests st; q_states := q_states st;
                                  q_log := q_log st ++ [QManifest r e a] |} in
          match q_disk st r with
          | Some v => answer (q_disk st) (part v (en_tag e))
          | None =>
              match q_manifests st r, o with
              | Some v, FOk => answer (fset (q_disk st) r (Some v)) (part v (en_tag e))
              | Some v, FNotRead => answer (fset (q_disk st) r (Some v)) LFailed
              | _, _ => answer (q_disk st) LFailed
              end
          end
      | None => st
      end
  (* the process is gone at whatever point it was, and another one starts *)
  | QRestart same_disk first =>
      {| q_server := sinit (first_file st same_disk first) (sv_remote (q_server st));
         q_jobs := []; q_loads := []; q_disk := if same_disk then q_disk st else fun _ => None;
         q_manifests := q_manifests st; q_states := q_states st; q_log := q_log st ++ [QStarted] |}
  end.

(* The first process, with nothing stored. *)
Definition qinit : qstate :=
  {| q_server := sinit (fun _ => []) (fun _ => None); q_jobs := []; q_loads := []; q_disk := fun _ => None;
     q_manifests := fun _ => None; q_states := fun _ => None; q_log := [QStarted] |}.
End Restart.
Arguments qstate T M L : clear implicits.
Arguments qevent T M L : clear implicits.
Arguments qobs T M L : clear implicits.
Arguments job T M : clear implicits.
Arguments loaded_manifest T : clear implicits.
