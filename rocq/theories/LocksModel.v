(* Model of the locks of a queue: which requests and jobs take which locks, in which order, and
   what they wait for while they hold them.
   crates/abq_queue/src/queue.rs (AllRuns and the handlers), timeout.rs:141-190,
   persistence/results/fs.rs, persistence/manifest/fs.rs, persistence/manifest.rs,
   crates/abq_workers/src/negotiate.rs:568-644.
   A request is the sequence of what it does to locks and of what it waits for; which of its
   branches it takes is left open (so more sequences are allowed than data would allow), as is what
   it computes.  Everything that blocks is a lock here: parking_lot's and tokio's, the locks on
   manifest files (flock), and the threads of tokio's blocking pool, of which there are so many.
   Atomic counters do not block and are left out.  A panic releases the locks. *)
From Verif Require Import Base.

Inductive lock :=
| Runs                    (* AllRuns::runs, queue.rs:157-192 *)
| RunOf (r : nat)         (* the lock of a run *)
| Conns (r : nat)         (* worker_connection_times, queue.rs:67 *)
| Active (r : nat)        (* active_workers, queue.rs:90 *)
| Seen (r : nat)          (* seen_workers, queue.rs:110 *)
| Timeouts                (* timeout.rs:69 *)
| Cache                   (* results/fs.rs:38 *)
| ResultsFile (r : nat)   (* the Mutex of a file in it, results/fs.rs:34 *)
| ManifestFile (r : nat)  (* flock, manifest/fs.rs:83-103 *)
| Pool.                   (* the threads of the blocking pool *)
Definition lock_eqb (a b : lock) : bool :=
  match a, b with
  | Runs, Runs | Timeouts, Timeouts | Cache, Cache | Pool, Pool => true
  | RunOf r, RunOf r' | Conns r, Conns r' | Active r, Active r' | Seen r, Seen r' | ResultsFile r, ResultsFile r' | ManifestFile r, ManifestFile r' => Nat.eqb r r'
  | _, _ => false
  end.
Inductive mode := Shared | Exclusive.
(* whom it waits for: the process at the other end of the connection, the remote store, a short sleep *)
Inductive peer := Client | Remote | Clock.
Inductive op := Acq (l : lock) (m : mode) | Rel (l : lock) | Wait (w : peer).

(* ---- the machine ---- *)

Record thread := { todo : list op; held : list (lock * mode) }.
(* the threads, and who waits for a lock, in the order they came *)
Record state := { threads : list thread; queue : list nat }.

Definition holders (st : state) (l : lock) : list mode :=
  flat_map (fun t => map snd (filter (fun h => lock_eqb (fst h) l) (held t))) (threads st).
Definition is_exclusive (m : mode) : bool := match m with Exclusive => true | Shared => false end.
(* a lock can be given: to one exclusively if nobody has it, to one who shares it if nobody has it exclusively
   and, of the pool, if a thread is free *)
Definition grantable (pool : nat) (st : state) (l : lock) (m : mode) : bool :=
  match m with
  | Exclusive => match holders st l with [] => true | _ => false end
  | Shared => negb (existsb is_exclusive (holders st l)) && (negb (lock_eqb l Pool) || Nat.ltb (length (holders st l)) pool)
  end.
Definition wants (st : state) (l : lock) (i : nat) : bool :=
  match nth_error (threads st) i with Some {| todo := Acq l' _ :: _ |} => lock_eqb l' l | _ => false end.
Definition first (st : state) (l : lock) : option nat := find (wants st l) (queue st).
Definition waits (st : state) (i : nat) : bool := existsb (Nat.eqb i) (queue st).
Fixpoint release (l : lock) (hs : list (lock * mode)) : list (lock * mode) :=
  match hs with [] => [] | h :: hs' => if lock_eqb (fst h) l then hs' else h :: release l hs' end.
Definition is_first (st : state) (l : lock) (i : nat) : bool := match first st l with Some j => Nat.eqb i j | None => false end.

(* one step of a thread, if it can take one.  Who asked first for a lock gets it first (tokio's locks and pool);
   [pass] says who may get it before (parking_lot's locks do not promise that order). *)
Definition step (pool : nat) (pass : state -> nat -> bool) (st : state) (i : nat) : option state :=
  match nth_error (threads st) i with
  | None => None
  | Some t =>
      match todo t with
      | [] => None
      | Acq l m :: ops =>
          if waits st i then
            if grantable pool st l m && (is_first st l i || pass st i)
            then Some {| threads := upd i {| todo := ops; held := (l, m) :: held t |} (threads st); queue := filter (fun j => negb (Nat.eqb i j)) (queue st) |}
            else None
          else Some {| threads := threads st; queue := queue st ++ [i] |}
      | Rel l :: ops => Some {| threads := upd i {| todo := ops; held := release l (held t) |} (threads st); queue := queue st |}
      | Wait w :: ops => Some {| threads := upd i {| todo := ops; held := held t |} (threads st); queue := queue st |}
      end
  end.

Definition start (progs : list (list op)) : state := {| threads := map (fun p => {| todo := p; held := [] |}) progs; queue := [] |}.

(* ---- the locks of AllRuns ---- *)

(* how a request finds its run: unknown, or in one of the states of queue.rs:63-134 *)
Inductive found := Unknown | WaitingForManifest | HasWork | Done | Cancelled.
(* let runs = self.runs.read(); let run = runs.get(..).read() or .write(); if there is none it returns or panics *)
Definition with_run (r : nat) (m : mode) (f : found) (body : found -> list op) : list op :=
  match f with
  | Unknown => [Acq Runs Shared; Rel Runs]
  | _ => [Acq Runs Shared; Acq (RunOf r) m] ++ body f ++ [Rel (RunOf r); Rel Runs]
  end.
Definition take (l : lock) (m : mode) : list op := [Acq l m; Rel l].

(* queue.rs:358-505 *)
Definition lookup (r : nat) (f : found) : list op :=
  with_run r Shared f (fun f => match f with
    | WaitingForManifest => take (Conns r) Exclusive
    | HasWork => take (Active r) Exclusive
    | Done => take (Seen r) Shared
    | _ => [] end).
(* queue.rs:340-356, 513-679: the run is there; or the remote was asked for it, with an error, or it was created or put there, or
   another request was first *)
Inductive creating := Known (f : found) | RemoteFails | CreatedFresh | NotFresh (f : found).
Definition find_or_create (r : nat) (c : creating) : list op :=
  take Runs Shared ++
  match c with
  | Known f => lookup r f
  | RemoteFails => [Wait Remote]
  | CreatedFresh => [Wait Remote] ++ take Runs Exclusive
  | NotFresh f => [Wait Remote] ++ take Runs Exclusive ++ lookup r f
  end.
(* timeout.rs:141-165 *)
Definition insert_timeout : list op := take Timeouts Shared.
(* queue.rs:1723-1771 *)
Definition get_assigned_run (r : nat) (c : creating) : list op :=
  find_or_create r c ++ match c with CreatedFresh => insert_timeout | _ => [] end.
(* queue.rs:681-757, 1205-1274 (add_manifest, mark_failed_to_receive_manifest, mark_empty_manifest_complete) *)
Definition change_run (r : nat) (f : found) : list op := with_run r Exclusive f (fun _ => []).
(* queue.rs:759-793 *)
Definition init_metadata (r : nat) (f : found) (known : bool) : list op :=
  with_run r Shared f (fun f => match f with
    | Done => take (Seen r) Shared ++ (if known then take (Seen r) Exclusive else [])
    | _ => [] end).
(* queue.rs:795-854 with 1111-1203; [last]: the end of the manifest was reached *)
Definition next_work (r : nat) (f : found) (last : bool) (f' : found) : list op :=
  with_run r Shared f (fun f => match f with
    | HasWork => take (Active r) Exclusive
    | Done => take (Seen r) Exclusive
    | _ => [] end)
  ++ match f with HasWork => if last then change_run r f' else [] | _ => [] end.
(* queue.rs:903-938 *)
Definition write_cell (r : nat) (f : found) : list op := with_run r Shared f (fun _ => []).
(* queue.rs:940-994 *)
Definition read_cell (r : nat) (f : found) : list op :=
  with_run r Shared f (fun f => match f with HasWork => take (Active r) Exclusive | Done => take (Seen r) Shared | _ => [] end).
(* queue.rs:996-1061; [persisted] is what the cell says *)
Definition retry_manifest (r : nat) (f : found) (persisted : bool) : list op :=
  with_run r Shared f (fun f => match f with
    | HasWork => take (Active r) Exclusive
    | Done => if persisted then take (Seen r) Exclusive else []
    | _ => [] end).
(* queue.rs:1063-1109 *)
Definition worker_complete (r : nat) (f : found) : list op :=
  with_run r Shared f (fun f => match f with HasWork => take (Active r) Exclusive | Done => take (Seen r) Exclusive | _ => [] end).
(* queue.rs:1276-1298 *)
Definition mark_cancelled (r : nat) (f : found) : list op :=
  with_run r Exclusive f (fun f => match f with Done => take (Seen r) Exclusive | _ => [] end).
(* queue.rs:1307-1327 *)
Definition run_status (r : nat) (f : found) : list op :=
  with_run r Shared f (fun f => match f with Done => take (Seen r) Shared | _ => [] end).
(* queue.rs:1333-1370 *)
Definition check_progress (r : nat) (known stalled : bool) : list op :=
  [Acq Runs Shared] ++ (if known then take (RunOf r) Shared ++ (if stalled then take (RunOf r) Exclusive else []) else []) ++ [Rel Runs].

(* ---- results on disk ---- *)

(* a call to the file system is run by a thread of the pool *)
Definition disk : list op := take Pool Shared.
(* what becomes of a call to the remote store and of what follows it *)
Definition remote (ok : bool) (next : list op) : list op := Wait Remote :: (if ok then next else []).
(* results/fs.rs:121-156: the file is not in the cache; it is open; it was offloaded and is loaded from the remote *)
Inductive cached := Missing | Open | Offloaded (ok : bool).
Definition fast_path (r : nat) (c : cached) (body : list op) : list op :=
  [Acq Cache Shared] ++
  match c with
  | Missing => []
  | Open => [Acq (ResultsFile r) Exclusive] ++ body ++ [Rel (ResultsFile r)]
  | Offloaded ok => [Acq (ResultsFile r) Exclusive] ++ remote ok (disk ++ body) ++ [Rel (ResultsFile r)]
  end ++ [Rel Cache].
(* results/fs.rs:158-215: [raced]: another request has put the file into the cache meanwhile *)
Definition with_file (r : nat) (c : cached) (raced : bool) (c' : cached) (body : list op) : list op :=
  fast_path r c body ++
  match c with
  | Missing => [Acq Cache Exclusive] ++ (if raced then [] else [Wait Remote] ++ disk) ++ [Rel Cache] ++ fast_path r c' body
  | _ => []
  end.
(* results/fs.rs:325-342, 398-402: seek, write, flush *)
Definition dump_body : list op := disk ++ disk ++ disk.
(* results/fs.rs:345-374 *)
Definition dump_remote_body : list op := disk ++ [Wait Remote].
(* results/fs.rs:376-395, queue.rs:2471-2498: rewind, size, and then the content, chunk by chunk: read from the file and written to
   the client *)
Definition stream_body (chunks : nat) : list op := disk ++ disk ++ [Wait Client] ++ concat (repeat (disk ++ [Wait Client]) chunks).
(* where a file is found by each of the two looks *)
Definition look := (cached * bool * cached)%type.
Definition with_look (r : nat) (k : look) (body : list op) : list op := let '(c, raced, c') := k in with_file r c raced c' body.
(* results.rs:196-217 (PersistencePlan::execute) *)
Definition execute_plan (r : nat) (k : look) (to_remote : option look) : list op :=
  with_look r k dump_body ++ match to_remote with Some k' => with_look r k' dump_remote_body | None => [] end.
(* results/fs.rs:219-320: one file of the directory; [how]: it is not eligible; not found in the cache; not open or not eligible any
   more; the remote fails; offloaded *)
Inductive offload := NotEligible | NotCached | NotOpen | NotAnyMore | OffloadFails | Offloading.
Definition offload_results (r : nat) (how : offload) : list op :=
  disk ++
  match how with
  | NotEligible => []
  | NotCached => take Cache Exclusive
  | NotOpen => [Acq Cache Exclusive; Acq (ResultsFile r) Exclusive; Rel (ResultsFile r); Rel Cache]
  | NotAnyMore => [Acq Cache Exclusive; Acq (ResultsFile r) Exclusive] ++ disk ++ [Rel (ResultsFile r); Rel Cache]
  | OffloadFails => [Acq Cache Exclusive; Acq (ResultsFile r) Exclusive] ++ disk ++ disk ++ remote false [] ++ [Rel (ResultsFile r); Rel Cache]
  | Offloading => [Acq Cache Exclusive; Acq (ResultsFile r) Exclusive] ++ disk ++ disk ++ remote true (disk ++ disk) ++ [Rel (ResultsFile r); Rel Cache]
  end.

(* ---- manifests on disk ---- *)

(* manifest/fs.rs:83-103: a thread of the pool opens the file and waits for its lock *)
Definition lock_manifest (r : nat) : list op := [Acq Pool Shared; Acq (ManifestFile r) Exclusive; Rel Pool].
(* a thread of the pool gets the file and closes it when it is done *)
Definition disk_and_unlock (r : nat) : list op := [Acq Pool Shared; Rel (ManifestFile r); Rel Pool].
(* manifest/fs.rs:105-160: read; if that fails, loaded from the remote, which can fail, and read again *)
Inductive reading := FromDisk | FromRemote (ok : bool).
Definition fetch_manifest (r : nat) (how : reading) : list op :=
  lock_manifest r ++
  match how with
  | FromDisk => disk_and_unlock r
  | FromRemote true => disk ++ [Wait Remote] ++ disk_and_unlock r
  | FromRemote false => disk ++ [Wait Remote] ++ [Rel (ManifestFile r)]
  end.
(* manifest/fs.rs:250-279 *)
Definition dump_manifest (r : nat) : list op := lock_manifest r ++ disk ++ [Wait Remote] ++ [Rel (ManifestFile r)].
(* manifest/fs.rs:188-246 *)
Definition offload_manifest (r : nat) (eligible : bool) : list op := disk ++ (if eligible then lock_manifest r ++ disk_and_unlock r else []).

(* ---- the requests and jobs of a queue ---- *)

(* the locks that are held after some operations *)
Fixpoint holding (hs : list lock) (ops : list op) : list lock :=
  match ops with
  | [] => hs
  | Acq l _ :: ops' => holding (l :: hs) ops'
  | Rel l :: ops' => holding (filter (fun h => negb (lock_eqb h l)) hs) ops'
  | Wait _ :: ops' => holding hs ops'
  end.
Definition talk : list op := [Wait Client].
(* a batch of a persistent connection: how the run is found, whether the end is reached, how it is found then *)
Definition batch := (found * bool * found)%type.
Definition give_batch (r : nat) (b : batch) : list op := let '(f, last, f') := b in talk ++ next_work r f last f' ++ talk.

Inductive request : list op -> Prop :=
(* queue.rs:1895-2051: a health check, the number of active runs, the negotiator's address; work server's health check *)
| Simple : request (talk ++ talk)
(* negotiate.rs:568-644 *)
| Assign r c : request (talk ++ get_assigned_run r c ++ talk)
(* queue.rs:1921-1938, 2053-2068 *)
| Cancel r f : request (talk ++ talk ++ mark_cancelled r f)
(* queue.rs:2132-2262; a summary is persisted if the run takes the manifest *)
| ManifestResult r f plan : request (talk ++ talk ++ change_run r f ++ match plan with Some (k, k') => execute_plan r k k' | None => [] end)
(* queue.rs:2264-2316 *)
| WorkerResults r f plan : request (talk ++ write_cell r f ++ talk ++ match plan with Some (k, k') => execute_plan r k k' | None => [] end)
(* queue.rs:1962-1985, 2367-2379 *)
| RanAll r f : request (talk ++ talk ++ worker_complete r f)
(* queue.rs:2318-2365: an answer, or the results *)
| ResultsAnswer r f : request (talk ++ read_cell r f ++ talk)
| ResultsStream r k chunks : request (talk ++ read_cell r Done ++ with_look r k (stream_body chunks))
(* queue.rs:2381-2400 *)
| Status r f : request (talk ++ run_status r f ++ talk)
(* queue.rs:2606-2624 *)
| Init r f known : request (talk ++ init_metadata r f known ++ talk)
(* queue.rs:2667-2744; the run state is stored at the end without a lock *)
| NextTests r bs (persist : bool) : request (talk ++ concat (map (give_batch r) bs) ++ if persist then dump_manifest r ++ [Wait Remote] else [])
(* queue.rs:2638-2660 *)
| Retry r f persisted : request (talk ++ retry_manifest r f persisted ++ talk)
| RetryFetch r how : request (talk ++ retry_manifest r Done true ++ fetch_manifest r how ++ talk)
(* queue.rs:2409-2468 *)
| TimedOut r known stalled again : request (check_progress r known stalled ++ if again : bool then insert_timeout else [])
(* timeout.rs:171-188: the turns of the loop *)
| Timer n : request (concat (repeat [Acq Timeouts Exclusive; Wait Clock; Rel Timeouts] n))
(* the offload jobs *)
| OffloadResults fs : request (disk ++ concat (map (fun f => offload_results (fst f) (snd f)) fs))
| OffloadManifests fs : request (disk ++ concat (map (fun f => offload_manifest (fst f) (snd f)) fs))
(* a connection or the remote fails while no lock is held: the request ends there *)
| CutOff p w q : request (p ++ Wait w :: q) -> holding [] p = [] -> request (p ++ [Wait w]).
