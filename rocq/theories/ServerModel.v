(* Model of the results plane of the queue server, on top of the runs of RunModel:
   crates/abq_queue/src/queue.rs:903-994 (which cell a run gives to writers and
   readers), 2133-2261 (the summary line written for an accepted manifest),
   2264-2315 (handle_worker_results), 2318-2364 (handle_test_results_request) and
   crates/abq_queue/src/persistence/results.rs:92-209 (ResultsPersistedCell,
   PersistencePlan).

   Each request is a small program; a history interleaves their steps arbitrarily.
   The stores are abstract here: the local store of a run is the list of lines
   dumped to it, a dump appends one line or fails, and a dump to the remote copies
   the local lines or fails (ResultsFsModel has the file-system persister).
   A cell lives as long as its run, and a run never leaves the map, so the counter
   is kept per run id.  Lines are opaque. *)
From Verif Require Import Base JobQueueModel WorkerSetModel RunModel.

Section Server.
Context {T M L : Type}.

(* Where a write is. *)
Inductive write_pc :=
| WLooked                       (* has the cell, queue.rs:2296 *)
| WPlanned                      (* counted, results.rs:135 or :153; the ACK comes next, queue.rs:2307 *)
| WReady                        (* about to dump, results.rs:193 *)
| WDumped (ok : bool)           (* dumped, about to decrement, results.rs:197 *)
| WRemote (ok : bool)           (* about to dump to the remote, results.rs:204 *)
| WDone (ok : bool).            (* execute returned, results.rs:208; ok: the local dump succeeded *)

(* One write: the line of a worker (Some) or the summary of a manifest (None). *)
Record write := { w_run : run_id; w_from : option entity; w_line : L; w_elig : bool; w_pc : write_pc }.

(* Where a request for results is: has the cell (queue.rs:2326), saw no pending
   write (queue.rs:2349), or is answered. *)
Inductive read_pc := RdGot | RdStream | RdAnswered.
Record read := { rd_run : run_id; rd_pc : read_pc }.

(* net_protocol.rs TestResultsResponse, with the streamed lines (queue.rs:2356-2362) *)
Inductive fetch_answer :=
| AInProgress (active : list tag) | AError | APending | AStream (lines : list L).

(* What participants see.  SSent: a batch (or summary) was taken for writing.
   SAck: the worker was sent the ACK of its batch; [None] when the run has no cell
   for it and the batch is dropped.  SFailed: the local dump of a write failed.
   SFinished: a write left the pending count. *)
Inductive sobs :=
| SSent (k : nat) (r : run_id) (line : L)
| SAck (k : option nat) (r : run_id) (e : entity) (line : L)
| SFailed (k : nat)
| SFinished (k : nat) (r : run_id)
| SStoreFailed (k : nat)
| SAsked (k : nat) (r : run_id)
| SAnswer (k : nat) (r : run_id) (a : fetch_answer).

Record sstate := { sv_core : RunModel.state T M;
                   sv_count : run_id -> Z;              (* results.rs:97, processing *)
                   sv_file : run_id -> list L;          (* the local store *)
                   sv_remote : run_id -> option (list L);
                   sv_writes : list write; sv_reads : list read; sv_log : list sobs }.

(* The stores may hold lines of earlier queue processes. *)
Definition sinit (files : run_id -> list L) (remote : run_id -> option (list L)) : sstate :=
  {| sv_core := init_state; sv_count := fun _ => 0%Z; sv_file := files; sv_remote := remote;
     sv_writes := []; sv_reads := []; sv_log := [] |}.

Definition fset {B} (f : run_id -> B) (r : run_id) (b : B) : run_id -> B :=
  fun r' => if Nat.eqb r' r then b else f r'.

(* queue.rs:903-938 (get_write_results_cell): the eligibility, or no cell. *)
Definition write_cell (st : RunModel.state T M) (r : run_id) : option bool :=
  match get r (s_runs st) with
  | None => None
  | Some (Waiting _ _ _ _) => None
  | Some (HasWork _ _ _ _ _) => Some false
  | Some (Done _ _ _ _ _ _) => Some true
  | Some (Cancelled _ _) => None
  end.

(* queue.rs:940-994 (get_read_results_cell) *)
Inductive read_state := RSError | RSInProgress (active : list tag) | RSCell.
Definition read_cell (st : RunModel.state T M) (r : run_id) : read_state :=
  match get r (s_runs st) with
  | None => RSError
  | Some (Waiting _ _ _ _) => RSError
  | Some (HasWork _ _ _ active _) =>
      RSInProgress (map (fun p => en_tag (fst p))
        (filter (fun p : entity * option nat => match snd p with None => true | Some _ => false end) active))
  | Some (Done _ _ seen _ _ _) =>
      match map (fun p => en_tag (fst p)) (filter (fun p : entity * bool => snd p) seen) with
      | [] => RSCell
      | a => RSInProgress a
      end
  | Some (Cancelled _ _) => RSError
  end.

Inductive sevent :=
| SCore (ev : RunModel.event T M)                     (* any other operation on runs *)
| SManifest (r : run_id) (flat : list (T * group)) (meta : M) (summary : L)
| SResults (r : run_id) (e : entity) (line : L)       (* a worker sends results *)
| SWrite (k : nat) (ok : bool)                        (* write k makes a step; ok: its I/O succeeds *)
| SFetch (r : run_id)                                 (* a client asks for the results *)
| SRead (k : nat) (ok : bool).

Definition smk st core count file remote writes reads log : sstate :=
  {| sv_core := core; sv_count := count; sv_file := file; sv_remote := remote;
     sv_writes := writes; sv_reads := reads; sv_log := sv_log st ++ log |}.

(* queue.rs:2151 / 2233 answer Added / Recorded: the manifest was accepted. *)
Definition manifest_accepted (st : RunModel.state T M) (r : run_id) : bool :=
  match get r (s_runs st) with Some (Waiting _ _ _ _) => negb (busy st r) | _ => false end.

Definition wgo (w : write) (p : write_pc) : write :=
  {| w_run := w_run w; w_from := w_from w; w_line := w_line w; w_elig := w_elig w; w_pc := p |}.

(* One step of write k. *)
Definition write_step (st : sstate) (k : nat) (w : write) (ok : bool) : sstate :=
  let r := w_run w in
  let go p := upd k (wgo w p) (sv_writes st) in
  let count := sv_count st in
  match w_pc w with
  | WLooked =>      (* results.rs:127-143, 145-161 *)
      smk st (sv_core st) (fset count r (u64 (count r + 1))) (sv_file st) (sv_remote st)
          (go (match w_from w with Some _ => WPlanned | None => WReady end)) (sv_reads st) []
  | WPlanned =>     (* queue.rs:2306-2312; an ACK that fails to be sent is not seen *)
      smk st (sv_core st) count (sv_file st) (sv_remote st) (go WReady) (sv_reads st)
          (match w_from w, ok with Some e, true => [SAck (Some k) r e (w_line w)] | _, _ => [] end)
  | WReady =>       (* results.rs:193-196 *)
      if ok then smk st (sv_core st) count (fset (sv_file st) r (sv_file st r ++ [w_line w])) (sv_remote st)
                     (go (WDumped true)) (sv_reads st) []
      else smk st (sv_core st) count (sv_file st) (sv_remote st) (go (WDumped false)) (sv_reads st) [SFailed k]
  | WDumped d =>    (* results.rs:197-201 *)
      smk st (sv_core st) (fset count r (u64 (count r - 1))) (sv_file st) (sv_remote st)
          (go (if Z.eqb (count r) 1 && w_elig w then WRemote d else WDone d)) (sv_reads st) [SFinished k r]
  | WRemote d =>    (* results.rs:204-206 *)
      if ok then smk st (sv_core st) count (sv_file st) (fset (sv_remote st) r (Some (sv_file st r)))
                     (go (WDone d)) (sv_reads st) []
      else smk st (sv_core st) count (sv_file st) (sv_remote st) (go (WDone d)) (sv_reads st) [SStoreFailed k]
  | WDone _ => st
  end.

Definition add_write (st : sstate) (core : RunModel.state T M) (w : write) : sstate :=
  smk st core (sv_count st) (sv_file st) (sv_remote st) (sv_writes st ++ [w]) (sv_reads st)
      [SSent (length (sv_writes st)) (w_run w) (w_line w)].
Definition set_core (st : sstate) (core : RunModel.state T M) (log : list sobs) : sstate :=
  smk st core (sv_count st) (sv_file st) (sv_remote st) (sv_writes st) (sv_reads st) log.
Definition set_reads (st : sstate) (reads : list read) (log : list sobs) : sstate :=
  smk st (sv_core st) (sv_count st) (sv_file st) (sv_remote st) (sv_writes st) reads log.

(* queue.rs:2318-2364: the parts of handle_test_results_request. *)
Definition fetch (st : sstate) (r : run_id) : sstate :=
  let k := length (sv_reads st) in
  match read_cell (sv_core st) r with
  | RSError => set_reads st (sv_reads st ++ [{| rd_run := r; rd_pc := RdAnswered |}]) [SAsked k r; SAnswer k r AError]
  | RSInProgress a =>
      set_reads st (sv_reads st ++ [{| rd_run := r; rd_pc := RdAnswered |}]) [SAsked k r; SAnswer k r (AInProgress a)]
  | RSCell => set_reads st (sv_reads st ++ [{| rd_run := r; rd_pc := RdGot |}]) [SAsked k r]
  end.
Definition read_step (st : sstate) (k : nat) (rd : read) (ok : bool) : sstate :=
  let r := rd_run rd in
  let go p := upd k {| rd_run := r; rd_pc := p |} (sv_reads st) in
  match rd_pc rd with
  | RdGot => if Z.eqb (sv_count st r) 0 then set_reads st (go RdStream) []
             else set_reads st (go RdAnswered) [SAnswer k r APending]
  | RdStream => set_reads st (go RdAnswered) (if ok then [SAnswer k r (AStream (sv_file st r))] else [])
  | RdAnswered => st
  end.

Definition sstep (st : sstate) (ev : sevent) : sstate :=
  match ev with
  | SCore (EManifest _ _ _) => st        (* not an event: manifests come with SManifest *)
  | SCore ev => set_core st (RunModel.step (sv_core st) ev) []
  (* queue.rs:2147-2181, 2233-2252 *)
  | SManifest r flat meta summary =>
      let core := RunModel.step (sv_core st) (EManifest r flat meta) in
      if manifest_accepted (sv_core st) r then
        add_write st core {| w_run := r; w_from := None; w_line := summary;
                             w_elig := match flat with [] => true | _ => false end; w_pc := WLooked |}
      else set_core st core []
  (* queue.rs:2292-2314 *)
  | SResults r e line =>
      match write_cell (sv_core st) r with
      | None => set_core st (sv_core st) [SAck None r e line]
      | Some el => add_write st (sv_core st)
                     {| w_run := r; w_from := Some e; w_line := line; w_elig := el; w_pc := WLooked |}
      end
  | SWrite k ok => match nth_error (sv_writes st) k with Some w => write_step st k w ok | None => st end
  | SFetch r => fetch st r
  | SRead k ok => match nth_error (sv_reads st) k with Some rd => read_step st k rd ok | None => st end
  end.
End Server.
Arguments sstate T M L : clear implicits.
Arguments sevent T M L : clear implicits.
Arguments sobs L : clear implicits.
Arguments write L : clear implicits.
