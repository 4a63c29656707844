(* Model of the file-system persister of results:
   crates/abq_queue/src/persistence/results/fs.rs:29-416, with the remote of
   crates/abq_queue/src/persistence/remote/{s3,custom,noop}.rs.

   Files and remote objects are byte strings.  Every operation holds the lock of
   the cache entry for its whole duration (fs.rs:127-156, 167-196, 272-318), so
   each is one step with the outcomes of its I/O as parameters; with_file
   (fs.rs:159-211) is the insertion of the entry and then the operation proper,
   and other operations may come in between.
   Simplifications: creating or opening a file does not fail; run ids stand for
   their paths (KeysModel); a read that fails half-way is not an answer. *)
From Verif Require Import Base OffloadModel.

Definition run_id := nat.
Definition newline : byte := 10.

(* fs.rs:29-32 (FdState); the open descriptor is the file at the run's path. *)
Inductive fd_state := FdOpen | FdOffloaded.

(* load_to_disk (s3.rs:125-143, custom.rs:99-107): success copies the remote object
   to the path; a failure may leave a part of it there (File::create, then copy). *)
Inductive load_outcome := LoadOk | LoadFail (lft : option bytes).
(* store_from_disk (s3.rs:109-123, custom.rs:109-117): a failure may leave anything. *)
Inductive store_outcome := StoreOk | StoreFail (lft : option bytes).
(* write_packed_line (fs.rs:411-416): a failure may leave the first n bytes. *)
Inductive write_outcome := WriteOk | WriteFail (n : nat).
(* perform_offload, the I/O after the eligibility check (fs.rs:302-314). *)
Inductive offload_outcome :=
| OffOk | OffSyncFail | OffStoreFail (lft : option bytes) | OffSetLenFail | OffSecondSyncFail.

Inductive answer :=
| ADumped (r : run_id) (line : bytes)     (* dump returned Ok *)
| ADumpFailed (r : run_id)
| ARead (r : run_id) (content : bytes)    (* the streamed file *)
| AReadFailed (r : run_id)
| AStored (r : run_id) | AStoreFailed (r : run_id)
| AOffloaded (r : run_id) | ANotOffloaded (r : run_id).

Record fs := { fs_disk : run_id -> option bytes; fs_cache : run_id -> option fd_state;
               fs_remote : run_id -> option bytes; fs_log : list answer }.

Definition set {B} (f : run_id -> B) (r : run_id) (b : B) : run_id -> B :=
  fun r' => if Nat.eqb r' r then b else f r'.

Inductive event :=
| FEnsure (r : run_id) (l : load_outcome)                      (* the slow path *)
| FDump (r : run_id) (line : bytes) (l : load_outcome) (w : write_outcome)
| FRead (r : run_id) (l : load_outcome)
| FDumpRemote (r : run_id) (l : load_outcome) (s : store_outcome)
| FOffload (r : run_id) (c : offload_config) (now : Z) (accessed : option Z) (o : offload_outcome)
| FRestart.                                                    (* a new process, same disk *)

Section Fs.
(* Whether the remote is the NoopPersister (noop.rs:22-57), which says Ok to
   every store without storing, and never loads. *)
Context (noop : bool).

Definition say (st : fs) (a : list answer) : fs :=
  {| fs_disk := fs_disk st; fs_cache := fs_cache st; fs_remote := fs_remote st; fs_log := fs_log st ++ a |}.
Definition put_disk (st : fs) (r : run_id) (b : option bytes) : fs :=
  {| fs_disk := set (fs_disk st) r b; fs_cache := fs_cache st; fs_remote := fs_remote st; fs_log := fs_log st |}.
Definition put_cache (st : fs) (r : run_id) (c : fd_state) : fs :=
  {| fs_disk := fs_disk st; fs_cache := set (fs_cache st) r (Some c); fs_remote := fs_remote st; fs_log := fs_log st |}.
Definition put_remote (st : fs) (r : run_id) (b : option bytes) : fs :=
  {| fs_disk := fs_disk st; fs_cache := fs_cache st; fs_remote := set (fs_remote st) r b; fs_log := fs_log st |}.

Definition contents (b : option bytes) : bytes := match b with Some b => b | None => [] end.

(* load_to_disk: a remote without the object cannot succeed. *)
Definition load (st : fs) (r : run_id) (l : load_outcome) : fs * bool :=
  match l, fs_remote st r with
  | LoadOk, Some b => if noop then (st, false) else (put_disk st r (Some b), true)
  | LoadOk, None => (st, false)
  | LoadFail None, _ => (st, false)
  | LoadFail (Some b), _ => if noop then (st, false) else (put_disk st r (Some b), false)
  end.

(* store_from_disk of the file as it is. *)
Definition store (st : fs) (r : run_id) (s : store_outcome) : fs * bool :=
  match s with
  | StoreOk => (if noop then st else put_remote st r (Some (contents (fs_disk st r))), true)
  | StoreFail lft => (match lft with Some b => if noop then st else put_remote st r (Some b) | None => st end, false)
  end.

(* open_file, fs.rs:110-119: creates the file if it does not exist. *)
Definition open_file (st : fs) (r : run_id) : fs := put_disk st r (Some (contents (fs_disk st r))).

(* with_file_fast_path (fs.rs:121-157) up to f.run; None: the load failed, or no entry. *)
Definition with_open (st : fs) (r : run_id) (l : load_outcome) (fail : list answer) (f : fs -> fs) : fs :=
  match fs_cache st r with
  | None => st                                    (* goes to the slow path *)
  | Some FdOpen => f st
  | Some FdOffloaded =>
      let '(st', ok) := load st r l in
      if ok then put_cache (f (open_file st' r)) r FdOpen else say st' fail
  end.

Definition step (st : fs) (ev : event) : fs :=
  match ev with
  (* fs.rs:165-196: the result of the load is ignored *)
  | FEnsure r l =>
      match fs_cache st r with
      | Some _ => st
      | None => put_cache (open_file (fst (load st r l)) r) r FdOpen
      end
  (* fs.rs:324-342, 411-416 *)
  | FDump r line l w =>
      with_open st r l [ADumpFailed r] (fun st =>
        match w with
        | WriteOk => say (put_disk st r (Some (contents (fs_disk st r) ++ line ++ [newline]))) [ADumped r line]
        | WriteFail n =>
            say (put_disk st r (Some (contents (fs_disk st r) ++ firstn n (line ++ [newline])))) [ADumpFailed r]
        end)
  (* fs.rs:377-404 *)
  | FRead r l => with_open st r l [AReadFailed r] (fun st => say st [ARead r (contents (fs_disk st r))])
  (* fs.rs:344-375 *)
  | FDumpRemote r l s =>
      with_open st r l [AStoreFailed r] (fun st =>
        let '(st', ok) := store st r s in say st' [if ok then AStored r else AStoreFailed r])
  (* fs.rs:264-319 *)
  (* the check of fs.rs:249, before taking the lock, only makes fewer files go here *)
  | FOffload r c now accessed o =>
      match fs_cache st r with
      | Some FdOpen =>
          match file_eligible c now (length (contents (fs_disk st r))) accessed with
          | None | Some false => say st [ANotOffloaded r]
          | Some true =>
          match o with
          | OffSyncFail => say st [ANotOffloaded r]
          | OffStoreFail lft => say (fst (store st r (StoreFail lft))) [ANotOffloaded r]
          | OffSetLenFail => say (fst (store st r StoreOk)) [ANotOffloaded r]
          | OffSecondSyncFail => say (put_disk (fst (store st r StoreOk)) r (Some [])) [ANotOffloaded r]
          | OffOk => say (put_cache (put_disk (fst (store st r StoreOk)) r (Some [])) r FdOffloaded) [AOffloaded r]
          end
          end
      | _ => say st [ANotOffloaded r]
      end
  | FRestart => {| fs_disk := fs_disk st; fs_cache := fun _ => None; fs_remote := fs_remote st; fs_log := fs_log st |}
  end.

Definition fs_init (disk remote : run_id -> option bytes) : fs :=
  {| fs_disk := disk; fs_cache := fun _ => None; fs_remote := remote; fs_log := [] |}.
End Fs.
