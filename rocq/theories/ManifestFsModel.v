(* Model of the file-system persister of manifests:
   crates/abq_queue/src/persistence/manifest/fs.rs:38-290.

   Every operation holds the file lock (flock) of the run's file for its whole
   duration, so each is one step with the outcomes of its I/O as parameters.
   The JSON codec (serde_json) is a parameter: [ser] and [parse], and [consumed],
   the number of bytes read from the descriptor by a parse that fails.
   Simplifications: opening and locking a file does not fail; load_to_disk writes
   into the existing file, as s3.rs:130-136 does (File::create truncates it). *)
From Verif Require Import Base OffloadModel ResultsFsModel.

Section ManifestFs.
Context {V : Type} (ser : V -> bytes) (parse : bytes -> option V) (consumed : bytes -> nat).
Context (noop : bool).       (* the remote is the NoopPersister *)

(* A failed load may have written the first n bytes of the remote object. *)
Inductive mload := MLoadOk | MLoadFail (n : option nat).
Inductive mstore := MStoreOk | MStoreFail.
(* A failed write may have written the first n bytes. *)
Inductive mwrite := MWriteOk | MWriteFail (n : nat).
(* fs.rs:233-234 *)
Inductive moffload := MOffOk | MOffSetLenFail | MOffSyncFail.

Inductive manswer :=
| MDumped (r : run_id) (v : V) | MDumpFailed (r : run_id)
| MRead (r : run_id) (v : V) | MReadFailed (r : run_id)
| MOffloaded (r : run_id) | MNotOffloaded (r : run_id).

Record mfs := { m_disk : run_id -> bytes; m_remote : run_id -> option bytes; m_log : list manswer }.

Inductive mevent :=
| MDump (r : run_id) (v : V) (w : mwrite) (s : mstore)
| MLoad (r : run_id) (l : mload)
| MOffload (r : run_id) (c : offload_config) (now : Z) (accessed : option Z) (o : moffload).

(* The bytes of a file after writing b at its start, without truncation (fs.rs:90-95, 254). *)
Definition overwrite (b old : bytes) : bytes := b ++ skipn (length b) old.

Definition mmk (st : mfs) disk remote log : mfs := {| m_disk := disk; m_remote := remote; m_log := m_log st ++ log |}.

Definition mstep (st : mfs) (ev : mevent) : mfs :=
  match ev with
  (* fs.rs:247-275 *)
  | MDump r v w s =>
      let old := m_disk st r in
      match w with
      | MWriteFail n => mmk st (set (m_disk st) r (overwrite (firstn n (ser v)) old)) (m_remote st) [MDumpFailed r]
      | MWriteOk =>
          let disk := set (m_disk st) r (overwrite (ser v) old) in
          match s with
          | MStoreOk => mmk st disk (if noop then m_remote st else set (m_remote st) r (Some (disk r))) [MDumped r v]
          | MStoreFail => mmk st disk (m_remote st) [MDumpFailed r]
          end
      end
  (* fs.rs:106-159: parse; else load, and parse from where the descriptor is *)
  | MLoad r l =>
      let c := m_disk st r in
      match parse c with
      | Some v => mmk st (m_disk st) (m_remote st) [MRead r v]
      | None =>
          match (if noop then None else m_remote st r), l with
          | Some b, MLoadOk =>
              mmk st (set (m_disk st) r b) (m_remote st)
                [match parse (skipn (consumed c) b) with Some v => MRead r v | None => MReadFailed r end]
          | Some b, MLoadFail (Some n) => mmk st (set (m_disk st) r (firstn n b)) (m_remote st) [MReadFailed r]
          | _, _ => mmk st (m_disk st) (m_remote st) [MReadFailed r]
          end
      end
  (* fs.rs:211-242 *)
  | MOffload r c now accessed o =>
      match file_eligible c now (length (m_disk st r)) accessed with
      | None | Some false => mmk st (m_disk st) (m_remote st) [MNotOffloaded r]
      | Some true =>
          match o with
          | MOffSetLenFail => mmk st (m_disk st) (m_remote st) [MNotOffloaded r]
          | MOffSyncFail => mmk st (set (m_disk st) r []) (m_remote st) [MNotOffloaded r]
          | MOffOk => mmk st (set (m_disk st) r []) (m_remote st) [MOffloaded r]
          end
      end
  end.

Definition minit (disk : run_id -> bytes) (remote : run_id -> option bytes) : mfs :=
  {| m_disk := disk; m_remote := remote; m_log := [] |}.
End ManifestFs.
Arguments mevent V : clear implicits.
Arguments manswer V : clear implicits.
Arguments mfs V : clear implicits.
