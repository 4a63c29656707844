(* Model of crates/abq_queue/src/persistence/offload.rs:9-51 (OffloadConfig).
   Times (SystemTime) and durations are integers of the same unit. *)
From Verif Require Import Base.
Local Open Scope Z_scope.

(* offload.rs:9-24 *)
Inductive offload_config := Never | After (d : Z).

(* offload.rs:26-31 (should_offload) *)
Definition should_offload (c : offload_config) (elapsed : Z) : bool :=
  match c with Never => false | After d => Z.leb d elapsed end.

(* SystemTime::duration_since: an error when the other time is later. *)
Definition duration_since (now earlier : Z) : option Z :=
  if Z.leb earlier now then Some (now - earlier) else None.

(* offload.rs:33-50 (file_eligible_for_offload); None is Err.  [accessed] is None
   when the file system does not give access times. *)
Definition file_eligible (c : offload_config) (now : Z) (size : nat) (accessed : option Z) : option bool :=
  if Nat.ltb 0 size then
    match accessed with
    | None => None
    | Some t => if Z.ltb now t then Some false
                else match duration_since now t with
                     | None => None
                     | Some elapsed => Some (should_offload c elapsed)
                     end
    end
  else Some false.
