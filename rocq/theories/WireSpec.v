(* Vocabulary for the framing properties. *)
From Verif Require Import Base JsonModel JsonProofs WireModel.

Section Spec.
Context (gz_encode : bytes -> bytes) (gz_decode : bytes -> option bytes).

(* What is asked of the compression library. *)
Definition gz_ok : Prop := (forall b, gz_decode (gz_encode b) = Some b) /\ (forall b, gz_encode b <> []).

(* The bytes that stand for a message on the wire, after the header. *)
Definition body (compress_large : bool) (m : json) : bytes := fst (write_message_bytes_help gz_encode compress_large m).

(* Messages with well-formed numbers, less than 128 deep, of less than 2 GiB on the wire. *)
Definition sendable (compress_large : bool) (m : json) : Prop :=
  json_ok m /\ nesting m < 128 /\ (Z.of_nat (length (body compress_large m)) < 2 ^ 31)%Z.

Definition wire (compress_large : bool) (msgs : list json) : bytes := flat_map (frame gz_encode compress_large) msgs.

Notation wstep := (wstep gz_decode).

(* The header of a message has been read and nothing of what follows it. *)
Definition header_only (w : world) : Prop :=
  exists size, r_msg_size (w_reader w) = Some size /\ r_read (w_reader w) = 0.

(* In the history [es] from [w] the transport does not break and no deadline passes. *)
Definition undisturbed (es : list event) : Prop := forall e, In e es -> e <> Break /\ e <> Expire.

(* ... and no call is cancelled while only the header of its message has been read. *)
Fixpoint no_cancel_at_header (closed : bool) (w : world) (es : list event) : Prop :=
  match es with
  | [] => True
  | e :: es' => ~ (e = Cancel /\ w_calling w = true /\ header_only w) /\ no_cancel_at_header closed (wstep closed w e) es'
  end.

(* The answers for a list of messages. *)
Definition delivered (compress_large : bool) (msgs : list json) : list answer :=
  map (fun m => Message m (length (body compress_large m))) msgs.
End Spec.

(* The turns of the blocking reader in which the transport answers. *)
Definition answers (ts : list turn) : nat :=
  length (filter (fun t => match t with Got _ => true | _ => false end) ts).
