(* Vocabulary for the file-system persister of manifests. *)
From Verif Require Import Base OffloadModel ResultsFsModel ManifestFsModel.

Section Spec.
Context {V : Type} (ser : V -> bytes) (parse : bytes -> option V) (consumed : bytes -> nat).

(* What is assumed of the JSON codec. *)
Definition codec_ok : Prop :=
  (forall v, parse (ser v) = Some v) /\
  (forall v n, n < length (ser v) -> parse (firstn n (ser v)) = None) /\   (* nothing shorter is a document *)
  (forall v n, 0 < n -> parse (skipn n (ser v)) = None) /\                  (* nor is its rest *)
  consumed [] = 0.

(* An answer about run r. *)
Definition answer_of (a : manswer V) : run_id :=
  match a with MDumped r _ | MDumpFailed r | MRead r _ | MReadFailed r | MOffloaded r | MNotOffloaded r => r end.

Definition no_dump (r : run_id) (ev : mevent V) : Prop := match ev with MDump r' _ _ _ => r' <> r | _ => True end.
(* A load from the remote that breaks off and leaves a part of the object. *)
Definition whole_loads (r : run_id) (ev : mevent V) : Prop :=
  match ev with MLoad r' (MLoadFail (Some (S _))) => r' <> r | _ => True end.
End Spec.
