(* What a manifest in a runner's message describes, and when two JSON values say the same: the vocabulary of
   C75. *)
From Verif Require Import Base JsonModel JsonProofs JsonlModel RunStateModel CodecModel CodecSpec ManifestCodecModel.
From Coq Require Import String.

(* The last value under a key. *)
Definition last_of (k : bytes) (l : list (bytes * json)) : option json :=
  fold_left (fun found kv => if bytes_eqb (fst kv) k then Some (snd kv) else found) l None.

(* Two values say the same: the members of objects may be in another order, and only the last of equal keys
   counts. *)
Inductive same : json -> json -> Prop :=
| same_atom j : match j with JArr _ | JObj _ => False | _ => True end -> same j j
| same_arr l l' : Forall2 same l l' -> same (JArr l) (JArr l')
| same_obj l l' :
    (forall k v, last_of k l = Some v -> exists v', last_of k l' = Some v' /\ same v v') ->
    (forall k, last_of k l = None -> last_of k l' = None) ->
    same (JObj l) (JObj l').

Definition has (ms : list (bytes * json)) (name : string) (v : json) : Prop := In (text name, v) ms.

(* The tests of a member of a manifest in source order: the id and the metadata of each. *)
Inductive tells : json -> list (bytes * json) -> Prop :=
| tells_test ms id meta : has ms "type" (JStr (text "test")) -> has ms "id" (JStr id) -> has ms "meta" meta ->
    tells (JObj ms) [(id, meta)]
| tells_group ms l told : has ms "type" (JStr (text "group")) -> has ms "members" (JArr l) -> Forall2 tells l told ->
    tells (JObj ms) (List.concat told).

(* A message with a manifest: its tests and its metadata for the start of runners. *)
Definition message_tells (b : bytes) (told : list (bytes * json)) (init : json) : Prop :=
  exists message manifest members each,
    read_json b = Some (JObj message) /\ has message "manifest" (JObj manifest) /\
    has manifest "members" (JArr members) /\ has manifest "init_meta" init /\
    Forall2 tells members each /\ told = List.concat each.

Definition depth_at_most (d : nat) (b : bytes) : Prop := forall j, read_json b = Some j -> nesting j <= d.

(* A message arrives as it was sent. *)
Definition arrives {A} (c : codec A) (a : A) : Prop := from_text c (to_text c a) = Some a.

(* The members of a test and of a group in the protocol. *)
Definition node_fields : list string := ["type"; "id"; "name"; "members"; "tags"; "meta"]%string.

(* The objects that runners are sent. *)
Definition plain_case (id : bytes) (meta : json) : json :=
  JObj [(text "test_case", JObj [(text "id", JStr id); (text "meta", meta)])].
Definition focused_case (id : bytes) (meta : json) (ids : list bytes) : json :=
  JObj [(text "test_case", JObj [(text "id", JStr id); (text "meta", meta);
                                 (text "focus", JObj [(text "test_ids", JArr (map JStr ids))])])].
Definition init_object (meta : json) (fast_exit : bool) : json :=
  JObj [(text "init_meta", meta); (text "fast_exit", JBool fast_exit)].

Definition a_version (v : N * N) : Prop := (fst v < 2 ^ 64)%N /\ (snd v < 2 ^ 64)%N.
