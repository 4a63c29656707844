(* Vocabulary for stored run states. *)
From Verif Require Import Base JsonModel JsonlModel RunStateModel.
From Coq Require Import String.

(* The object's one member of that name. *)
Definition member (name : string) (ms : list (bytes * json)) (j : json) : Prop :=
  exists l1 l2, ms = l1 ++ (text name, j) :: l2 /\
    (forall kv, In kv (l1 ++ l2) -> fst kv <> text name).
Definition no_member (name : string) (ms : list (bytes * json)) : Prop :=
  forall kv, In kv ms -> fst kv <> text name.
