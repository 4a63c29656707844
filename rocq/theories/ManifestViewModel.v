(* Model of the persisted manifest view:
   crates/abq_queue/src/persistence/manifest.rs:23-58. *)
From Verif Require Import Base.

Section View.
Context {T : Type}.

(* manifest.rs:24-27 *)
Record view := { v_items : list T; v_entities : list tag }.

(* Vec::swap(a, b): panics (None) when an index is out of bounds. *)
Definition swap (a b : nat) (l : list T) : option (list T) :=
  match nth_error l a, nth_error l b with
  | Some x, Some y => Some (upd b x (upd a y l))
  | _, _ => None
  end.

(* manifest.rs:50-55: for (i, entity) in assigned_entities.enumerate() *)
Fixpoint view_loop (who : tag) (i fin : nat) (items : list T) (ents : list tag)
  : option (list T * nat) :=
  match ents with
  | [] => Some (items, fin)
  | e :: ents' =>
      if tag_eqb e who then
        match swap fin i items with
        | Some items' => view_loop who (S i) (S fin) items' ents'
        | None => None
        end
      else view_loop who (S i) fin items ents'
  end.

(* manifest.rs:44-58 (get_partition_for_entity); None is a panic. *)
Definition view_partition (v : view) (who : tag) : option (list T) :=
  match view_loop who 0 0 (v_items v) (v_entities v) with
  | Some (items, fin) => Some (firstn fin items)
  | None => None
  end.
End View.
