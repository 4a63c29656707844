(* Model of crates/abq_queue/src/worker_tracking.rs:1-101 (WorkerSet).
   The log_assert! that tags are runner tags only logs (debug builds panic);
   it is not modelled. *)
From Verif Require Import Base.

(* worker_tracking.rs:7 (struct WorkerSet): a vector of pairs. *)
Definition wset (A : Type) := list (entity * A).

Section WorkerSet.
Context {A : Type}.

(* worker_tracking.rs:20-22 (contains_by_tag) *)
Definition contains_by_tag (s : wset A) (e : entity) : bool :=
  existsb (fun p => tag_eqb (en_tag (fst p)) (en_tag e)) s.

(* worker_tracking.rs:26-43 (insert_by_tag), the updated vector: the pair at the
   first position with this tag is swapped out, else the pair is pushed. *)
Fixpoint insert_by_tag (e : entity) (v : A) (s : wset A) : wset A :=
  match s with
  | [] => [(e, v)]
  | p :: t => if tag_eqb (en_tag (fst p)) (en_tag e) then (e, v) :: t
              else p :: insert_by_tag e v t
  end.

(* worker_tracking.rs:26-43 (insert_by_tag), the returned value. *)
Fixpoint replaced_by_tag (e : entity) (s : wset A) : option (entity * A) :=
  match s with
  | [] => None
  | p :: t => if tag_eqb (en_tag (fst p)) (en_tag e) then Some p else replaced_by_tag e t
  end.

(* worker_tracking.rs:45-54 (insert_by_tag_if_missing) *)
Definition insert_by_tag_if_missing (e : entity) (v : A) (s : wset A) : wset A :=
  if contains_by_tag s e then s else s ++ [(e, v)].

(* worker_tracking.rs:90-101 (FromIterator) *)
Definition from_iter (l : list (entity * A)) : wset A :=
  fold_left (fun s p => insert_by_tag (fst p) (snd p) s) l [].

(* worker_tracking.rs:66-77 (worker_count): sort, dedup, len.  sort_unstable is
   modelled by insertion sort, dedup removes consecutive equal numbers. *)
Definition worker_numbers (s : wset A) : list nat :=
  flat_map (fun p => match en_tag (fst p) with TRunner w _ => [w] | _ => [] end) s.
Fixpoint insert_sorted (x : nat) (l : list nat) : list nat :=
  match l with
  | [] => [x]
  | y :: t => if Nat.leb x y then x :: l else y :: insert_sorted x t
  end.
Definition sort_numbers (l : list nat) : list nat := fold_right insert_sorted [] l.
Fixpoint dedup (l : list nat) : list nat :=
  match l with
  | [] => []
  | x :: t => match t with
              | y :: _ => if Nat.eqb x y then dedup t else x :: dedup t
              | [] => [x]
              end
  end.
Definition worker_count (s : wset A) : nat := length (dedup (sort_numbers (worker_numbers s))).

(* A set operation, for stating properties of all sequences of them. *)
Inductive wop := WInsert (e : entity) (v : A) | WInsertIfMissing (e : entity) (v : A).
Definition apply_wop (s : wset A) (o : wop) : wset A :=
  match o with
  | WInsert e v => insert_by_tag e v s
  | WInsertIfMissing e v => insert_by_tag_if_missing e v s
  end.
End WorkerSet.
Arguments wop A : clear implicits.
