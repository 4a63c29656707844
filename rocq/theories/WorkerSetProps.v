(* C16: worker sets hold one entry per worker. *)
From Verif Require Import Base WorkerSetModel WorkerSetSpec WorkerSetProofs.

Section Props.
Context {A : Type}.
Implicit Types (s : wset A) (ops : list (wop A)).

(* At most one entry per tag, whatever was inserted. *)
Theorem C16_one_entry_per_tag ops : NoDup (tags (fold_left apply_wop ops [])).
Proof. exact (nodup_ops ops [] (NoDup_nil _)). Qed.

(* A lookup gives what the sequence of operations should leave for the tag. *)
Theorem C16_latest_insertion_wins t ops :
  entry (fold_left apply_wop ops []) t = expected t ops.
Proof. exact (entry_expected t ops). Qed.

(* Membership agrees with lookup. *)
Theorem C16_contains_iff_entry s e :
  contains_by_tag s e = true <-> entry s (en_tag e) <> None.
Proof. exact (contains_entry s e). Qed.

(* An insertion returns what it replaced. *)
Theorem C16_insert_returns_previous s e : replaced_by_tag e s = entry s (en_tag e).
Proof. exact (replaced_is_entry s e). Qed.

(* Operations on one worker do not affect another. *)
Theorem C16_others_untouched s o t :
  op_tag o <> t -> entry (apply_wop s o) t = entry s t.
Proof.
  destruct o as [e v|e v]; simpl; intros H; apply tag_eqb_false in H.
  - now rewrite entry_insert, H.
  - now rewrite entry_insert_if_missing, H.
Qed.

(* Workers stay listed in the order in which they were first seen. *)
Theorem C16_order_is_first_seen s ops :
  exists later, tags (fold_left apply_wop ops s) = tags s ++ later.
Proof. exact (order_stable s ops). Qed.

(* Collecting pairs into a set is inserting them one by one. *)
Theorem C16_collect_is_insertion (l : list (entity * A)) t :
  entry (from_iter l) t = expected t (map (fun p => WInsert (fst p) (snd p)) l).
Proof. rewrite from_iter_ops. apply entry_expected. Qed.

(* The reported worker count is the number of distinct worker numbers. *)
Theorem C16_worker_count_is_distinct_workers s (ws : list nat) :
  NoDup ws -> (forall w, In w ws <-> exists r, In (TRunner w r) (tags s)) ->
  worker_count s = length ws.
Proof. exact (worker_count_distinct s ws). Qed.
End Props.

Example ex_wset :
  let e1 := {| en_id := 1; en_tag := TRunner 1 1 |} in
  let e1' := {| en_id := 2; en_tag := TRunner 1 1 |} in
  let e2 := {| en_id := 3; en_tag := TRunner 1 2 |} in
  let s := fold_left apply_wop [WInsert e1 10; WInsert e2 20; WInsertIfMissing e1' 30; WInsert e1' 40] [] in
  s = [(e1', 40); (e2, 20)] /\ worker_count s = 1 /\ entry s (TRunner 1 1) = Some (e1', 40).
Proof. vm_compute. auto. Qed.

Print Assumptions C16_one_entry_per_tag.
Print Assumptions C16_latest_insertion_wins.
Print Assumptions C16_contains_iff_entry.
Print Assumptions C16_insert_returns_previous.
Print Assumptions C16_others_untouched.
Print Assumptions C16_order_is_first_seen.
Print Assumptions C16_collect_is_insertion.
Print Assumptions C16_worker_count_is_distinct_workers.
