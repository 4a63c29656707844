(* What a user sees of the job queue, used to state its properties. *)
From Verif Require Import Base JobQueueModel.

Section Spec.
Context {T : Type}.
Implicit Types (c : config T) (st : state).

(* States that some history of arrivals and interleaved steps leads to. *)
Definition reachable c st : Prop := exists es, st = run (step c) (init c) es.

(* Request number k, made by who asking for n tests, has been answered with
   these tests and this end-of-work flag. *)
Definition answered c st (k : nat) (who : tag) (n : nat) (tests : list T) (eow : bool) : Prop :=
  exists t, nth_error (st_threads st) k = Some t /\ th_tag t = who /\ th_n t = n /\
            bundle c t = tests /\ eow_of c t = Some eow.

(* Request number k is answered with the tests at positions s..e-1 of the manifest. *)
Definition answered_range c st (k : nat) (s e : nat) : Prop :=
  exists t b, nth_error (st_threads st) k = Some t /\ th_pc t = PDone s e b.

(* Nobody is in the middle of a request: each one was answered or did not start. *)
Definition quiescent st : Prop :=
  forall k t, nth_error (st_threads st) k = Some t ->
    th_pc t = PStart \/ exists s e b, th_pc t = PDone s e b.

(* The tests of the manifest, in order. *)
Definition tests_of c : list T := map fst (cf_queue c).

(* The response to request k. *)
Definition response c st (k : nat) : list T :=
  match nth_error (st_threads st) k with Some t => bundle c t | None => [] end.

(* Who made request k. *)
Definition requester st (k : nat) : option tag :=
  option_map th_tag (nth_error (st_threads st) k).

(* Tests at positions i and i+1 belong to the same file (top-level group). *)
Definition same_file c (i : nat) : Prop :=
  exists g, option_map snd (nth_error (cf_queue c) i) = Some g /\
            option_map snd (nth_error (cf_queue c) (S i)) = Some g.

(* Number of requests between their fetch_add and their corrective store. *)
Definition in_flight st : nat :=
  length (filter (fun t => match th_pc t with PFetched _ => true | _ => false end) (st_threads st)).

(* How often request k gets to run in a history. *)
Definition scheduled (k : nat) (es : list event) : nat :=
  length (filter (fun ev => match ev with Step j => Nat.eqb j k | _ => false end) es).

End Spec.
