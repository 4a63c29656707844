(* What is seen of a whole test run. *)
From Verif Require Import Base JobQueueModel JobQueueSpec.
From Verif Require Import StatusModel FetchModel FetchSpec RunnerModel RunnerSpec SystemModel.

(* All reports sent by a runner, and by all of them. *)
Definition reported_by (sl : slot) : list aresult := concat (r_sent (sl_runner sl)).
Definition reported (y : system) : list aresult := flat_map reported_by (y_slots y).
(* Those of a first attempt. *)
Definition firsts (rs : list aresult) : list aresult := filter (fun r => Nat.eqb (ar_run r) 1) rs.

(* Every runner has returned. *)
Definition all_finished (y : system) : Prop := Forall (fun sl => finished (sl_runner sl)) (y_slots y).
(* A runner has returned whose native runner did not crash. *)
Definition survives (sl : slot) : Prop := finished (sl_runner sl) /\ ~ crashed (sl_runner sl).

(* Runners are started with a batch size and allow at least one attempt; the tests of the
   manifest have different work ids. *)
Definition sound (c : config nat) (ps : list params) : Prop :=
  NoDup (tests_of c) /\ Forall (fun p => 1 <= p_batch p /\ 1 <= p_max p) ps.

(* The states of a run of these runners with this manifest. *)
Definition reaches (c : config nat) (ps : list params) (y : system) : Prop := exists es, y = run (sstep c) (sinit c ps) es.

(* Some part of the system can go on, whatever the native runners answer. *)
Definition system_moves (c : config nat) (y : system) : Prop :=
  (exists i, forall o, sstep c y (Go i (Task o)) <> y) \/
  exists e, (forall i o, e <> Go i (Task o)) /\ sstep c y e <> y.

(* Every event of the schedule changes the state. *)
Fixpoint all_effective (c : config nat) (y : system) (es : list sevent) : Prop :=
  match es with [] => True | e :: es' => sstep c y e <> y /\ all_effective c (sstep c y e) es' end.

(* No native runner fails. *)
Definition no_failure (es : list sevent) : Prop := Forall (fun e => forall i, e <> Go i (Task Failed)) es.
