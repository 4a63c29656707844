(* What is seen of a run that may be cancelled. *)
From Verif Require Import Base JobQueueModel JobQueueSpec.
From Verif Require Import StatusModel FetchModel FetchSpec RunnerModel RunnerSpec SystemModel SystemSpec CancelRunModel.

(* The states of a run of these runners with this manifest. *)
Definition can_reach (c : config nat) (ps : list params) (k : crun) : Prop := exists es, k = run (cstep c) (cinit c ps) es.

(* The tests a runner was given for a first attempt. *)
Definition given (sl : slot) : list nat := map id_of (first_attempts (r_world (sl_runner sl))).

(* The tests in the queue's answers to the requests made so far, answered in this order. *)
Definition taken_from_queue (c : config nat) (k : crun) : list nat :=
  flat_map (response c (y_queue (k_system k))) (st_log (y_queue (k_system k))).

(* Some part of the system can go on, whatever the native runners answer. *)
Definition run_moves (c : config nat) (k : crun) : Prop :=
  (exists i, forall o, cstep c k (Sys (Go i (Task o))) <> k) \/
  exists e, (forall i o, e <> Sys (Go i (Task o))) /\ e <> Cancel /\ cstep c k e <> k.

Fixpoint run_effective (c : config nat) (k : crun) (es : list cevent) : Prop :=
  match es with [] => True | e :: es' => cstep c k e <> k /\ run_effective c (cstep c k e) es' end.
