(* What is said about queue processes that follow each other on one store (C83). *)
From Verif Require Import Base JobQueueModel WorkerSetModel ManifestViewModel RunModel RunSpec ServerModel ServerSpec RestartModel.

Section Spec.
Context {T M L : Type}.
Implicit Types (st : qstate T M L) (r : run_id) (p : plan T M).

(* States that some history of processes leads to, from a store with nothing in it. *)
Definition qreachable st : Prop := exists es, st = run qstep qinit es.

(* What was seen in l was seen while one process ran. *)
Definition one_life (l : list (qobs T M L)) : Prop := ~ In QStarted l.

(* What was said about runs in l. *)
Definition runs_seen (l : list (qobs T M L)) : list (obs T M) :=
  flat_map (fun x => match x with QRun o => [o] | _ => [] end) l.

(* The workers that were told to have their tests loaded, and those that were answered. *)
Definition to_be_loaded (l : list (qobs T M L)) : list (run_id * entity) :=
  flat_map (fun x => match x with QRun (ORetry r e RFetchFromPersistence) => [(r, e)] | _ => [] end) l.
Definition answered (l : list (qobs T M L)) : list (run_id * entity) :=
  flat_map (fun x => match x with QManifest r e _ => [(r, e)] | _ => [] end) l.

(* The state of run r was stored at its end, as p says. *)
Definition state_kept st r p : Prop := In (QStateKept r p true) (q_log st).
(* So were its state and its manifest, by one process. *)
Definition kept st r p : Prop := exists l1 l2 l3, q_log st = l1 ++ l2 ++ l3 /\ one_life l2 /\
  In (QStateKept r p true) l2 /\ In (QManifestKept r p true) l2.

(* Worker t took part in run r as it was when p was stored. *)
Definition took_part p (t : tag) : Prop := exists e, In e (sv_seen (pl_state p)) /\ en_tag e = t.

(* What may be said about a run that ended with s: its workers are told to fetch the tests they
   had and whether their command is another one, others that it is done; the run is not given
   out again, takes no manifest, and is not cancelled.  FatalError: the store could not be
   consulted. *)
Definition as_ended (s : saved_state M) (o : obs T M) : Prop :=
  match o with
  | OAssigned q a =>
      a = FatalError \/
      a = AssignedRun RetryAndContinue (match sv_hash s with Some h => negb (Nat.eqb h (fp_hash q)) | None => false end) \/
      (a = AlreadyDone (sv_exit s) /\ forall e, In e (sv_seen s) -> en_tag e <> en_tag (fp_entity q))
  | OMetadata _ _ a => a = IMetadata (sv_meta s) \/ a = IRunAlreadyCompleted false
  | ORetry _ _ a => a = RFetchFromPersistence \/ a = RNotYetPersisted \/ a = RRunDoesNotExist
  | OWork _ _ _ _ eow pl => eow = true /\ pl = None
  | OManifest _ _ ok => ok = false
  | OStatus _ a => a = None \/ exists n, a = Some (SManifestDone n)
  | OTimeout _ _ a => a = None \/ a = Some PRunComplete
  | _ => True
  end.

(* No load of the results of run r fails in a process that starts. *)
Definition loads_well r (ev : qevent T M L) : Prop :=
  match ev with QRestart _ first => first r = None | _ => True end.
End Spec.
