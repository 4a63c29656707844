(* What participants see of the runs of a queue, used to state properties. *)
From Verif Require Import Base JobQueueModel WorkerSetModel RunModel.

Section Spec.
Context {T M : Type}.
Implicit Types (st : state T M) (r : run_id) (o : obs T M).

(* States that some history leads to. *)
Definition reachable st : Prop := exists es, st = run step init_state es.

(* The phase of a run. *)
Inductive phase := PhWaiting | PhOpen | PhOver | PhCancelled.
Definition phase_of_state (s : run_state T M) : phase :=
  match s with
  | Waiting _ _ _ _ => PhWaiting
  | HasWork _ _ _ _ _ => PhOpen
  | Done _ _ _ _ _ _ => PhOver
  | Cancelled _ _ => PhCancelled
  end.
Definition phase_of st r : option phase := option_map phase_of_state (get r (s_runs st)).

(* Which run an observation is about. *)
Definition obs_run o : option run_id :=
  match o with
  | OAssigned p _ => Some (fp_run p)
  | OMetadata r _ _ | OAsk _ r _ | OWork _ r _ _ _ _ | ORetry r _ _ | OManifest r _ _
  | OManifestFailed r | OCompleted r _ | OCancel r _ | OTimeout r _ _ | OStatus r _
  | OPanic r => Some r
  | OActiveRuns _ => None
  end.
Definition about r o : bool :=
  match obs_run o with Some r' => Nat.eqb r' r | None => false end.

(* Who sent the request an observation answers. *)
Definition obs_entity o : option entity :=
  match o with
  | OAssigned p _ => Some (fp_entity p)
  | OMetadata _ e _ | OAsk _ _ e | OWork _ _ e _ _ _ | ORetry _ e _
  | OCompleted _ e | OCancel _ e => Some e
  | _ => None
  end.

(* Everything seen about run r, in order. *)
Definition history st r : list (obs T M) := filter (about r) (s_log st).

(* Told to generate the manifest. *)
Definition told_to_generate o : bool :=
  match o with OAssigned _ (AssignedRun (Fresh true) _) => true | _ => false end.
(* Told that the queue failed to consult the remote store. *)
Definition told_fatal o : bool :=
  match o with OAssigned _ FatalError => true | _ => false end.
(* Was given a place in the run. *)
Definition told_to_run o : bool :=
  match o with OAssigned _ (AssignedRun _ _) => true | _ => false end.
Definition is_assignment o : bool := match o with OAssigned _ _ => true | _ => false end.
Definition sent_tests o : list (worker_test T) :=
  match o with OWork _ _ _ ts _ _ => ts | _ => [] end.
Definition has_plan o : bool := match o with OWork _ _ _ _ _ (Some _) => true | _ => false end.
Definition accepted_manifest o : bool := match o with OManifest _ _ true => true | _ => false end.
Definition accepted_tests o : bool := match o with OManifest _ (S _) true => true | _ => false end.

Definition count (f : obs T M -> bool) (l : list (obs T M)) : nat := length (filter f l).

(* Runs that are waiting for a manifest or have work to hand out. *)
Definition is_active_state (s : run_state T M) : bool :=
  match phase_of_state s with PhWaiting | PhOpen => true | _ => false end.
Definition active_runs st : nat := length (filter (fun p => is_active_state (snd p)) (s_runs st)).

(* How often a history cancels a run that is cancelled already. *)
Fixpoint repeated_cancels st (es : list (event T M)) : nat :=
  match es with
  | [] => 0
  | ev :: es' =>
      (match ev with
       | ECancel r _ => match phase_of st r with Some PhCancelled => 1 | _ => 0 end
       | _ => 0
       end) + repeated_cancels (step st ev) es'
  end.

(* Says that the run was cancelled. *)
Definition says_cancelled o : bool :=
  match o with
  | OAssigned _ (AssignedCancelled _) | OMetadata _ _ (IRunAlreadyCompleted true)
  | ORetry _ _ RRunCancelled | OStatus _ (Some SCancelled)
  | OTimeout _ _ (Some PCancelledNoManifest) | OTimeout _ _ (Some PCancelledNoProgress) => true
  | _ => false
  end.

(* Says that the run goes on, or that it came to its end. *)
Definition says_alive o : bool :=
  match o with
  | OAssigned _ (AssignedRun _ _) | OAssigned _ (AlreadyDone _)
  | OMetadata _ _ (IMetadata _) | OMetadata _ _ IWaitingForManifest
  | OMetadata _ _ (IRunAlreadyCompleted false)
  | ORetry _ _ (RManifest _ _) | ORetry _ _ RFetchFromPersistence | ORetry _ _ RNotYetPersisted
  | ORetry _ _ RManifestNeverReceived
  | OStatus _ (Some SActive) | OStatus _ (Some (SManifestDone _))
  | OManifest _ _ true => true
  | _ => false
  end.

(* Says that the run is still going on. *)
Definition says_running o : bool :=
  match o with
  | OAssigned _ (AssignedRun (Fresh _) _)
  | OMetadata _ _ IWaitingForManifest
  | ORetry _ _ RManifestNeverReceived
  | OStatus _ (Some SActive)
  | OManifest _ _ true => true
  | _ => false
  end.

(* The queue a run has or had (a ghost once the run is over). *)
Definition the_queue st r : option (queue (T := T)) :=
  match get r (s_runs st) with Some s => queue_of s | None => None end.

(* The tests of the accepted manifest, in order. *)
Definition manifest_of st r : list (worker_test T) :=
  match the_queue st r with Some (c, _) => map fst (cf_queue c) | None => [] end.

(* The tests that requests have claimed so far. *)
Definition claimed_tests st r : list (worker_test T) :=
  match the_queue st r with Some (c, js) => firstn (read_index js) (map fst (cf_queue c)) | None => [] end.

(* The tests claimed by requests that saw the end and are not answered yet. *)
Definition pending_tests st r : list (worker_test T) :=
  flat_map (fun q => match q with
                     | QNext r' _ (NEnd _ ts) => if Nat.eqb r' r then ts else []
                     | _ => []
                     end) (s_reqs st).

(* Worker t said something to run r, or was given a place in it. *)
Definition spoke (t : tag) (h : list (obs T M)) : Prop :=
  exists o e, In o h /\ obs_entity o = Some e /\ en_tag e = t.
Definition was_placed (t : tag) (h : list (obs T M)) : Prop :=
  exists p k d, In (OAssigned p (AssignedRun k d)) h /\ en_tag (fp_entity p) = t.

(* What a reason for cancellation refers to. *)
Definition reason_seen (c : cancel_reason) (h : list (obs T M)) : Prop :=
  match c with
  | CRUser => exists r e, In (OCancel r e) h
  | CRManifestHadNoProgress =>
      exists r l p, In (OTimeout r l (Some p)) h /\ (p = PCancelledNoManifest \/ p = PCancelledNoProgress)
  | CRManifestNeverReceived => exists r, In (OManifestFailed r) h
  end.

End Spec.
