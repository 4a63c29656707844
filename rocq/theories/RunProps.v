(* Property theorems about runs (C01, C02, C05, C07-C11, C13-C15). *)
From Verif Require RunOnce.
From Verif Require Import Base JobQueueModel WorkerSetModel ManifestViewModel RunModel RunSpec RunProofs RunInv RunNext
  RunLemmas RunParts RunCount RunTimers RunLift RunAnswers.
From Coq Require Import Permutation.

Section Props.
Context {T M : Type}.
Implicit Types (st : state T M) (r : run_id).

(* ---- C01, C02, C05: hand-out, at the level of runs ---- *)

(* No test is sent in the answers to two requests of a run. *)
Theorem C01_run_no_test_twice st r k1 e1 ts1 w1 p1 k2 e2 ts2 w2 p2 :
  reachable st -> NoDup (manifest_of st r) ->
  In (OWork k1 r e1 ts1 w1 p1) (s_log st) -> In (OWork k2 r e2 ts2 w2 p2) (s_log st) -> k1 <> k2 ->
  forall x, In x ts1 -> ~ In x ts2.
Proof. exact (run_no_test_twice st r k1 e1 ts1 w1 p1 k2 e2 ts2 w2 p2). Qed.

(* Nor twice in one answer. *)
Theorem C01_run_no_duplicate_in_an_answer st r k e ts w p :
  reachable st -> NoDup (manifest_of st r) -> In (OWork k r e ts w p) (s_log st) -> NoDup ts.
Proof. exact (run_no_dup_in_answer st r k e ts w p). Qed.

(* A request is answered once. *)
Theorem C01_one_answer_per_request st h1 k r e ts w p h2 r' e' ts' w' p' :
  reachable st -> s_log st = h1 ++ OWork k r e ts w p :: h2 -> ~ In (OWork k r' e' ts' w' p') (h1 ++ h2).
Proof. intros HR. exact (one_answer st HR h1 k r e ts w p h2 r' e' ts' w' p'). Qed.

(* The tests sent, or about to be sent by requests that saw the end, are those claimed. *)
Theorem C02_run_sent_is_claimed st r c js :
  reachable st -> the_queue st r = Some (c, js) -> busy st r = false ->
  Permutation (flat_map sent_tests (history st r) ++ pending_tests st r) (claimed_tests st r).
Proof. exact (run_claims st r c js). Qed.

(* When the run is over that is every test of the manifest, exactly once. *)
Theorem C02_run_every_test_exactly_once st r :
  reachable st -> phase_of st r = Some PhOver -> manifest_of st r <> [] ->
  Permutation (flat_map sent_tests (history st r) ++ pending_tests st r) (manifest_of st r).
Proof. exact (over_all_sent st r). Qed.

(* The manifest of a run is the one it accepted. *)
Theorem C02_accepted_manifest_is_handed_out st r flat meta :
  s_log (step st (EManifest r flat meta)) = s_log st ++ [OManifest r (length flat) true] -> flat <> [] ->
  manifest_of (step st (EManifest r flat meta)) r = map (fun t => {| wt_spec := fst t; wt_run_number := 1 |}) flat.
Proof. exact (accepted_is_the_manifest st r flat meta). Qed.

(* The manifest a returning worker is given has every test it was sent... *)
Theorem C05_run_retry_manifest_has_all st r e work k e' ts w p x :
  reachable st ->
  history (step st (ERetryManifest r e)) r = history st r ++ [ORetry r e (RManifest work true)] ->
  In (OWork k r e' ts w p) (s_log st) -> en_tag e' = en_tag e -> In x ts -> In x work.
Proof. exact (retry_has_all st r e work k e' ts w p x). Qed.

(* ... and none that was sent to another worker. *)
Theorem C05_run_retry_manifest_has_only_own st r e work k e' ts w p x :
  reachable st -> NoDup (manifest_of st r) -> en_tag e <> TExternalClient ->
  history (step st (ERetryManifest r e)) r = history st r ++ [ORetry r e (RManifest work true)] ->
  In x work -> In (OWork k r e' ts w p) (s_log st) -> In x ts -> en_tag e' = en_tag e.
Proof. exact (retry_has_only st r e work k e' ts w p x). Qed.

(* The persisted manifest gives each worker exactly what it was sent or is about to be sent. *)
Theorem C06_run_persisted_partition st r k e ts eow p who :
  reachable st -> In (OWork k r e ts eow (Some p)) (history st r) -> who <> TExternalClient ->
  exists work, view_partition {| v_items := fst (pl_view p); v_entities := snd (pl_view p) |} who = Some work /\
  forall x, In x work <->
    (exists k' e' ts' eow' p', In (OWork k' r e' ts' eow' p') (s_log st) /\ en_tag e' = who /\ In x ts') \/
    (exists k' e' j ts', nth_error (s_reqs st) k' = Some (QNext r e' (NEnd j ts')) /\ en_tag e' = who /\ In x ts').
Proof. exact (persisted_partition st r k e ts eow p who). Qed.

(* ---- C07 ---- *)

(* At most one worker of a run is told to generate the manifest; exactly one while the run goes on. *)
Theorem C07_one_generator st r :
  reachable st ->
  count told_to_generate (history st r) <= 1 /\
  (phase_of st r = Some PhWaiting \/ phase_of st r = Some PhOpen -> count told_to_generate (history st r) = 1).
Proof.
  intros HR. assert (H := gen_inv r st HR). unfold phase_of.
  destruct (get r (s_runs st)) as [[]|]; simpl; intuition (try lia; try discriminate).
Qed.

(* It is the first that gets an answer other than a failure of the remote store. *)
Theorem C07_generator_is_first st r h1 o h2 :
  reachable st -> history st r = h1 ++ o :: h2 -> told_to_generate o = true ->
  forall x, In x h1 -> is_assignment x = true -> told_fatal x = true.
Proof. intros HR. exact (gen_first r st HR h1 o h2). Qed.

(* A worker that asks for a run nobody knows is told to generate the manifest. *)
Theorem C07_unknown_run_gets_a_generator st k p a now :
  nth_error (s_reqs st) k = Some (QFind p FRemote) -> get (fp_run p) (s_runs st) = None ->
  a = RemoteNotFound \/ a = RemoteIncompatible ->
  s_log (step st (EFindRemote k a now)) = s_log st ++ [OAssigned p (AssignedRun (Fresh true) false)].
Proof. exact (first_generates st k p a now). Qed.

(* No worker is ever told that the run is unknown. *)
Theorem C07_never_unknown st r p : reachable st -> ~ In (OAssigned p RunUnknown) (history st r).
Proof. intros HR. exact (never_unknown r st HR p). Qed.

(* ---- C08 ---- *)

Theorem C08_finished_is_final st r es :
  phase_of st r = Some PhOver ->
  phase_of (run step st es) r = Some PhOver /\
  exists os, history (run step st es) r = history st r ++ os /\
    forall o, In o os -> says_cancelled o = false /\ says_running o = false.
Proof. exact (over_final r es st). Qed.

Theorem C08_cancelled_is_final st r es :
  phase_of st r = Some PhCancelled ->
  phase_of (run step st es) r = Some PhCancelled /\
  exists os, history (run step st es) r = history st r ++ os /\ forall o, In o os -> says_alive o = false.
Proof. exact (cancelled_final r es st). Qed.

(* Requests that arrive after either get no test and the end of work. *)
Theorem C08_no_tests_afterwards st r es k e ts eow p :
  reachable st -> phase_of st r = Some PhOver \/ phase_of st r = Some PhCancelled ->
  In (OWork k r e ts eow p) (s_log (run step st es)) -> length (s_reqs st) <= k -> ts = [] /\ eow = true.
Proof. exact (no_tests_when_closed r es st k e ts eow p). Qed.

(* ---- C09 ---- *)

(* The counter is the number of active runs less one for each cancellation of a
   run that was cancelled already, modulo 2^64. *)
Theorem C09_count_in_general es :
  s_active (run step (@init_state T M) es) =
  ((Z.of_nat (active_runs (run step init_state es)) - Z.of_nat (repeated_cancels (@init_state T M) es)) mod 2 ^ 64)%Z.
Proof. exact (active_count es). Qed.

(* Missing: histories that cancel a run twice, where the claim is false (below). *)
Theorem C09_count_is_exact_partial es :
  repeated_cancels (@init_state T M) es = 0 ->
  (Z.of_nat (active_runs (run step (@init_state T M) es)) < 2 ^ 64)%Z ->
  s_active (run step init_state es) = Z.of_nat (active_runs (run step (@init_state T M) es)).
Proof. exact (active_exact es). Qed.

Theorem C09_drained_iff_none_active_partial es :
  repeated_cancels (@init_state T M) es = 0 ->
  (Z.of_nat (active_runs (run step (@init_state T M) es)) < 2 ^ 64)%Z ->
  (is_drained (run step (@init_state T M) es) = true <-> active_runs (run step (@init_state T M) es) = 0).
Proof.
  intros H1 H2. unfold is_drained. rewrite (active_exact es H1 H2). rewrite Z.eqb_eq. lia.
Qed.

(* ---- C10 ---- *)

(* At most one answer carries the plan to persist; exactly one once the tests of an
   accepted manifest were all handed out. *)
Theorem C10_at_most_one_plan st r : reachable st -> count has_plan (history st r) <= 1.
Proof.
  intros HR. assert (H := manifest_inv r st HR).
  destruct (get r (s_runs st)) as [[]|]; lia.
Qed.

Theorem C10_exactly_one_plan st r :
  reachable st -> phase_of st r = Some PhOver -> count accepted_tests (history st r) = 1 ->
  count has_plan (history st r) = 1.
Proof.
  intros HR Hp Ha. assert (H := manifest_inv r st HR). unfold phase_of in Hp.
  destruct (get r (s_runs st)) as [[]|]; simpl in *; try discriminate; lia.
Qed.

(* The plan describes the run as it ended: all tests, its exit code and its metadata. *)
Theorem C10_plan_describes_the_run st r k e ts eow p :
  reachable st -> In (OWork k r e ts eow (Some p)) (history st r) ->
  phase_of st r = Some PhOver /\ fst (pl_view p) = manifest_of st r /\
  length (snd (pl_view p)) = length (manifest_of st r).
Proof.
  intros HR Hin. destruct (plan_inv r st HR _ _ _ _ _ Hin) as (ec & m & seen & mp & hh & c & js & Hg & Hv & _).
  unfold phase_of, manifest_of, the_queue. rewrite Hg. simpl. rewrite Hv. simpl. rewrite map_length.
  repeat split.
  assert (Hq : qa st r = Some (c, js)) by (unfold qa; now rewrite Hg).
  assert (HRq := n_q _ (i_n _ (reachable_inv _ HR)) _ _ _ Hq).
  apply (JobQueueProofs.inv_owner_len _ _ (JobQueueLemmas.reachable_inv _ _ HRq)).
Qed.

(* ---- C11 ---- *)

(* What a worker that connects to a known run is told. *)
Theorem C11_answers st k p now :
  reachable st -> nth_error (s_reqs st) k = Some (QFind p FLookup) ->
  let h := history st (fp_run p) in let w := en_tag (fp_entity p) in
  exists a, s_log (step st (EFindLookup k now)) = s_log st ++ [OAssigned p a] /\
  match phase_of st (fp_run p) with
  | None => False
  | Some PhWaiting => exists d, a = AssignedRun (Fresh false) d
  | Some PhOpen => (was_placed w h -> exists d, a = AssignedRun RetryAndContinue d) /\
                   (~ spoke w h -> exists d, a = AssignedRun (Fresh false) d) /\
                   exists k d, a = AssignedRun k d
  | Some PhOver => (was_placed w h -> (forall r, ~ In (OManifest r 0 true) h) ->
                      exists d, a = AssignedRun RetryAndContinue d) /\
                   (~ spoke w h -> count told_to_generate h = 1 -> a = AlreadyDone 0) /\
                   ((exists d, a = AssignedRun RetryAndContinue d) \/ exists c, a = AlreadyDone c)
  | Some PhCancelled => exists c, a = AssignedCancelled c /\ reason_seen c h
  end.
Proof. exact (lookup_answer st k p now). Qed.

(* Each worker that connects is answered once: whichever workers one counts, the answers
   and those still waiting for theirs are as many as have connected. *)
Theorem C11_answered_once (which : find_params -> bool) es :
  let st := run step (@init_state T M) es in
  length (filter (fun o => match o with OAssigned p _ => which p | _ => false end) (s_log st)) +
  length (filter (fun q => match q with QFind p FAnswered => false | QFind p _ => which p | _ => false end) (s_reqs st)) =
  length (filter (fun e => match e with EFind p => which p && negb (Nat.eqb (fp_batch p) 0) | _ => false end) es).
Proof. exact (RunOnce.run_bal which es init_state). Qed.

(* Workers that run another test command than the first one are told so. *)
Theorem C11_other_command_is_flagged st k p now pg d0 kd d :
  reachable st -> nth_error (s_reqs st) k = Some (QFind p FLookup) ->
  In (OAssigned pg (AssignedRun (Fresh true) d0)) (history st (fp_run p)) ->
  s_log (step st (EFindLookup k now)) = s_log st ++ [OAssigned p (AssignedRun kd d)] ->
  d = negb (Nat.eqb (fp_hash pg) (fp_hash p)).
Proof. exact (lookup_command st k p now pg d0 kd d). Qed.

(* A queue that reloads the persisted state answers as the queue that persisted it. *)
Theorem C11_reloaded_run_answers_alike st ev k r e ts p q now a :
  reachable st -> fp_run q = r -> fp_batch q <> 0 ->
  s_log (step st ev) = s_log st ++ [OWork k r e ts true (Some p)] ->
  let st1 := step st ev in
  s_log (run step st1 [EFind q; EFindLookup (length (s_reqs st1)) now]) = s_log st1 ++ [OAssigned q a] ->
  s_log (run step (@init_state T M) [EFind q; EFindRemote 0 (RemoteFound (pl_state p)) now; EFindLookup 0 now])
  = [OAssigned q a].
Proof. exact (reload_alike st ev k r e ts p q now a). Qed.

(* ---- C13 ---- *)

(* What a check says is true when it says it, and it cancels exactly when it says so. *)
Theorem C13_check_outcome st ev r l a :
  history (step st ev) r = history st r ++ [OTimeout r l a] ->
  match a with
  | None => phase_of st r = None
  | Some PCancelledNoManifest => phase_of st r = Some PhWaiting /\ phase_of (step st ev) r = Some PhCancelled
  | Some PCancelledNoProgress => phase_of st r = Some PhOpen /\ phase_of (step st ev) r = Some PhCancelled /\
       length (claimed_tests st r) <= l
  | Some PRunComplete => (phase_of st r = Some PhOver \/ phase_of st r = Some PhCancelled) /\
       get r (s_runs (step st ev)) = get r (s_runs st)
  | Some (PNewProgress i) => phase_of st r = Some PhOpen /\ get r (s_runs (step st ev)) = get r (s_runs st) /\ l < i /\
       claimed_tests st r = firstn i (manifest_of st r)
  end.
Proof. exact (check_says st ev r l a). Qed.

(* Each check compares with what an earlier check of the run saw (or with nothing). *)
Theorem C13_checks_are_chained st h1 r l a h2 :
  reachable st -> s_log st = h1 ++ OTimeout r l a :: h2 ->
  l = 0 \/ exists l0, In (OTimeout r l0 (Some (PNewProgress l))) h1.
Proof. intros HR. exact (checks_chain st HR h1 r l a h2). Qed.

(* A run cancelled for lack of progress handed out nothing since the check that saw progress. *)
Theorem C13_only_stalled_runs_are_cancelled st1 ev1 es ev2 r l0 l :
  reachable st1 ->
  let st2 := run step st1 es in
  history (step st1 ev1) r = history st1 r ++ [OTimeout r l0 (Some (PNewProgress l))] ->
  history (step st2 ev2) r = history st2 r ++ [OTimeout r l (Some PCancelledNoProgress)] ->
  claimed_tests st2 r = claimed_tests st1 r.
Proof. exact (stalled st1 ev1 es ev2 r l0 l). Qed.

(* A check of a run that waits for its manifest, or made no progress, cancels it. *)
Theorem C13_stalled_runs_are_cancelled st i r l :
  nth_error (s_timers st) i = Some (r, l) -> busy st r = false ->
  (phase_of st r = Some PhWaiting \/
   phase_of st r = Some PhOpen /\ length (claimed_tests st r) <= l /\
     length (claimed_tests st r) < length (manifest_of st r)) ->
  let st' := run step st [ETimer i; ETimerCancel (length (s_reqs st))] in
  phase_of st' r = Some PhCancelled /\
  exists p, s_log st' = s_log st ++ [OTimeout r l (Some p)] /\ (p = PCancelledNoManifest \/ p = PCancelledNoProgress).
Proof. exact (stalled_cancelled st i r l). Qed.

(* Every run that is not over has a check to come. *)
Theorem C13_active_runs_are_watched st r :
  reachable st -> phase_of st r = Some PhWaiting \/ phase_of st r = Some PhOpen ->
  exists l, In (r, l) (s_timers st) \/ exists k, nth_error (s_reqs st) k = Some (QTimeout r l false).
Proof.
  intros HR Hp. unfold phase_of in Hp. destruct (get r (s_runs st)) as [s|] eqn:Eg; [|destruct Hp; discriminate].
  apply (watched st HR r s Eg). unfold is_active_state. simpl in Hp. destruct Hp as [Hp|Hp]; injection Hp as ->; reflexivity.
Qed.

(* Claims are never taken back: later states have claimed at least as much. *)
Theorem C13_claims_only_grow st es r :
  reachable st -> the_queue st r <> None ->
  claimed_tests st r = firstn (length (claimed_tests st r)) (claimed_tests (run step st es) r) /\
  manifest_of (run step st es) r = manifest_of st r.
Proof. intros HR Hq. destruct (queue_stays st es r HR Hq) as (_ & H & H' & _). auto. Qed.

(* ---- C14 ---- *)

Theorem C14_accepted_iff_waiting st r flat meta :
  busy st r = false -> phase_of st r <> None ->
  s_log (step st (EManifest r flat meta)) = s_log st ++
    [OManifest r (length flat) (match phase_of st r with Some PhWaiting => true | _ => false end)].
Proof. exact (accepted_iff_waiting st r flat meta). Qed.

Theorem C14_at_most_one_accepted st r : reachable st -> count accepted_manifest (history st r) <= 1.
Proof.
  intros HR. assert (H := manifest_inv r st HR). destruct (get r (s_runs st)) as [[]|]; lia.
Qed.

Theorem C14_refused_changes_nothing st r flat meta n :
  reachable st ->
  s_log (step st (EManifest r flat meta)) = s_log st ++ [OManifest r n false] ->
  s_runs (step st (EManifest r flat meta)) = s_runs st /\ s_active (step st (EManifest r flat meta)) = s_active st /\
  s_timers (step st (EManifest r flat meta)) = s_timers st /\ s_reqs (step st (EManifest r flat meta)) = s_reqs st.
Proof. exact (refused_nothing st r flat meta n). Qed.

Theorem C14_late_failure_changes_nothing st r :
  reachable st -> phase_of st r <> Some PhWaiting ->
  s_runs (step st (EManifestFailed r)) = s_runs st /\ s_active (step st (EManifestFailed r)) = s_active st /\
  s_timers (step st (EManifestFailed r)) = s_timers st /\ s_reqs (step st (EManifestFailed r)) = s_reqs st.
Proof. exact (late_failure_nothing st r). Qed.

(* ---- C15 ---- *)

Theorem C15_batch_size st r pg d :
  reachable st -> In (OAssigned pg (AssignedRun (Fresh true) d)) (history st r) ->
  match get r (s_runs st) with
  | Some (Waiting _ b _ _) | Some (HasWork _ _ b _ _) => b = Nat.min (fp_batch pg) 100
  | _ => True
  end.
Proof.
  intros HR Hin. assert (G := ginv_ok r st HR pg d Hin).
  destruct (get r (s_runs st)) as [[]|]; simpl in *; intuition.
Qed.

Theorem C15_answers_within_batch st r pg d k e ts w p :
  reachable st -> In (OAssigned pg (AssignedRun (Fresh true) d)) (history st r) -> fp_strategy pg = ByTest ->
  In (OWork k r e ts w p) (s_log st) -> length ts <= Nat.min (fp_batch pg) 100.
Proof. exact (batch_bound st r pg d k e ts w p). Qed.

End Props.

(* ------------------------------------------------------------------ *)
(* Non-vacuity.  Two workers of run 0 connect, a manifest of three tests arrives,
   their requests overlap, the run ends; run 1 is stuck and cancelled. *)
Definition w1 := {| en_id := 1; en_tag := TRunner 1 1 |}.
Definition w2 := {| en_id := 2; en_tag := TRunner 2 1 |}.
Definition w3 := {| en_id := 3; en_tag := TRunner 3 1 |}.
Definition par r e := {| fp_run := r; fp_entity := e; fp_batch := 2; fp_strategy := ByTest; fp_hash := 7 |}.
Definition connect r e k := [EFind (par r e); EFindRemote k (@RemoteNotFound nat) 0; EFindLookup k 0 : event nat nat].
Definition steps k : list (event nat nat) := repeat (EQueueStep k) 8.

Definition ex_open : list (event nat nat) :=
  connect 0 w1 0 ++ connect 0 w2 1 ++ [EManifest 0 [(10, 1); (11, 1); (12, 2)] 5; ENext 0 w1; ENext 0 w2].
Definition ex_mid : list (event nat nat) := ex_open ++ steps 3 ++ [ENextFinish 3].
Definition ex_end : list (event nat nat) := ex_mid ++ steps 2 ++ [ENextFinish 2; ENextFinish 2].
Definition st_of es := run step (@init_state nat nat) es.
Definition wt n : worker_test nat := {| wt_spec := n; wt_run_number := 1 |}.

Example ex_end_history :
  map (fun o => match o with OWork k _ e ts w p => Some (k, en_id e, ts, w) | _ => None end)
      (filter (fun o => match o with OWork _ _ _ _ _ _ => true | _ => false end) (history (st_of ex_end) 0))
  = [Some (3, 2, [wt 10; wt 11], false); Some (2, 1, [wt 12], true)].
Proof. vm_compute. reflexivity. Qed.
Example ex_end_over : phase_of (st_of ex_end) 0 = Some PhOver /\ manifest_of (st_of ex_end) 0 = [wt 10; wt 11; wt 12]
  /\ count has_plan (history (st_of ex_end) 0) = 1 /\ count accepted_tests (history (st_of ex_end) 0) = 1
  /\ count told_to_generate (history (st_of ex_end) 0) = 1.
Proof. vm_compute. auto. Qed.
Example ex_busy : busy (st_of ex_mid) 0 = true /\ busy (st_of ex_end) 0 = false.
Proof. vm_compute. auto. Qed.
Example ex_retry :
  history (step (st_of ex_mid) (ERetryManifest 0 w2)) 0 =
  history (st_of ex_mid) 0 ++ [ORetry 0 w2 (RManifest [wt 10; wt 11] true)].
Proof. vm_compute. reflexivity. Qed.
Example ex_c08 : phase_of (st_of (ex_end ++ [ENext 0 w3])) 0 = Some PhOver /\
  In (OWork 4 0 w3 [] true None) (s_log (st_of (ex_end ++ [ENext 0 w3]))).
Proof. vm_compute. split; [reflexivity|auto 20]. Qed.
(* C11: the four kinds of answers *)
Definition last_answer es := match rev (s_log (st_of es)) with OAssigned _ a :: _ => Some a | _ => None end.
Example ex_c11_waiting : last_answer (connect 0 w1 0 ++ connect 0 w2 1) = Some (AssignedRun (Fresh false) false).
Proof. vm_compute. reflexivity. Qed.
Example ex_c11_open : last_answer (ex_mid ++ connect 0 w1 4) = Some (AssignedRun RetryAndContinue false) /\
  last_answer (ex_mid ++ connect 0 w3 4) = Some (AssignedRun (Fresh false) false).
Proof. vm_compute. auto. Qed.
Example ex_c11_over : last_answer (ex_end ++ connect 0 w1 4) = Some (AssignedRun RetryAndContinue false) /\
  last_answer (ex_end ++ connect 0 w3 4) = Some (AlreadyDone 0).
Proof. vm_compute. auto. Qed.
Example ex_c11_cancelled : last_answer (ex_mid ++ connect 1 w1 4 ++ [ECancel 1 w1] ++ connect 1 w2 5) = Some (AssignedCancelled CRUser).
Proof. vm_compute. auto. Qed.
Example ex_c11_reload : exists p, s_log (st_of ex_end) = s_log (st_of (ex_mid ++ steps 2 ++ [ENextFinish 2])) ++ [OWork 2 0 w1 [wt 12] true (Some p)]
  /\ sv_seen (pl_state p) = [w1; w2] /\ pl_view p = ([wt 10; wt 11; wt 12], [TRunner 2 1; TRunner 2 1; TRunner 1 1]).
Proof. eexists. vm_compute. auto. Qed.
(* C13: progress between the first two checks, none before the third *)
Definition ex_checks := ex_mid ++ steps 2 ++ [ETimer 0].
Example ex_c13_progress : history (st_of (ex_mid ++ [ETimer 0])) 0 = history (st_of ex_mid) 0 ++ [OTimeout 0 0 (Some (PNewProgress 2))].
Proof. vm_compute. reflexivity. Qed.
Definition ex_two : list (event nat nat) :=
  connect 0 w1 0 ++ [EManifest 0 [(10, 1); (11, 1); (12, 2)] 5; ENext 0 w1] ++ steps 1 ++ [ENextFinish 1; ETimer 0].
Example ex_c13_stalled :
  nth_error (s_timers (st_of ex_two)) 0 = Some (0, 2) /\ busy (st_of ex_two) 0 = false /\
  phase_of (st_of ex_two) 0 = Some PhOpen /\ length (claimed_tests (st_of ex_two) 0) = 2 /\
  history (st_of (ex_two ++ [ETimer 0; ETimerCancel 2])) 0 = history (st_of ex_two) 0 ++ [OTimeout 0 2 (Some PCancelledNoProgress)].
Proof. vm_compute. auto. Qed.
(* C14 *)
Example ex_c14 : s_log (step (st_of ex_two) (EManifest 0 [(20, 1)] 6)) = s_log (st_of ex_two) ++ [OManifest 0 1 false].
Proof. vm_compute. reflexivity. Qed.
(* C15: a batch size above the maximum *)
Example ex_c15 : 
  match get 0 (s_runs (st_of [EFind {| fp_run := 0; fp_entity := w1; fp_batch := 150; fp_strategy := ByTest; fp_hash := 7 |};
    EFindRemote 0 (@RemoteNotFound nat) 0])) with Some (Waiting _ b _ _) => b = 100 | _ => False end.
Proof. vm_compute. reflexivity. Qed.

(* C09 is false of the code in general: cancelling a run twice hides another
   active run, and the queue reports itself drained. *)
Theorem C09_drained_refuted : exists es : list (event nat nat),
  is_drained (run step init_state es) = true /\ active_runs (run step init_state es) = 1.
Proof.
  exists (connect 0 w1 0 ++ connect 1 w1 1 ++ [ECancel 0 w1; ECancel 0 w1]). vm_compute. auto.
Qed.
Example ex_c09 : repeated_cancels (@init_state nat nat) (ex_end ++ connect 1 w1 4) = 0 /\
  active_runs (st_of (ex_end ++ connect 1 w1 4)) = 1 /\ s_active (st_of (ex_end ++ connect 1 w1 4)) = 1%Z.
Proof. vm_compute. auto. Qed.

Print Assumptions C01_run_no_test_twice.
Print Assumptions C01_run_no_duplicate_in_an_answer.
Print Assumptions C01_one_answer_per_request.
Print Assumptions C02_run_sent_is_claimed.
Print Assumptions C02_run_every_test_exactly_once.
Print Assumptions C02_accepted_manifest_is_handed_out.
Print Assumptions C05_run_retry_manifest_has_all.
Print Assumptions C05_run_retry_manifest_has_only_own.
Print Assumptions C06_run_persisted_partition.
Print Assumptions C07_one_generator.
Print Assumptions C07_generator_is_first.
Print Assumptions C07_unknown_run_gets_a_generator.
Print Assumptions C07_never_unknown.
Print Assumptions C08_finished_is_final.
Print Assumptions C08_cancelled_is_final.
Print Assumptions C08_no_tests_afterwards.
Print Assumptions C09_count_in_general.
Print Assumptions C09_count_is_exact_partial.
Print Assumptions C09_drained_iff_none_active_partial.
Print Assumptions C10_at_most_one_plan.
Print Assumptions C10_exactly_one_plan.
Print Assumptions C10_plan_describes_the_run.
Print Assumptions C11_answers.
Print Assumptions C11_answered_once.
Print Assumptions C11_other_command_is_flagged.
Print Assumptions C11_reloaded_run_answers_alike.
Print Assumptions C13_check_outcome.
Print Assumptions C13_checks_are_chained.
Print Assumptions C13_only_stalled_runs_are_cancelled.
Print Assumptions C13_stalled_runs_are_cancelled.
Print Assumptions C13_active_runs_are_watched.
Print Assumptions C13_claims_only_grow.
Print Assumptions C14_accepted_iff_waiting.
Print Assumptions C14_at_most_one_accepted.
Print Assumptions C14_refused_changes_nothing.
Print Assumptions C14_late_failure_changes_nothing.
Print Assumptions C15_batch_size.
Print Assumptions C15_answers_within_batch.
Print Assumptions C09_drained_refuted.
