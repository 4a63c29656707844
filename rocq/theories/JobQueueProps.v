(* Property theorems about handing out tests (C01-C06, C15). *)
From Verif Require Import Base JobQueueModel JobQueueSpec JobQueueProofs JobQueueLemmas
  ManifestViewModel ManifestViewProofs.

Section Props.
Context {T : Type}.
Implicit Types (c : config T) (st : state).

(* C01: two different requests never get the same test. *)
Theorem C01_no_test_handed_out_twice c st j k wj nj tj ej wk nk tk ek :
  reachable c st -> NoDup (tests_of c) -> j <> k ->
  answered c st j wj nj tj ej -> answered c st k wk nk tk ek ->
  forall x, In x tj -> ~ In x tk.
Proof. exact (no_test_twice c st j k wj nj tj ej wk nk tk ek). Qed.

(* C01: nor is one test twice in one response. *)
Theorem C01_no_duplicate_in_a_response c st k w n ts e :
  NoDup (tests_of c) -> answered c st k w n ts e -> NoDup ts.
Proof. exact (response_nodup c st k w n ts e). Qed.

(* C01 without any assumption on the tests: positions are never shared. *)
Theorem C01_positions_disjoint c st j k sj ej sk ek :
  reachable c st -> j <> k -> answered_range c st j sj ej -> answered_range c st k sk ek ->
  forall i, ~ (sj <= i < ej /\ sk <= i < ek).
Proof. exact (ranges_disjoint c st j k sj ej sk ek). Qed.

(* C02: responses in claim order spell out the claimed prefix of the manifest... *)
Theorem C02_responses_are_a_prefix c st :
  reachable c st -> quiescent st ->
  concat (map (response c st) (st_log st)) =
  firstn (Nat.min (st_ptr st) (length (tests_of c))) (tests_of c).
Proof. exact (responses_concat c st). Qed.

(* ... and the whole manifest once the end was reached. *)
Theorem C02_every_test_exactly_once_in_order c st :
  reachable c st -> quiescent st -> is_at_end c st = true ->
  concat (map (response c st) (st_log st)) = tests_of c.
Proof. exact (responses_exhaust c st). Qed.

(* The claim order lists every answered request, once. *)
Theorem C02_claim_order_lists_every_answer c st :
  reachable c st -> NoDup (st_log st) /\
  forall k w n ts e, answered c st k w n ts e -> In k (st_log st).
Proof. exact (log_complete c st). Qed.

(* The claim order respects real time: what claimed earlier stays earlier. *)
Theorem C02_claim_order_only_grows c st es :
  exists l, st_log (run (step c) st es) = st_log st ++ l.
Proof. exact (log_prefix c st es). Qed.

(* Slices taken by requests are always in bounds. *)
Theorem C02_never_out_of_bounds c st k t :
  reachable c st -> nth_error (st_threads st) k = Some t -> th_pc t <> PPanicked.
Proof. exact (never_panics c st k t). Qed.

(* The pointer passes the end of the queue by at most what requests between their
   two atomic accesses asked for, so a usize does not wrap. *)
Theorem ptr_never_wraps c st B :
  reachable c st -> (forall t, In t (st_threads st) -> th_n t <= B) ->
  st_ptr st <= length (cf_queue c) + B * in_flight st.
Proof. exact (ptr_bound c st B). Qed.

(* C03: tests of one file that are adjacent go into the same response. *)
Theorem C03_files_are_not_split c st k s e i :
  reachable c st -> cf_strategy c = ByTopLevelGroup ->
  answered_range c st k s e -> same_file c i ->
  (s <= i < e <-> s <= S i < e).
Proof. exact (group_atomic c st k s e i). Qed.

(* C03: a short response is the last one. *)
Theorem C03_short_only_at_the_end c st k who n ts eow :
  reachable c st -> cf_strategy c = ByTopLevelGroup ->
  answered c st k who n ts eow ->
  length ts < n -> eow = true.
Proof. exact (group_size c st k who n ts eow). Qed.

(* C03: and no file is added once the requested size is reached. *)
Theorem C03_no_more_files_than_needed c st k s e i n :
  reachable c st -> cf_strategy c = ByTopLevelGroup ->
  answered_range c st k s e ->
  option_map th_n (nth_error (st_threads st) k) = Some n ->
  s <= i -> S i < e -> ~ same_file c i -> S i - s < n.
Proof. exact (group_minimal c st k s e i n). Qed.

(* C04: a response that is not the end of work has a test in it. *)
Theorem C04_more_work_means_tests c st k who n ts :
  reachable c st -> answered c st k who n ts false -> ts <> [].
Proof. exact (not_eow_nonempty c st k who n ts). Qed.

(* C04: end of work is only announced once everything is claimed. *)
Theorem C04_end_of_work_is_truthful c st k who n ts :
  reachable c st -> answered c st k who n ts true -> is_at_end c st = true.
Proof. exact (eow_all_claimed c st k who n ts). Qed.

(* C04: the response with the last test announces the end. *)
Theorem C04_last_test_announces_end c st k who n ts eow s :
  reachable c st -> answered c st k who n ts eow ->
  answered_range c st k s (length (cf_queue c)) -> eow = true.
Proof. exact (last_gets_eow c st k who n ts eow s). Qed.

(* C04: once the end was reached, requests that had not claimed get nothing, and
   are told so. *)
Theorem C04_after_the_end_nothing c st es k who n ts eow :
  reachable c st -> is_at_end c st = true ->
  (forall t, nth_error (st_threads st) k = Some t -> th_pc t = PStart) ->
  answered c (run (step c) st es) k who n ts eow -> ts = [] /\ eow = true.
Proof. exact (after_end_nothing c st es k who n ts eow). Qed.

(* C04: at most as many responses as there are tests are not the end of work. *)
Theorem C04_polling_terminates c st :
  reachable c st ->
  length (filter (fun t => match eow_of c t with Some false => true | _ => false end) (st_threads st))
  <= length (cf_queue c).
Proof. exact (few_not_eow c st). Qed.

(* C04: no request waits for another: it is answered after len + 4 of its own steps. *)
Theorem C04_requests_are_wait_free c st es k :
  reachable c st -> k < length (st_threads st) ->
  length (cf_queue c) + 4 <= scheduled k es ->
  exists who n ts eow, answered c (run (step c) st es) k who n ts eow.
Proof. exact (wait_free c st es k). Qed.

(* C05: a worker's partition is what it was handed, in manifest order. *)
Theorem C05_partition_is_what_was_handed_out c st who :
  reachable c st -> quiescent st -> who <> TExternalClient ->
  partition_for c st who =
  concat (map (response c st)
     (filter (fun k => match requester st k with Some w => tag_eqb w who | None => false end) (st_log st))).
Proof. exact (partition_exact c st who). Qed.

(* C05, while other requests are in flight: everything answered is in it... *)
Theorem C05_partition_has_all_answers c st k who n ts eow x :
  reachable c st -> answered c st k who n ts eow -> In x ts -> In x (partition_for c st who).
Proof. exact (partition_lower c st k who n ts eow x). Qed.

(* ... and nothing that was not claimed by this worker. *)
Theorem C05_partition_has_only_claims c st who x :
  reachable c st -> who <> TExternalClient -> In x (partition_for c st who) ->
  exists k t s e i g, nth_error (st_threads st) k = Some t /\ th_tag t = who /\
     rng (length (cf_queue c)) (th_n t) (th_pc t) = Some (s, e) /\ s <= i < e /\
     nth_error (cf_queue c) i = Some (x, g).
Proof. exact (partition_upper c st who x). Qed.

(* C15: a by-test response never exceeds the batch size, and is short only at the end. *)
Theorem C15_by_test_batch_bound c st k who n ts eow :
  reachable c st -> cf_strategy c = ByTest ->
  answered c st k who n ts eow ->
  length ts <= n /\
  (length ts < n -> exists s, answered_range c st k s (length (cf_queue c))).
Proof. exact (bytest_size c st k who n ts eow). Qed.

End Props.

(* C06: the persisted view gives the same partitions as the live queue. *)
Theorem C06_persisted_partition_equals_live {T} (c : config T) st who :
  reachable c st ->
  view_partition {| v_items := fst (manifest_view c st); v_entities := snd (manifest_view c st) |} who
  = Some (partition_for c st who).
Proof. exact (live_equals_view c st who). Qed.

(* ------------------------------------------------------------------ *)
(* Non-vacuity: a manifest of five tests in two files, two workers whose
   requests overlap in the middle of their claims. *)
Definition ex_cfg s : config nat :=
  {| cf_queue := [(10, 1); (11, 1); (12, 2); (13, 2); (14, 2)]; cf_strategy := s |}.
Definition ex_events : list event :=
  [Arrive (TRunner 1 1) 3; Arrive (TRunner 2 1) 3; Arrive (TRunner 1 1) 3;
   Step 0; Step 1; Step 2; Step 2; Step 1; Step 0]
  ++ repeat (Step 1) 6 ++ repeat (Step 0) 6 ++ repeat (Step 2) 6.
Definition ex_st s := run (step (ex_cfg s)) (init (ex_cfg s)) ex_events.

Example ex_reachable s : reachable (ex_cfg s) (ex_st s).
Proof. exists ex_events. reflexivity. Qed.
Example ex_bytest :
  map (response (ex_cfg ByTest) (ex_st ByTest)) [0; 1; 2] = [[10; 11; 12]; [13; 14]; []]
  /\ st_log (ex_st ByTest) = [0; 1; 2]
  /\ is_at_end (ex_cfg ByTest) (ex_st ByTest) = true
  /\ partition_for (ex_cfg ByTest) (ex_st ByTest) (TRunner 1 1) = [10; 11; 12].
Proof. vm_compute. auto. Qed.
Example ex_bygroup :
  map (response (ex_cfg ByTopLevelGroup) (ex_st ByTopLevelGroup)) [0; 1; 2] = [[10; 11; 12; 13; 14]; []; []]
  /\ partition_for (ex_cfg ByTopLevelGroup) (ex_st ByTopLevelGroup) (TRunner 1 1) = [10; 11; 12; 13; 14].
Proof. vm_compute. auto. Qed.
Example ex_quiescent : quiescent (ex_st ByTest).
Proof.
  intros k t. vm_compute.
  destruct k as [|[|[|[|k]]]]; intros H; try discriminate; injection H as <-; right; eauto.
Qed.
Example ex_nodup s : NoDup (tests_of (ex_cfg s)).
Proof. vm_compute. repeat constructor; simpl; intuition discriminate. Qed.
Example ex_same_file : same_file (ex_cfg ByTopLevelGroup) 0 /\ ~ same_file (ex_cfg ByTopLevelGroup) 1.
Proof.
  split; [exists 1; auto|]. intros (g & H1 & H2). vm_compute in H1, H2. congruence.
Qed.
(* A history in which a request is answered without end of work. *)
Example ex_not_eow :
  let c := ex_cfg ByTest in
  let st := run (step c) (init c) (Arrive (TRunner 1 1) 2 :: repeat (Step 0) 6) in
  answered c st 0 (TRunner 1 1) 2 [10; 11] false.
Proof. eexists. vm_compute. repeat split; reflexivity. Qed.

Print Assumptions C01_no_test_handed_out_twice.
Print Assumptions C01_no_duplicate_in_a_response.
Print Assumptions C01_positions_disjoint.
Print Assumptions C02_responses_are_a_prefix.
Print Assumptions C02_every_test_exactly_once_in_order.
Print Assumptions C02_claim_order_lists_every_answer.
Print Assumptions C02_claim_order_only_grows.
Print Assumptions C02_never_out_of_bounds.
Print Assumptions ptr_never_wraps.
Print Assumptions C03_files_are_not_split.
Print Assumptions C03_short_only_at_the_end.
Print Assumptions C03_no_more_files_than_needed.
Print Assumptions C04_more_work_means_tests.
Print Assumptions C04_end_of_work_is_truthful.
Print Assumptions C04_last_test_announces_end.
Print Assumptions C04_after_the_end_nothing.
Print Assumptions C04_polling_terminates.
Print Assumptions C04_requests_are_wait_free.
Print Assumptions C05_partition_is_what_was_handed_out.
Print Assumptions C05_partition_has_all_answers.
Print Assumptions C05_partition_has_only_claims.
Print Assumptions C15_by_test_batch_bound.
Print Assumptions C06_persisted_partition_equals_live.
