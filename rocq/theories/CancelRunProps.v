(* C93: a run that is cancelled while its workers are at work. *)
From Verif Require Import Base JobQueueModel JobQueueSpec JobQueueLemmas StatusModel FetchModel FetchSpec FetchProofs.
From Verif Require Import RunnerModel RunnerSpec RunnerProofs RunnerLive SystemModel SystemSpec RunnerFeed SystemProofs SystemEnd SystemLive.
From Verif Require Import ReportModel ReportSpec ReportProofs OutcomeModel OutcomeSpec OutcomeProofs.
From Verif Require Import CancelRunModel CancelRunSpec CancelRunProofs CancelRunEnd CancelRunLive CancelRunOutcome.
From Verif Require RunModel RunSpec RunProps PoolModel WorkerModel WorkerSpec WorkerProps SystemProps OutcomeProps.
From Coq Require Import ZArith.
Import WorkerModel WorkerSpec.
Local Open Scope nat_scope.

(* Whenever it is cancelled, and whoever crashes: an attempt of a test is reported at most
   once, by one runner only, and only for tests of the manifest. *)
Theorem C93_at_most_once c ps k : sound c ps -> can_reach c ps k ->
  let y := k_system k in
  NoDup (map rkey (reported y)) /\
  (forall i j si sj ri rj, nth_error (y_slots y) i = Some si -> nth_error (y_slots y) j = Some sj ->
     In ri (reported_by si) -> In rj (reported_by sj) -> ar_work ri = ar_work rj -> i = j) /\
  (forall sl r, In sl (y_slots y) -> In r (reported_by sl) -> In (ar_work r) (tests_of c) /\ 1 <= ar_run r <= p_max (sl_params sl)).
Proof.
  intros SO RE y. destruct (reach_cinv c ps k SO RE) as (z & I). split; [exact (view_once c ps k z SO I)|]. split.
  - intros i j si sj ri rj. exact (view_one_runner c ps k z i j si sj ri rj SO I).
  - intros sl r S R. destruct (view_reports c ps k z sl SO I S) as [_ K]. destruct (K r R). split; auto.
    apply (taken_manifest c ps k z _ I). now apply (got_taken c ps k z sl).
Qed.

(* Once the run is cancelled it stays so, and no request takes tests from the queue any
   more: all that is reported then or later was taken before. *)
Theorem C93_no_new_tests c ps k es : sound c ps -> can_reach c ps k -> k_cancelled k = true ->
  let k' := run (cstep c) k es in
  k_cancelled k' = true /\ taken_from_queue c k' = taken_from_queue c k /\
  forall r, In r (reported (k_system k')) -> In (ar_work r) (taken_from_queue c k).
Proof.
  intros SO RE C k'. destruct (reach_cinv c ps k SO RE) as (z & I). destruct (run_frozen c ps es SO k z I C) as (A & B & _). fold k' in A, B.
  split; auto. split; auto. intros r R. rewrite <- B.
  assert (RE' : can_reach c ps k') by (destruct RE as (es0 & ->); exists (es0 ++ es); unfold k'; now rewrite run_app).
  destruct (reach_cinv c ps k' SO RE') as (z' & I'). unfold reported in R. apply in_flat_map in R as (sl & S & R).
  apply (got_taken c ps k' z' sl); auto. now apply (view_reports c ps k' z' sl SO I' S).
Qed.

(* When all runners have returned, what was taken from the queue has been run, all of it and
   nothing else; it is the first part of the manifest. *)
Theorem C93_prefix_at_end c ps k : sound c ps -> can_reach c ps k -> all_finished (k_system k) ->
  Permutation (map ar_work (firsts (reported (k_system k)))) (taken_from_queue c k) /\
  exists n, taken_from_queue c k = firstn n (tests_of c).
Proof.
  intros SO RE F. destruct (reach_cinv c ps k SO RE) as (z & I). destruct (view_all c ps k z SO I F) as [A B]. split; eauto.
Qed.

(* As long as a runner has not returned, something can go on -- with the exception of C67. *)
Theorem C93_goes_on_partial c ps k : sound c ps -> can_reach c ps k -> ~ all_finished (k_system k) ->
  Forall (fun sl => flushing (sl_runner sl) -> r_prod (sl_runner sl) = PFetch -> FetchSpec.attempt (r_world (sl_runner sl)) = p_max (sl_params sl)) (y_slots (k_system k)) ->
  run_moves c k.
Proof. intros SO RE. destruct (reach_cinv c ps k SO RE) as (z & I). exact (view_moves c ps k z SO I). Qed.

(* No schedule goes on for ever. *)
Theorem C93_bounded c ps es : sound c ps -> run_effective c (cinit c ps) es ->
  length es <= let n := length (tests_of c) in sum (map (fun p => 36 * (n * p_max p) + 5 + (n + 8) * (n + 1)) ps) + 1.
Proof. intros SO E. cbv zeta. rewrite <- init_measure, <- cinit_measure. exact (run_bound c ps es SO _ _ (CInv_init c ps) E). Qed.

(* So if no native runner fails, a run in which nothing happens any more is one all of
   whose runners have returned and have run all that was taken from the queue. *)
Theorem C93_stops_when_done c ps es : sound c ps -> Forall (fun e => forall i, e <> Sys (Go i (Task RunnerModel.Failed))) es ->
  let k := run (cstep c) (cinit c ps) es in
  (forall e, e <> Cancel -> cstep c k e = k) ->
  Forall survives (y_slots (k_system k)) /\ Permutation (map ar_work (firsts (reported (k_system k)))) (taken_from_queue c k).
Proof.
  intros SO NF k ST. assert (RE : can_reach c ps k) by (now exists es). destruct (reach_cinv c ps k SO RE) as (z & I).
  pose proof (no_crash_crun c es (cinit c ps) NF (no_crash_init c ps)) as NC. fold k in NC.
  assert (FL : Forall (fun sl => flushing (sl_runner sl) -> r_prod (sl_runner sl) = PFetch -> FetchSpec.attempt (r_world (sl_runner sl)) = p_max (sl_params sl)) (y_slots (k_system k))).
  { rewrite Forall_forall in *. intros sl S Q. destruct (NC sl S). unfold flushing, crashed in *. destruct (r_task (sl_runner sl)); tauto. }
  assert (F : all_finished (k_system k)).
  { assert (D : all_finished (k_system k) \/ ~ all_finished (k_system k)).
    { unfold all_finished. induction (y_slots (k_system k)) as [|a l IH]; [left; constructor|].
      assert (DE : finished (sl_runner a) \/ ~ finished (sl_runner a)).
      { unfold finished. destruct (r_prod (sl_runner a)), (r_sender_done (sl_runner a)), (r_task (sl_runner a)); try (right; intros (? & ? & ? & ?); discriminate). left. eauto. }
      inversion NC; inversion FL; subst. destruct IH as [IH|IH]; auto; [|right; intros X; inversion X; contradiction].
      destruct DE; [left; constructor; auto|right; intros X; inversion X; contradiction]. }
    destruct D as [D|D]; auto. exfalso. destruct (C93_goes_on_partial c ps k SO RE D FL) as [(i & M)|(e & _ & N & M)]; [apply (M RunnerModel.Failed); apply ST; discriminate|apply M, ST, N]. }
  split; [|now apply (C93_prefix_at_end c ps k)]. unfold all_finished in F. rewrite Forall_forall in *. intros sl S. split; auto.
Qed.

(* A worker whose process exits with 0 has, cancelled or not, runners of which none crashed,
   and every test they ran has a case with a result, and all its cases passed. *)
Theorem C93_worker_zero c ps k p : sound c ps -> can_reach c ps k -> all_finished (k_system k) -> identified (reported (k_system k)) ->
  took_part (k_system k) p -> exit_status p 0 ->
  forall i sl, nth_error (y_slots (k_system k)) i = Some sl -> pr_runners p i = true ->
    ~ crashed (sl_runner sl) /\
    forall r, In r (reported_by sl) ->
      (exists t, case_of (reported (k_system k)) (ar_work r) t) /\
      forall t, case_of (reported (k_system k)) (ar_work r) t -> passed (reported (k_system k)) (ar_work r) t.
Proof.
  intros SO RE FI ID (es1 & ki & d & ok & es2 & E & U & TP) X i sl N MI. destruct (reach_cinv c ps k SO RE) as (z & I).
  destruct (WorkerProps.C69_exit_zero _ _ X) as (fs1 & a & ok' & fs2 & F & V & H).
  assert (D : decisive (EAttempt a ok') = true) by (destruct H as [(code & -> & _)|(k' & d' & e & -> & _)]; reflexivity).
  destruct (decisive_unique es1 (EAttempt (Got (MContext ki d)) ok) es2 fs1 (EAttempt a ok') fs2 U V eq_refl D (eq_trans (eq_sym E) F)) as [Q1 <-].
  injection Q1 as <- <-. destruct H as [(code & Q & _)|(k' & d' & e & _ & RE' & CL)]; [discriminate|].
  specialize (TP e RE'). destruct e as [rs [rp|]|]; try destruct CL. destruct TP as (l & RC & SE). cbn [option_map] in SE. rewrite H0 in SE.
  exact (suite_ok (k_system k) (pr_runners p) l (cancel_facts c ps k z SO I) FI ID RC SE i sl N MI).
Qed.

(* So if all processes exit with 0, all that was taken from the queue passed.  That is all
   tests of the manifest only if the run was not cancelled. *)
Theorem C93_all_zero_partial c ps k (workers : list process) : sound c ps -> can_reach c ps k -> all_finished (k_system k) -> identified (reported (k_system k)) ->
  Forall (took_part (k_system k)) workers -> (forall i, i < length ps -> exists p, In p workers /\ pr_runners p i = true) ->
  Forall (fun p => exit_status p 0) workers ->
  (forall id, In id (taken_from_queue c k) ->
    (exists t, case_of (reported (k_system k)) id t) /\ forall t, case_of (reported (k_system k)) id t -> passed (reported (k_system k)) id t) /\
  (k_cancelled k = false -> ps <> [] -> taken_from_queue c k = tests_of c).
Proof.
  intros SO RE FI ID TP COV X. destruct (reach_cinv c ps k SO RE) as (z & I).
  assert (LEN : length (y_slots (k_system k)) = length ps) by (destruct (forall2_slots c ps k z I) as [_ E]; rewrite <- E; now rewrite map_length).
  assert (K : forall i sl, nth_error (y_slots (k_system k)) i = Some sl -> ~ crashed (sl_runner sl) /\ forall r, In r (reported_by sl) ->
      (exists t, case_of (reported (k_system k)) (ar_work r) t) /\ forall t, case_of (reported (k_system k)) (ar_work r) t -> passed (reported (k_system k)) (ar_work r) t).
  { intros i sl N. destruct (COV i) as (p & P & MI); [rewrite <- LEN; apply nth_error_Some; congruence|].
    rewrite Forall_forall in TP, X. apply (C93_worker_zero c ps k p SO RE FI ID (TP p P) (X p P) i sl N MI). }
  destruct (C93_prefix_at_end c ps k SO RE FI) as [P _]. split.
  - intros id T. apply (Permutation_in _ (Permutation_sym P)) in T. apply in_map_iff in T as (r & <- & R).
    unfold firsts in R. apply filter_In in R as [R _]. unfold reported in R. apply in_flat_map in R as (sl & S & R). apply In_nth_error in S as (i & N).
    exact (proj2 (K i sl N) r R).
  - intros NC NE. pose proof (live_same _ _ _ _ I NC) as EQ. destruct (view_all c ps k z SO I FI) as [_ T]. rewrite T.
    assert (EX : exists sl, In sl (y_slots z) /\ survives sl).
    { rewrite EQ. destruct (y_slots (k_system k)) as [|sl l] eqn:Q; [destruct ps; [congruence|discriminate]|]. exists sl. split; [now left|]. split.
      - unfold all_finished in FI. rewrite Q in FI. now inversion FI.
      - destruct (K 0 sl) as [NCR _]; [now rewrite ?Q|exact NCR]. }
    destruct EX as (sl & S & SV). destruct (survivor_ended c ps z sl SO (n_z _ _ _ _ I) S SV) as (_ & _ & _ & AE). rewrite EQ in AE.
    unfold is_at_end in AE. apply Nat.leb_le in AE. rewrite Nat.min_r; [|unfold tests_of; now rewrite map_length]. now rewrite firstn_all.
Qed.

(* What a worker is told that comes to a cancelled run: that it was cancelled, and why.  Its
   process prints the reason and exits with 101, the code for an error; it never exits
   with 0, whatever else happens to it. *)
Theorem C93_later_worker {T M} (st : @RunModel.state T M) n p now : RunSpec.reachable st -> nth_error (RunModel.s_reqs st) n = Some (RunModel.QFind p RunModel.FLookup) ->
  RunSpec.phase_of st (RunModel.fp_run p) = Some RunSpec.PhCancelled ->
  exists reason, let a := RunModel.AssignedCancelled reason in
    RunModel.s_log (RunModel.step st (RunModel.EFindLookup n now)) = RunModel.s_log st ++ [RunModel.OAssigned p a] /\
    RunSpec.reason_seen reason (RunSpec.history st (RunModel.fp_run p)) /\
    forall g,
      run (wstep g) winit [EAttempt (Got (reply_to a)) true; EPoll false] =
        {| w_phase := Exited 101; w_signal := false; w_log := [Asked; PrintedErrors [cancel_text reason]] |} /\
      forall es1 ok es2, undecided es1 -> w_phase (run (wstep g) winit (es1 ++ EAttempt (Got (reply_to a)) ok :: es2)) <> Exited 0.
Proof.
  intros RE N PH. destruct (RunProps.C11_answers st n p now RE N) as (a & L & A). rewrite PH in A. destruct A as (reason & -> & RS). exists reason.
  split; auto. split; auto. intros g. split; [destruct g as [x [] []]; reflexivity|]. intros es1 ok es2 U X.
  destruct (WorkerProps.C69_exit_zero _ _ X) as (fs1 & b & ok' & fs2 & F & V & H).
  assert (D : decisive (EAttempt b ok') = true) by (destruct H as [(code & -> & _)|(k' & d' & e & -> & _)]; reflexivity).
  destruct (decisive_unique es1 (EAttempt (Got (MCancelled reason)) ok) es2 fs1 (EAttempt b ok') fs2 U V eq_refl D F) as [Q _]. injection Q as <- <-.
  destruct H as [(code & Q & _)|(k' & d' & e & Q & _)]; discriminate.
Qed.

(* What a runner is told that asks a run without a manifest to run, unknown, still waiting
   for one or cancelled, for its first message or for the tests of an earlier worker. *)
Theorem C93_answers {T M} (st : @RunModel.state T M) r e :
  let meta a := RunModel.s_log (RunModel.step st (RunModel.EInitMetadata r e)) = RunModel.s_log st ++ [RunModel.OMetadata r e a] in
  let retry a := RunModel.s_log (RunModel.step st (RunModel.ERetryManifest r e)) = RunModel.s_log st ++ [RunModel.ORetry r e a] in
  match RunSpec.phase_of st r with
  | None => retry RunModel.RRunDoesNotExist
  | Some RunSpec.PhWaiting => meta RunModel.IWaitingForManifest /\ retry RunModel.RManifestNeverReceived
  | Some RunSpec.PhCancelled => meta (RunModel.IRunAlreadyCompleted true) /\ retry RunModel.RRunCancelled
  | _ => True
  end.
Proof.
  intros meta retry. unfold RunSpec.phase_of, meta, retry. cbn [RunModel.step]. destruct (RunModel.get r (RunModel.s_runs st)) as [s|]; [|reflexivity].
  destruct s; cbn [option_map RunSpec.phase_of_state RunModel.init_metadata RunModel.retry_manifest]; auto; split; reflexivity.
Qed.

(* ==== the hypotheses are met ==== *)

(* The two runners of C66 and C70; the run is cancelled after some rounds. *)
Definition cturn (k : crun) (i : nat) : crun :=
  let k := run (cstep SystemProps.five) k (map Sys [Ask i; Reply i; Go i Producer]) in
  run (cstep SystemProps.five) k (map Sys [Go i (Task (OutcomeProps.answer (fun t _ => Some Success) (k_system k) i)); Go i Sender]).
Definition cround (k : crun) : crun := run (cstep SystemProps.five) (cturn (cturn k 0) 1) (map Sys SystemProps.queue_turn).
Definition before_it : crun := Nat.iter 11 cround (cinit SystemProps.five SystemProps.pair_of_runners).
Definition at_it : crun := cstep SystemProps.five before_it Cancel.
Definition cut_short : crun := Nat.iter 40 cround at_it.

Lemma can_run c ps k es : can_reach c ps k -> can_reach c ps (run (cstep c) k es).
Proof. intros (fs & ->). exists (fs ++ es). symmetry. apply run_app. Qed.
Lemma can_round k : can_reach SystemProps.five SystemProps.pair_of_runners k -> can_reach SystemProps.five SystemProps.pair_of_runners (cround k).
Proof. intros H. unfold cround, cturn. now repeat apply can_run. Qed.
Lemma can_cancel c ps k : can_reach c ps k -> can_reach c ps (cstep c k Cancel).
Proof. intros H. exact (can_run c ps k [Cancel] H). Qed.
Lemma can_start c ps : can_reach c ps (cinit c ps).
Proof. now exists []. Qed.
Lemma can_rounds n k : can_reach SystemProps.five SystemProps.pair_of_runners k -> can_reach SystemProps.five SystemProps.pair_of_runners (Nat.iter n cround k).
Proof. intros H. induction n; auto. now apply can_round. Qed.
Example at_it_reached : can_reach SystemProps.five SystemProps.pair_of_runners at_it.
Proof. exact (can_cancel _ _ _ (can_rounds 11 _ (can_start _ _))). Qed.
Example cut_short_reached : can_reach SystemProps.five SystemProps.pair_of_runners cut_short.
Proof. unfold cut_short. apply can_rounds. exact at_it_reached. Qed.

(* The run is cancelled when the second runner has reported on 12 and the first has 10 and
   11 to run. *)
Example it_is_cancelled : k_cancelled before_it = false /\ k_cancelled at_it = true /\
  taken_from_queue SystemProps.five at_it = [10; 11; 12] /\ map (fun sl => map rkey (reported_by sl)) (y_slots (k_system at_it)) = [[]; [(12, 1)]] /\
  ~ all_finished (k_system at_it).
Proof.
  split; [vm_compute; reflexivity|]. split; [vm_compute; reflexivity|]. split; [vm_compute; reflexivity|]. split; [vm_compute; reflexivity|].
  intros F. vm_compute in F. inversion F as [|x l (A & B & h & C)]; subst. discriminate.
Qed.
Definition rep := OutcomeProps.rep.
Example cut_short_reports : map reported_by (y_slots (k_system cut_short)) = [[rep 10 1 Success; rep 11 1 Success]; [rep 12 1 Success]].
Proof. vm_compute. reflexivity. Qed.
Example cut_short_finished : all_finished (k_system cut_short).
Proof. vm_compute. repeat constructor; eauto. Qed.
Lemma cut_short_reported : reported (k_system cut_short) = [rep 10 1 Success; rep 11 1 Success; rep 12 1 Success].
Proof. unfold reported. rewrite flat_map_concat_map, cut_short_reports. reflexivity. Qed.
Example cut_short_identified : identified (reported (k_system cut_short)).
Proof.
  rewrite cut_short_reported. split; [|split].
  - intros r H. simpl in H. intuition (subst; simpl; repeat constructor; simpl; tauto).
  - intros r r' t H H' T T'. simpl in H, H'. repeat (destruct H as [<-|H]); try destruct H; repeat (destruct H' as [<-|H']); try destruct H'; simpl in T, T'; try reflexivity; exfalso; lia.
  - intros r t H T. exists r. simpl in H. intuition (subst r; simpl in T; simpl; tauto).
Qed.
Definition both_workers : list process := [OutcomeProps.proc (k_system cut_short) 0; OutcomeProps.proc (k_system cut_short) 1].
Example cut_short_workers : Forall (took_part (k_system cut_short)) both_workers /\ Forall (fun p => exit_status p 0) both_workers /\
  forall i, i < length SystemProps.pair_of_runners -> exists p, In p both_workers /\ pr_runners p i = true.
Proof.
  split; [repeat constructor; apply OutcomeProps.proc_took_part|]. split.
  - repeat constructor; unfold exit_status; vm_compute; reflexivity.
  - intros [|[|i]] L; [exists (OutcomeProps.proc (k_system cut_short) 0); split; [now left|reflexivity]|exists (OutcomeProps.proc (k_system cut_short) 1); split; [right; now left|reflexivity]|cbn in L; lia].
Qed.

(* A schedule with a cancellation after which nothing happens any more. *)
Definition cancelled_schedule : list cevent :=
  map Sys (SystemProps.rounds 11 (Answered [(1, Success)]) (Answered [(2, Success)])) ++ Cancel :: map Sys (SystemProps.rounds 40 (Answered [(1, Success)]) (Answered [(2, Success)])).
Example it_stops : let k := run (cstep SystemProps.five) (cinit SystemProps.five SystemProps.pair_of_runners) cancelled_schedule in
  Forall (fun e => forall i, e <> Sys (Go i (Task RunnerModel.Failed))) cancelled_schedule /\ k_cancelled k = true /\ (forall e, e <> Cancel -> cstep SystemProps.five k e = k) /\
  taken_from_queue SystemProps.five k = [10; 11; 12].
Proof.
  cbv zeta. split; [|split; [vm_compute; reflexivity|split; [|vm_compute; reflexivity]]].
  - assert (B : forallb (fun e => match e with Sys (Go _ (Task RunnerModel.Failed)) => false | _ => true end) cancelled_schedule = true) by (vm_compute; reflexivity).
    rewrite forallb_forall in B. apply Forall_forall. intros e E i ->. discriminate (B _ E).
  - intros [e|] N; [|congruence]. destruct e as [[|[|[|i]]]|j|[|[|[|i]]]|[|[|[|i]]] [|o|]]; vm_compute; reflexivity.
Qed.

(* Without that condition it does not hold: the processes of all workers of a cancelled run
   can exit with 0 although tests of the manifest were not run. *)
Theorem C93_all_zero_refuted :
  ~ (forall c ps k (workers : list process), sound c ps -> can_reach c ps k -> all_finished (k_system k) -> ps <> [] -> identified (reported (k_system k)) ->
     Forall (took_part (k_system k)) workers -> (forall i, i < length ps -> exists p, In p workers /\ pr_runners p i = true) ->
     Forall (fun p => exit_status p 0) workers ->
     forall id, In id (tests_of c) -> exists r, In r (reported (k_system k)) /\ ar_work r = id).
Proof.
  intros H. destruct cut_short_workers as (A & B & D).
  assert (NE : SystemProps.pair_of_runners <> []) by discriminate. assert (T : In 13 (tests_of SystemProps.five)) by (simpl; auto).
  destruct (H SystemProps.five SystemProps.pair_of_runners cut_short both_workers SystemProps.five_sound cut_short_reached cut_short_finished NE cut_short_identified A D B 13 T) as (r & R & E).
  rewrite cut_short_reported in R. simpl in R. intuition (subst r; discriminate).
Qed.

(* A worker comes to a run that a signal to the first worker has cancelled. *)
Example later_worker_comes :
  let st := RunProps.st_of (RunProps.connect 0 RunProps.w1 0 ++ [RunModel.EManifest 0 [(10, 1); (11, 1); (12, 2)] 5; RunModel.ECancel 0 RunProps.w1; RunModel.EFind (RunProps.par 0 RunProps.w2)]) in
  exists n p, nth_error (RunModel.s_reqs st) n = Some (RunModel.QFind p RunModel.FLookup) /\ RunModel.fp_run p = 0 /\ RunSpec.phase_of st 0 = Some RunSpec.PhCancelled.
Proof. exists 1, (RunProps.par 0 RunProps.w2). split; [vm_compute; reflexivity|]. split; vm_compute; reflexivity. Qed.

Print Assumptions C93_at_most_once.
Print Assumptions C93_no_new_tests.
Print Assumptions C93_prefix_at_end.
Print Assumptions C93_goes_on_partial.
Print Assumptions C93_bounded.
Print Assumptions C93_stops_when_done.
Print Assumptions C93_worker_zero.
Print Assumptions C93_all_zero_partial.
Print Assumptions C93_later_worker.
Print Assumptions C93_answers.
Print Assumptions C93_all_zero_refuted.
