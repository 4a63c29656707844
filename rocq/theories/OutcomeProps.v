(* C70: what the exit codes of the workers' processes say about a whole run. *)
From Verif Require Import Base JobQueueModel JobQueueSpec JobQueueLemmas StatusModel FetchModel FetchSpec FetchProofs.
From Verif Require Import RunnerModel RunnerSpec RunnerProofs RunnerLive SystemModel SystemSpec RunnerFeed SystemProofs SystemEnd.
From Verif Require Import ReportModel ReportSpec ReportProofs OutcomeModel OutcomeSpec OutcomeProofs.
From Verif Require RunModel PoolModel PoolSpec PoolProofs WorkerModel WorkerSpec WorkerProps SystemProps.
Import WorkerModel WorkerSpec.

(* The worker whose process exits with 0 has runners of which none crashed; every test they
   ran has a case with a result, and all its cases passed. *)
Theorem C70_worker_zero c ps y p : sound c ps -> SystemSpec.reaches c ps y -> all_finished y -> identified (reported y) ->
  took_part y p -> exit_status p 0 ->
  forall i sl, nth_error (y_slots y) i = Some sl -> pr_runners p i = true ->
    ~ crashed (sl_runner sl) /\
    forall r, In r (reported_by sl) ->
      (exists t, case_of (reported y) (ar_work r) t) /\
      forall t, case_of (reported y) (ar_work r) t -> passed (reported y) (ar_work r) t.
Proof.
  intros SO RE FI ID (es1 & k & d & ok & es2 & E & U & TP) X i sl N MI. pose proof (reach_sinv c ps y SO RE) as I.
  destruct (WorkerProps.C69_exit_zero _ _ X) as (fs1 & a & ok' & fs2 & F & V & H).
  assert (D : decisive (EAttempt a ok') = true) by (destruct H as [(code & -> & _)|(k' & d' & e & -> & _)]; reflexivity).
  destruct (decisive_unique es1 (EAttempt (Got (MContext k d)) ok) es2 fs1 (EAttempt a ok') fs2 U V eq_refl D (eq_trans (eq_sym E) F)) as [Q1 <-].
  injection Q1 as <- <-. destruct H as [(code & Q & _)|(k' & d' & e & _ & RE' & CL)]; [discriminate|].
  specialize (TP e RE'). destruct e as [rs [rp|]|]; try destruct CL. destruct TP as (l & RC & SE). cbn [option_map] in SE. rewrite H0 in SE.
  exact (suite_ok y (pr_runners p) l (facts c ps y SO I) FI ID RC SE i sl N MI).
Qed.

(* If all processes of a run exit with 0, every test of the manifest has been run, has a
   case with a result, and all its cases passed; and no native runner crashed. *)
Theorem C70_all_zero c ps y (workers : list process) : sound c ps -> SystemSpec.reaches c ps y -> all_finished y -> ps <> [] -> identified (reported y) ->
  Forall (took_part y) workers -> (forall i, i < length ps -> exists p, In p workers /\ pr_runners p i = true) ->
  Forall (fun p => exit_status p 0) workers ->
  Forall survives (y_slots y) /\
  forall id, In id (tests_of c) ->
    (exists t, case_of (reported y) id t) /\ forall t, case_of (reported y) id t -> passed (reported y) id t.
Proof.
  intros SO RE FI NE ID TP COV X. pose proof (reach_sinv c ps y SO RE) as I.
  assert (LEN : length (y_slots y) = length ps) by (rewrite <- (y_params _ _ _ I); now rewrite map_length).
  assert (K : forall i sl, nth_error (y_slots y) i = Some sl -> ~ crashed (sl_runner sl) /\ forall r, In r (reported_by sl) ->
      (exists t, case_of (reported y) (ar_work r) t) /\ forall t, case_of (reported y) (ar_work r) t -> passed (reported y) (ar_work r) t).
  { intros i sl N. destruct (COV i) as (p & P & MI); [rewrite <- LEN; apply nth_error_Some; congruence|].
    rewrite Forall_forall in TP, X. apply (C70_worker_zero c ps y p SO RE FI ID (TP p P) (X p P) i sl N MI). }
  assert (SV : Forall survives (y_slots y)).
  { apply Forall_forall. intros sl S. apply In_nth_error in S as (i & N). split; [|now apply (K i)]. unfold all_finished in FI. rewrite Forall_forall in FI. apply FI. eapply nth_error_In; eauto. }
  split; auto. intros id T.
  assert (EX : Exists survives (y_slots y)).
  { apply Exists_exists. destruct (y_slots y) as [|sl l]; [destruct ps; [congruence|discriminate]|]. exists sl. split; [now left|now inversion SV]. }
  pose proof (all_tests c ps y SO I FI EX) as P. apply (Permutation_in _ (Permutation_sym P)) in T. apply in_map_iff in T as (r & <- & R).
  unfold firsts in R. apply filter_In in R as [R _]. unfold reported in R. apply in_flat_map in R as (sl & S & R). apply In_nth_error in S as (i & N).
  exact (proj2 (K i sl N) r R).
Qed.

(* A case that failed in all its attempts, and a native runner that crashed, show in the
   exit code of the worker that ran it. *)
Theorem C70_failure_seen c ps y p i sl r t : sound c ps -> SystemSpec.reaches c ps y -> all_finished y -> identified (reported y) -> took_part y p ->
  nth_error (y_slots y) i = Some sl -> pr_runners p i = true -> In r (reported_by sl) -> In t (map fst (cases r)) ->
  ~ passed (reported y) (ar_work r) t -> ~ exit_status p 0.
Proof.
  intros SO RE FI ID TP N MI R C NP X. destruct (C70_worker_zero c ps y p SO RE FI ID TP X i sl N MI) as [_ K].
  destruct (K r R) as [_ P]. apply NP, P. exists r. split; auto. apply (reported_in y sl); auto. eapply nth_error_In; eauto.
Qed.
Theorem C70_crash_seen c ps y p i sl : sound c ps -> SystemSpec.reaches c ps y -> all_finished y -> identified (reported y) -> took_part y p ->
  nth_error (y_slots y) i = Some sl -> pr_runners p i = true -> crashed (sl_runner sl) -> ~ exit_status p 0.
Proof. intros SO RE FI ID TP N MI C X. now destruct (C70_worker_zero c ps y p SO RE FI ID TP X i sl N MI). Qed.

(* The other way round: a worker all of whose cases passed, that was not signalled and whose
   native runners exited with 0 exits with 0. *)
Theorem C70_well_is_zero c ps y p es1 k ok es2 rs report l code : sound c ps -> SystemSpec.reaches c ps y -> all_finished y -> identified (reported y) ->
  pr_events p = es1 ++ EAttempt (Got (MContext k false)) ok :: es2 -> undecided es1 -> ~ In ESignal (pr_events p) ->
  runners_end es2 = Some (Ended rs report) -> Forall (fun r => PoolSpec.exit_code_of r = Some 0%Z) rs ->
  received y (pr_runners p) l -> suite_exit l (option_map p_suite report) -> all_well y (pr_runners p) ->
  exit_status p code -> code = 0%Z.
Proof.
  intros SO RE FI ID E U NS RE' CO RC SE AW X. pose proof (reach_sinv c ps y SO RE) as I.
  pose proof (suite_passes y (pr_runners p) l (facts c ps y SO I) FI ID RC _ AW SE) as Z. destruct report as [rp|]; [|discriminate]. injection Z as Z.
  destruct (WorkerProps.C69_exit_code _ _ _ X) as (fs1 & a & ok' & fs2 & F & V & D & R).
  destruct (decisive_unique es1 (EAttempt (Got (MContext k false)) ok) es2 fs1 (EAttempt a ok') fs2 U V eq_refl D (eq_trans (eq_sym E) F)) as [Q1 <-].
  injection Q1 as <- <-. cbn [right_code andb] in R. destruct R as (e & Q & [R|[S _]]); [|contradiction]. rewrite RE' in Q. injection Q as <-.
  cbn [code_at_end] in R. rewrite Z in R. subst code.
  assert (ST : PoolModel.x_status (PoolModel.shutdown rs) = PoolModel.Completed 0%Z).
  { unfold PoolModel.shutdown. cbn [PoolModel.x_status]. rewrite PoolProofs.loop_errors, PoolProofs.loop_code. cbn [PoolModel.pool_init PoolModel.a_errors PoolModel.a_code app].
    clear -CO. induction CO as [|r rs C _ IH]; [reflexivity|]. destruct r as [c0 m f o i|er o i]; [|discriminate]. injection C as ->.
    cbn [flat_map PoolProofs.last_code]. exact IH. }
  rewrite ST. reflexivity.
Qed.

(* ==== the hypotheses are met ==== *)

(* Two runners whose native runners answer for each attempt of a test with one case, named
   after the test, or fail. *)
Definition answer (how : nat -> nat -> option rstatus) (y : system) (i : nat) : native :=
  match nth_error (y_slots y) i with
  | Some sl => match r_task (sl_runner sl) with
               | TRun t => match how (sp_id (wt_spec t)) (wt_run t) with
                           | Some s => Answered [(100 + sp_id (wt_spec t), s)]
                           | None => RunnerModel.Failed
                           end
               | _ => Answered []
               end
  | None => Answered []
  end.
Definition one_turn (how : nat -> nat -> option rstatus) (c : config nat) (y : system) (i : nat) : system :=
  let y := run (sstep c) y [Ask i; Reply i; Go i Producer] in
  run (sstep c) y [Go i (Task (answer how y i)); Go i Sender].
Definition one_round (how : nat -> nat -> option rstatus) (c : config nat) (y : system) : system :=
  run (sstep c) (one_turn how c (one_turn how c y 0) 1) SystemProps.queue_turn.
Definition after (n : nat) (how : nat -> nat -> option rstatus) (c : config nat) (ps : list params) : system := Nat.iter n (one_round how c) (sinit c ps).

Lemma reaches_run c ps y es : SystemSpec.reaches c ps y -> SystemSpec.reaches c ps (run (sstep c) y es).
Proof. intros (fs & ->). exists (fs ++ es). symmetry. apply run_app. Qed.
Lemma turn_reached how c ps y i : SystemSpec.reaches c ps y -> SystemSpec.reaches c ps (one_turn how c y i).
Proof. intros H. unfold one_turn. apply reaches_run, reaches_run, H. Qed.
Lemma round_reached how c ps y : SystemSpec.reaches c ps y -> SystemSpec.reaches c ps (one_round how c y).
Proof. intros H. unfold one_round. apply reaches_run, turn_reached, turn_reached, H. Qed.
Lemma after_reached n how c ps : SystemSpec.reaches c ps (after n how c ps).
Proof. induction n as [|n IH]; [exists []; reflexivity|]. exact (round_reached how c ps _ IH). Qed.
Definition good : system := after 40 (fun t a => Some (if Nat.eqb t 11 && Nat.eqb a 1 then Failure else Success)) SystemProps.five SystemProps.pair_of_runners.
Definition bad : system := after 40 (fun t a => Some (if Nat.eqb t 11 then Failure else Success)) SystemProps.five SystemProps.pair_of_runners.

Definition rep (w n : nat) (s : rstatus) : aresult := {| ar_work := w; ar_run := n; ar_results := [(100 + w, s)] |}.
Example good_reports : map reported_by (y_slots good) =
  [[rep 10 1 Success; rep 11 1 Failure; rep 14 1 Success; rep 11 2 Success]; [rep 12 1 Success; rep 13 1 Success]].
Proof. vm_compute. reflexivity. Qed.
Example good_finished : all_finished good.
Proof. vm_compute. repeat constructor; eauto. Qed.
Lemma good_reported : reported good = [rep 10 1 Success; rep 11 1 Failure; rep 14 1 Success; rep 11 2 Success; rep 12 1 Success; rep 13 1 Success].
Proof. unfold reported. rewrite flat_map_concat_map, good_reports. reflexivity. Qed.
Example good_identified : identified (reported good).
Proof.
  rewrite good_reported. split; [|split].
  - intros r H. simpl in H. intuition (subst; simpl; repeat constructor; simpl; tauto).
  - intros r r' t H H' T T'. simpl in H, H'. repeat (destruct H as [<-|H]); try destruct H; repeat (destruct H' as [<-|H']); try destruct H'; simpl in T, T'; try reflexivity; exfalso; lia.
  - intros r t H T. simpl in H. intuition (subst r; simpl in T; destruct T as [<-|[]]).
    + exists (rep 10 1 Success); simpl; tauto.
    + exists (rep 11 1 Failure); simpl; tauto.
    + exists (rep 14 1 Success); simpl; tauto.
    + exists (rep 11 1 Failure); simpl; tauto.
    + exists (rep 12 1 Success); simpl; tauto.
    + exists (rep 13 1 Success); simpl; tauto.
Qed.
(* What the worker of the first runner, and that of the second, are handed. *)
Definition as_report (who : nat) (r : aresult) : assoc :=
  {| as_work := ar_work r; as_run := ar_run r; as_before := []; as_after := None;
     as_results := map (fun x => {| r_id := fst x; r_status := snd x; r_file := None; r_runner := (who, 1); r_time := 0 |}) (ar_results r) |}.
Definition handed_to (y : system) (i : nat) : list assoc := match nth_error (y_slots y) i with Some sl => map (as_report i) (reported_by sl) | None => [] end.
Lemma handed_received y i : received y (Nat.eqb i) (handed_to y i).
Proof.
  exists (map (fun a => (i, a)) (handed_to y i)). split; [rewrite map_map; apply map_id|]. intros j.
  assert (F : forall l : list assoc, filter (fun x => Nat.eqb (fst x) j) (map (fun a => (i, a)) l) = if Nat.eqb i j then map (fun a => (i, a)) l else []).
  { induction l as [|a l IH]; [now destruct (Nat.eqb i j)|]. cbn [map filter fst]. rewrite IH. now destruct (Nat.eqb i j). }
  rewrite F. clear F. destruct (Nat.eqb_spec i j) as [EQ|NE]; [subst j|now destruct (nth_error (y_slots y) j)].
  assert (MS : map snd (map (fun a : assoc => (i, a)) (handed_to y i)) = handed_to y i) by (rewrite map_map; apply map_id).
  rewrite MS. unfold handed_to. destruct (nth_error (y_slots y) i) as [sl|]; auto.
  rewrite map_map. transitivity (map (fun r => r) (reported_by sl)); [|apply map_id]. apply map_ext. intros [w n rs]. unfold core, as_report. cbn. f_equal. rewrite map_map. transitivity (map (fun r => r) rs); [|apply map_id]. apply map_ext. now intros [].
Qed.
Definition suite_code (l : list assoc) : option nat :=
  match work_forever tracker_new l with Some k => Some (s_exit (snd (suite_result k (statuses k) (statuses k)))) | None => None end.
Lemma suite_code_ok l : suite_exit l (suite_code l).
Proof. unfold suite_exit, suite_code. destruct (work_forever tracker_new l) as [k|]; auto. exists (statuses k), (statuses k). auto. Qed.
Definition proc (y : system) (i : nat) : process :=
  {| pr_runners := Nat.eqb i; pr_config := {| g_piped := false; g_write := true; g_remote := true |};
     pr_events := [EAttempt (Got (MContext (RunModel.Fresh (Nat.eqb i 0)) false)) true;
                   EPoolEnds (Ended [WorkerProps.quiet] (option_map (fun n => {| p_suite := n; p_count := 3; p_errors := [] |}) (suite_code (handed_to y i)))); EPoll true] |}.
Lemma proc_took_part y i : took_part y (proc y i).
Proof.
  exists [], (RunModel.Fresh (Nat.eqb i 0)), false, true, (tl (pr_events (proc y i))). split; [reflexivity|]. split; [constructor|]. intros e E. cbn in E. injection E as <-.
  exists (handed_to y i). split; [apply handed_received|]. pose proof (suite_code_ok (handed_to y i)) as S. now destruct (suite_code (handed_to y i)).
Qed.
Example C70_good : Forall (took_part good) [proc good 0; proc good 1] /\ Forall (fun p => exit_status p 0) [proc good 0; proc good 1] /\ forall i, i < length SystemProps.pair_of_runners -> exists p, In p [proc good 0; proc good 1] /\ pr_runners p i = true.
Proof.
  split; [repeat constructor; apply proc_took_part|]. split.
  - repeat constructor; unfold exit_status; vm_compute; reflexivity.
  - intros [|[|i]] L; [exists (proc good 0)|exists (proc good 1)|cbn in L; lia]; simpl; auto.
Qed.
(* The test 11 fails in both attempts: its worker exits with 1, the other with 0. *)
Example C70_bad : exit_status (proc bad 0) 1 /\ exit_status (proc bad 1) 0.
Proof. split; unfold exit_status; vm_compute; reflexivity. Qed.
Example C70_bad_reports : map reported_by (y_slots bad) =
  [[rep 10 1 Success; rep 11 1 Failure; rep 14 1 Success; rep 11 2 Failure]; [rep 12 1 Success; rep 13 1 Success]] /\ all_finished bad.
Proof. split; vm_compute; [reflexivity|repeat constructor; eauto]. Qed.

(* The second native runner crashes at the test 13. *)
Definition crash : system := after 40 (fun t _ => if Nat.eqb t 13 then None else Some Success) SystemProps.five SystemProps.pair_of_runners.
Example C70_crash : all_finished crash /\ (exists sl, nth_error (y_slots crash) 1 = Some sl /\ crashed (sl_runner sl)) /\
  exit_status (proc crash 0) 0 /\ exit_status (proc crash 1) 101.
Proof.
  split; [vm_compute; repeat constructor; eauto|]. split; [vm_compute; eexists; split; [reflexivity|exact Logic.I]|].
  split; unfold exit_status; vm_compute; reflexivity.
Qed.
Example crash_identified : identified (reported crash).
Proof.
  assert (R : reported crash = [rep 10 1 Success; rep 11 1 Success; rep 14 1 Success; rep 12 1 Success; error_result 1 0 13]) by (vm_compute; reflexivity).
  rewrite R. split; [|split].
  - intros r H. simpl in H. intuition (subst; simpl; repeat constructor; simpl; tauto).
  - intros r r' t H H' T T'. simpl in H, H'. repeat (destruct H as [<-|H]); try destruct H; repeat (destruct H' as [<-|H']); try destruct H'; simpl in T, T'; try reflexivity; exfalso; lia.
  - intros r t H T. exists r. simpl in H. intuition (subst r; simpl in T; simpl; tauto).
Qed.

Print Assumptions C70_worker_zero.
Print Assumptions C70_all_zero.
Print Assumptions C70_failure_seen.
Print Assumptions C70_crash_seen.
Print Assumptions C70_well_is_zero.
