(* C66-C68: a whole run, from the manifest to the reports of all runners. *)
From Verif Require Import Base JobQueueModel JobQueueSpec JobQueueLemmas.
From Verif Require Import StatusModel FetchModel FetchSpec FetchProofs RunnerModel RunnerSpec RunnerProofs RunnerLive SystemModel SystemSpec RunnerFeed SystemProofs SystemEnd SystemLive SystemOrder.

(* ==== C66: every test is run by exactly one runner ==== *)

(* At every moment, whatever the schedule and whoever crashes: an attempt of a test is
   reported at most once in the whole run, by one runner only, and only for tests of the
   manifest and within the runner's number of attempts. *)
Theorem C66_at_most_once c ps y : sound c ps -> reaches c ps y ->
  NoDup (map rkey (reported y)) /\
  (forall i j si sj ri rj, nth_error (y_slots y) i = Some si -> nth_error (y_slots y) j = Some sj ->
     In ri (reported_by si) -> In rj (reported_by sj) -> ar_work ri = ar_work rj -> i = j) /\
  (forall sl r, In sl (y_slots y) -> In r (reported_by sl) -> In (ar_work r) (tests_of c) /\ 1 <= ar_run r <= p_max (sl_params sl)).
Proof.
  intros SO RE. pose proof (reach_sinv c ps y SO RE) as I. split; [now apply (once c ps)|]. split.
  - intros. eapply one_runner; eauto.
  - intros sl r S R. destruct (slot_reports c ps y sl SO I S) as [_ K]. destruct (K r R). split; auto. eapply got_in_manifest; eauto.
Qed.

(* When all runners have returned, the tests reported on are the first ones of the manifest;
   they are all of them if one native runner has not crashed. *)
Theorem C66_prefix_at_end c ps y : sound c ps -> reaches c ps y -> all_finished y ->
  exists n, Permutation (map ar_work (firsts (reported y))) (firstn n (tests_of c)).
Proof. intros SO RE F. eexists. apply (all_firsts c ps y SO); auto. now apply reach_sinv. Qed.

Theorem C66_all_at_end c ps y : sound c ps -> reaches c ps y -> all_finished y -> Exists survives (y_slots y) ->
  Permutation (map ar_work (firsts (reported y))) (tests_of c).
Proof. intros SO RE. apply (all_tests c ps y SO). now apply reach_sinv. Qed.

(* If none has crashed: each test has been tried some number of times by one runner; it
   failed in all attempts but the last, which did not fail or was the last one allowed. *)
Theorem C66_outcomes c ps y : sound c ps -> reaches c ps y -> ps <> [] -> Forall survives (y_slots y) ->
  forall id, In id (tests_of c) ->
  exists sl k, In sl (y_slots y) /\ 1 <= k <= p_max (sl_params sl) /\
    (forall j, In (id, j) (map rkey (reported y)) <-> 1 <= j <= k) /\
    (forall j, 1 <= j < k -> fails (reported y) id j = true) /\
    (k = p_max (sl_params sl) \/ fails (reported y) id k = false) /\
    (forall r, In r (reported y) -> ar_work r = id -> In r (reported_by sl)).
Proof.
  intros SO RE NE SV id ID. pose proof (reach_sinv c ps y SO RE) as I. apply (run_outcome c ps y id); auto.
  intros Q. pose proof (y_params _ _ _ I) as P. rewrite Q in P. symmetry in P. contradiction.
Qed.

(* ==== C67: a run comes to its end ==== *)

(* As long as a runner has not returned, something can go on -- unless a native runner has
   crashed while its fetcher waits for results that are to decide about a retry (C37). *)
Theorem C67_progress_partial c ps y : sound c ps -> reaches c ps y -> ~ all_finished y ->
  Forall (fun sl => flushing (sl_runner sl) -> r_prod (sl_runner sl) = PFetch -> attempt (r_world (sl_runner sl)) = p_max (sl_params sl)) (y_slots y) ->
  system_moves c y.
Proof. intros SO RE. apply (system_progress c ps y SO). now apply reach_sinv. Qed.

Theorem C67_no_crash_progress c ps es : sound c ps -> no_failure es ->
  let y := run (sstep c) (sinit c ps) es in ~ all_finished y -> system_moves c y.
Proof.
  intros SO NF y NA. apply (C67_progress_partial c ps y SO); auto; [now exists es|].
  pose proof (no_crash_run c es _ NF (no_crash_init c ps)) as F. fold y in F. rewrite Forall_forall in *. intros sl S FL. destruct (F sl S).
  unfold flushing, crashed in *. destruct (r_task (sl_runner sl)); tauto.
Qed.

(* No schedule goes on for ever: the number of steps is bounded by the number of tests, of
   runners and of attempts. *)
Theorem C67_bounded c ps es : sound c ps -> all_effective c (sinit c ps) es ->
  length es <= let n := length (tests_of c) in sum (map (fun p => 36 * (n * p_max p) + 5 + (n + 8) * (n + 1)) ps).
Proof. intros SO E. cbv zeta. rewrite <- init_measure. apply (effective_measure c ps es SO); auto. apply sinit_inv. Qed.

(* So if no native runner fails, a run that has stopped has reported on every test. *)
Theorem C67_stops_when_done c ps es : sound c ps -> ps <> [] -> no_failure es ->
  let y := run (sstep c) (sinit c ps) es in
  (forall e, sstep c y e = y) -> Forall survives (y_slots y) /\ Permutation (map ar_work (firsts (reported y))) (tests_of c).
Proof.
  intros SO NE NF y ST.
  assert (F : all_finished y).
  { assert (D : all_finished y \/ ~ all_finished y).
    { unfold all_finished. induction (y_slots y) as [|a l IH]; [left; constructor|]. destruct IH as [IH|IH]; [|right; intros X; inversion X; contradiction].
      assert (DE : finished (sl_runner a) \/ ~ finished (sl_runner a)).
      { unfold finished. destruct (r_prod (sl_runner a)), (r_sender_done (sl_runner a)), (r_task (sl_runner a)); try (right; intros (? & ? & ? & ?); discriminate). left. eauto. }
      destruct DE; [left; constructor; auto|right; intros X; inversion X; contradiction]. }
    destruct D as [D|D]; auto. exfalso. destruct (C67_no_crash_progress c ps es SO NF D) as [(i & M)|(e & _ & M)]; [apply (M Failed)|apply M]; apply ST. }
  assert (SV : Forall survives (y_slots y)).
  { pose proof (no_crash_run c es _ NF (no_crash_init c ps)) as C. fold y in C. unfold all_finished in F. rewrite Forall_forall in *. intros sl S. split; auto. }
  split; auto. apply (C66_all_at_end c ps y SO); auto; [now exists es|]. pose proof (reach_sinv c ps y SO (ex_intro _ es eq_refl)) as I.
  pose proof (y_params _ _ _ I) as P. destruct (y_slots y) as [|sl l]; [symmetry in P; contradiction|]. inversion SV; subst. now constructor.
Qed.

(* ==== C68: what a retry gets is what the worker ran ==== *)

(* The tests the queue gives to a retry of a worker are those the worker has reported on,
   in the order in which it ran them first. *)
Theorem C68_retry_repeats c ps y i sl : sound c ps -> reaches c ps y -> NoDup (map p_tag ps) -> all_finished y ->
  nth_error (y_slots y) i = Some sl -> p_tag (sl_params sl) <> TExternalClient ->
  partition_for c (y_queue y) (p_tag (sl_params sl)) = map ar_work (firsts (reported_by sl)).
Proof.
  intros SO RE NT F E NX. rewrite (partition_got c ps y i sl); auto. symmetry. pose proof (nth_error_In _ _ E) as S. unfold all_finished in F. rewrite Forall_forall in F.
  apply (finished_firsts c ps y sl SO (reach_sinv c ps y SO RE) S). auto.
Qed.

(* ==== the hypotheses are met ==== *)

Definition five : config nat := {| cf_queue := [(10, 0); (11, 0); (12, 1); (13, 1); (14, 2)]; cf_strategy := ByTest |}.
Definition pair_of_runners : list params := [{| p_tag := TRunner 0 1; p_batch := 2; p_max := 2 |}; {| p_tag := TRunner 1 1; p_batch := 1; p_max := 1 |}].
Definition turn (o : native) (i : nat) : list sevent := [Ask i; Reply i; Go i Producer; Go i (Task o); Go i Sender].
Definition queue_turn : list sevent := map QStep (seq 0 8).
Definition rounds (n : nat) (o1 o2 : native) : list sevent := concat (repeat (turn o1 0 ++ turn o2 1 ++ queue_turn) n).

Example five_sound : sound five pair_of_runners.
Proof. split; [repeat constructor; simpl; intuition discriminate|repeat constructor]. Qed.
Example tags_differ : NoDup (map p_tag pair_of_runners) /\ Forall (fun p => p_tag p <> TExternalClient) pair_of_runners.
Proof. split; [repeat constructor; simpl; intuition discriminate|repeat constructor; discriminate]. Qed.
Definition passing_run : list sevent := rounds 40 (Answered [(1, Success)]) (Answered [(2, Success)]).
Example all_pass :
  let y := run (sstep five) (sinit five pair_of_runners) passing_run in
  no_failure passing_run /\ Forall survives (y_slots y) /\ (forall e, sstep five y e = y) /\
  map (fun sl => map rkey (reported_by sl)) (y_slots y) = [[(10, 1); (11, 1); (14, 1)]; [(12, 1); (13, 1)]].
Proof.
  cbv zeta. split; [|split; [|split; [|vm_compute; reflexivity]]].
  - assert (B : forallb (fun e => match e with Go _ (Task Failed) => false | _ => true end) passing_run = true) by (vm_compute; reflexivity).
    rewrite forallb_forall in B. apply Forall_forall. intros e E i ->. discriminate (B _ E).
  - vm_compute. repeat apply Forall_cons; try apply Forall_nil; (split; [split; [reflexivity|split; [reflexivity|eexists; reflexivity]]|exact (fun H => H)]).
  - intros [[|[|[|i]]]|[|[|[|[|[|k]]]]]|[|[|[|i]]]|[|[|[|i]]] [|o|]]; vm_compute; reflexivity.
Qed.
Example first_runner_fails :
  let y := run (sstep five) (sinit five pair_of_runners) (rounds 40 (Answered [(1, Failure)]) (Answered [(2, Success)])) in
  map (fun sl => map rkey (reported_by sl)) (y_slots y) = [[(10, 1); (11, 1); (14, 1); (10, 2); (11, 2); (14, 2)]; [(12, 1); (13, 1)]].
Proof. vm_compute. reflexivity. Qed.
(* The second native runner crashes at its first test. *)
Example second_runner_crashes :
  let y := run (sstep five) (sinit five pair_of_runners) (rounds 40 (Answered [(1, Success)]) Failed) in
  all_finished y /\ Exists (fun sl => crashed (sl_runner sl)) (y_slots y) /\ Exists survives (y_slots y) /\
  map (fun sl => map rkey (reported_by sl)) (y_slots y) = [[(10, 1); (11, 1); (14, 1)]; [(12, 1); (13, 1)]].
Proof.
  cbv zeta. split; [|split; [|split; [|vm_compute; reflexivity]]].
  - vm_compute. repeat constructor; eauto.
  - vm_compute. apply Exists_cons_tl, Exists_cons_hd. exact Logic.I.
  - vm_compute. apply Exists_cons_hd. split; [split; [reflexivity|split; [reflexivity|eexists; reflexivity]]|exact (fun H => H)].
Qed.

Print Assumptions C66_at_most_once.
Print Assumptions C66_prefix_at_end.
Print Assumptions C66_all_at_end.
Print Assumptions C66_outcomes.
Print Assumptions C67_progress_partial.
Print Assumptions C67_no_crash_progress.
Print Assumptions C67_bounded.
Print Assumptions C67_stops_when_done.
Print Assumptions C68_retry_repeats.
