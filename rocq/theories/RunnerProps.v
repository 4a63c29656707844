(* C36-C38: how a runner gets its tests, runs them and reports on them. *)
From Verif Require Import Base StatusModel FetchModel FetchSpec FetchProofs RunnerModel RunnerSpec RunnerProofs RunnerLive.

(* ==== C36: the message buffer ==== *)

(* Whatever the three tasks' schedule: the tests fetched are, in order, those reported on,
   the one being run (or those flushed), and those still on the way; one report for each. *)
Theorem C36_delivered_once_in_order ss0 max batch es : proper ss0 -> 1 <= max -> 1 <= batch ->
  let s := run (rstep batch) (rinit ss0 max) es in
  exists got, handed (r_world s) = got ++ on_the_way s /\ map key got = map rkey (reports s) ++ map key (in_hand s).
Proof.
  intros PR M B s. destruct (v_keys _ _ _ _ (reach_rinv ss0 max batch es PR M B)) as (got & E1 & E2). exists got. split; auto.
  fold s in E1. rewrite E1, items_app. unfold on_the_way. destruct (r_prod s); reflexivity.
Qed.

Theorem C36_no_panic ss0 max batch es : proper ss0 -> 1 <= max -> 1 <= batch ->
  let s := run (rstep batch) (rinit ss0 max) es in r_task s <> TPanic /\ w_panicked (r_world s) = false.
Proof.
  intros PR M B s. pose proof (reach_rinv ss0 max batch es PR M B) as R. split; [exact (v_nopanic _ _ _ _ R)|].
  destruct (v_hist _ _ _ _ R) as (es' & IO & W). fold s in W. rewrite W. now apply hist_no_panic.
Qed.

(* Asking for the next batch never blocks the task that runs the tests. *)
Theorem C36_refill_never_blocks ss0 max batch es t o : proper ss0 -> 1 <= max -> 1 <= batch ->
  let s := run (rstep batch) (rinit ss0 max) es in
  r_task s = TRefill t -> r_task (rstep batch s (Task o)) = TRun t.
Proof.
  intros PR M B s T. destruct (refill_free _ _ _ _ t (reach_rinv ss0 max batch es PR M B) T) as [E _].
  cbn [rstep]. unfold step_task. fold s in E. rewrite T, E. destruct (is_exited _); reflexivity.
Qed.

(* The next tests are asked for only when no more than half of the last batch waits. *)
Theorem C36_prefetch ss0 max batch es : proper ss0 -> 1 <= max -> 1 <= batch ->
  let s := run (rstep batch) (rinit ss0 max) es in
  ~ crashed s -> r_prod s = PFetch -> on_the_way s <> [] ->
  exists l b, w_answers (r_world s) = l ++ [b] /\ 2 * length (on_the_way s) <= length (b_work b) + 1.
Proof.
  intros PR M B s NC P NW. pose proof (reach_rinv ss0 max batch es PR M B) as R. apply (prefetch ss0 max batch); auto.
  unfold crashed in NC. fold s in R. pose proof (v_nopanic _ _ _ _ R) as NP. pose proof (v_dead _ _ _ _ R) as D.
  destruct (r_task s) as [| | | | | | |[|]|]; auto; try tauto. destruct D as [Q _]; auto; [discriminate|congruence].
Qed.

(* ==== C37: the end of a runner ==== *)

(* Every schedule does only so many steps: no task goes on for ever. *)
Theorem C37_bounded ss0 max batch es : proper ss0 -> 1 <= max -> 1 <= batch -> effective batch (rinit ss0 max) es ->
  length es <= 36 * (length (source_tests ss0) * max) + length (concat ss0) + 5.
Proof. exact (effective_init ss0 max batch es). Qed.

(* If the sources give all they have, some task can go on until all three have returned --
   unless the native runner crashed while the fetcher waits for the results that are to
   decide about a retry. *)
Theorem C37_progress_partial ss0 max batch es : proper ss0 -> 1 <= max -> 1 <= batch -> complete ss0 ->
  let s := run (rstep batch) (rinit ss0 max) es in
  ~ finished s -> (flushing s -> r_prod s = PFetch -> attempt (r_world s) = max) -> can_move batch s.
Proof. intros PR M B CP s. apply (progress ss0); auto. apply reach_rinv; auto. Qed.

Theorem C37_no_crash_partial ss0 max batch es : proper ss0 -> 1 <= max -> 1 <= batch -> complete ss0 ->
  Forall (fun e => e <> Task Failed) es ->
  let s := run (rstep batch) (rinit ss0 max) es in ~ finished s -> can_move batch s.
Proof.
  intros PR M B CP NC s NF. apply (progress ss0 max); auto; [apply reach_rinv; auto|]. intros FL.
  destruct (no_crash batch (rinit ss0 max) es (fun H => H) NC). unfold flushing, crashed in *. fold s. destruct (r_task s); tauto.
Qed.

Theorem C37_no_retries_partial ss0 batch es : proper ss0 -> 1 <= batch -> complete ss0 ->
  let s := run (rstep batch) (rinit ss0 1) es in ~ finished s -> can_move batch s.
Proof.
  intros PR B CP s NF. assert (R : RInv ss0 1 batch s) by (apply reach_rinv; auto). apply (progress ss0 1); auto.
  intros _ _. now apply (attempt_one ss0 batch).
Qed.

(* At the end every test that was fetched has been reported on, in order, and if the
   native runner did not crash the sources' tests have all been fetched. *)
Theorem C37_all_reported ss0 max batch es : proper ss0 -> 1 <= max -> 1 <= batch ->
  let s := run (rstep batch) (rinit ss0 max) es in
  finished s -> map rkey (concat (r_sent s)) = map key (handed (r_world s)).
Proof. intros PR M B s. apply (finished_all ss0 max batch). apply reach_rinv; auto. Qed.

Theorem C37_all_run ss0 max batch es : proper ss0 -> 1 <= max -> 1 <= batch -> complete ss0 ->
  let s := run (rstep batch) (rinit ss0 max) es in
  finished s -> ~ crashed s -> first_attempts (r_world s) = source_tests ss0.
Proof.
  intros PR M B CP s F NC. pose proof (reach_rinv ss0 max batch es PR M B) as R. apply (finished_given ss0 max batch); auto.
  destruct F as (_ & _ & [|] & T); auto. destruct NC. unfold crashed. now rewrite T.
Qed.

(* A crash while a test runs: what was reported stays; every test that is added is
   reported as a failure of the native runner, the test that ran first. *)
Theorem C37_crash_reports batch ss0 max es es' t :
  let s := run (rstep batch) (rinit ss0 max) es in
  let s' := run (rstep batch) (rstep batch s (Task Failed)) es' in
  r_task s = TRun t -> finished s' ->
  exists us, reports s' = reports s ++ map (fun u => error_result (wt_run t) 0 (id_of u)) (t :: us).
Proof.
  intros s s' T F. destruct (crash_reports batch s t es' T) as [(rem & Q & _)|(_ & us & Q)].
  - fold s' in Q. destruct F as (_ & _ & c & T'). congruence.
  - eauto.
Qed.

(* The code does not have the full property: with retries, a crash in the last test of
   the last batch leaves the worker waiting for ever.  The fetcher waits for the result
   of the test, which is reported only once the fetcher has returned. *)
Definition one_test : wtest := {| wt_spec := {| sp_id := 7; sp_focus := None |}; wt_run := 1 |}.
Definition one_source : list (list reply) := [[Bundle {| b_work := [one_test]; b_eow := true |}]].
Definition hang : list revent :=
  [Producer; Producer; Producer; Producer; Producer; Task Failed; Task Failed; Task Failed; Producer; Task Failed; Task Failed].

Theorem C37_crash_with_retries_hangs_refuted :
  exists ss0 max batch es, proper ss0 /\ complete ss0 /\ 1 < max /\ 1 <= batch /\
    let s := run (rstep batch) (rinit ss0 max) es in
    crashed s /\ ~ finished s /\ r_sent s = [] /\ handed (r_world s) = [one_test] /\ forall es', run (rstep batch) s es' = s.
Proof.
  exists one_source, 2, 2, hang. split; [|split; [|split; [|split]]]; auto.
  - split; [discriminate|]. split; repeat constructor; auto.
  - repeat constructor.
  - cbv zeta. split; [exact I|]. split; [intros (_ & Q & _); discriminate|]. split; [reflexivity|]. split; [reflexivity|].
    assert (ST : forall e, rstep 2 (run (rstep 2) (rinit one_source 2) hang) e = run (rstep 2) (rinit one_source 2) hang).
    { intros [|o|]; [vm_compute|destruct o; vm_compute|vm_compute]; reflexivity. }
    set (s := run (rstep 2) (rinit one_source 2) hang) in *. clearbody s.
    induction es' as [|e es' IH]; auto. change (run (rstep 2) s (e :: es')) with (run (rstep 2) (rstep 2 s e) es'). now rewrite ST.
Qed.

(* ==== C38: the results are sent in batches ==== *)

(* The batches sent are a prefix, in order, of the reports made. *)
Theorem C38_in_order ss0 max batch es : proper ss0 -> 1 <= max -> 1 <= batch ->
  let s := run (rstep batch) (rinit ss0 max) es in
  concat (r_sent s) = w_results (r_world s) /\ Forall (fun b => 1 <= length b <= batch) (r_sent s) /\
  exists later, map key (handed (r_world s)) = map rkey (concat (r_sent s)) ++ later.
Proof.
  intros PR M B s. pose proof (reach_rinv ss0 max batch es PR M B) as R. fold s in R.
  split; [exact (v_sent _ _ _ _ R)|]. split; [exact (v_sizes _ _ _ _ R)|].
  destruct (v_keys _ _ _ _ R) as (got & E1 & E2). rewrite E1, map_app, E2. unfold reports. rewrite map_app, <- !app_assoc. eauto.
Qed.

(* A batch goes out when it is full, at the end of the tests of a fetch, or at the end. *)
Theorem C38_batches_full ss0 max batch es :
  let s := run (rstep batch) (rinit ss0 max) es in
  r_sent (rstep batch s Sender) = r_sent s \/
  exists b, r_sent (rstep batch s Sender) = r_sent s ++ [b] /\
    (batch <= length b \/ (exists rs, r_results s = ResultsFlush :: rs) \/ exists c, r_task s = TDone c).
Proof. apply sent_why. Qed.

(* No result is kept back while the runner waits for tests. *)
Theorem C38_nothing_held_back ss0 max batch es : proper ss0 -> 1 <= max -> 1 <= batch ->
  let s := run (rstep batch) (rinit ss0 max) es in
  r_task s = TRecv -> r_chan s = [] -> r_prod s = PFetch -> r_results s = [] ->
  r_buffer s = [] /\ map rkey (concat (r_sent s)) = map key (handed (r_world s)).
Proof.
  intros PR M B s T CH P RS. pose proof (reach_rinv ss0 max batch es PR M B) as R. fold s in R.
  assert (BF : r_buffer s = []) by (apply (idle_flushed ss0 max batch); auto; now rewrite P). split; auto.
  rewrite (v_sent _ _ _ _ R). symmetry. apply (all_reported s ss0 max batch); auto; rewrite ?P, ?T; auto. unfold in_hand. now rewrite T.
Qed.

(* ==== the hypotheses are met ==== *)

Definition wt (id : nat) : wtest := {| wt_spec := {| sp_id := id; sp_focus := None |}; wt_run := 1 |}.
Definition two_batches : list (list reply) :=
  [[Bundle {| b_work := [wt 1; wt 2; wt 3]; b_eow := false |}; Bundle {| b_work := [wt 4]; b_eow := false |}; Bundle {| b_work := []; b_eow := true |}]].
Definition fair (n : nat) (o : native) : list revent := concat (repeat [Producer; Task o; Sender] n).

Example two_batches_proper : proper two_batches /\ complete two_batches.
Proof. split; [split; [discriminate|split; repeat constructor; simpl; intuition discriminate]|repeat constructor]. Qed.
Example runs_to_the_end :
  let s := run (rstep 2) (rinit two_batches 2) (fair 50 (Answered [(1, Success)])) in
  finished s /\ r_task s = TDone false /\ map (@length aresult) (r_sent s) = [2; 1; 1] /\ map rkey (concat (r_sent s)) = [(1, 1); (2, 1); (3, 1); (4, 1)].
Proof. vm_compute. repeat split; eauto. Qed.
Example retries_failures :
  let s := run (rstep 2) (rinit two_batches 2) (fair 50 (Answered [(1, Failure)])) in
  finished s /\ map rkey (concat (r_sent s)) = [(1, 1); (2, 1); (3, 1); (4, 1); (1, 2); (2, 2); (3, 2); (4, 2)].
Proof. vm_compute. repeat split; eauto. Qed.
Example crashes_with_tests_left :
  let s := run (rstep 2) (rinit two_batches 1) (fair 50 Failed) in
  finished s /\ crashed s /\ map (fun r => (ar_work r, ar_results r)) (concat (r_sent s)) =
    map (fun i => (i, [(0, PrivateNativeRunnerError)])) [1; 2; 3; 4].
Proof. vm_compute. repeat split; eauto. Qed.
Example crash_hypothesis :
  exists n t, r_task (run (rstep 2) (rinit two_batches 1) (fair n (Answered []) ++ [Producer])) = TRun t /\ id_of t = 2 /\
    finished (run (rstep 2) (rstep 2 (run (rstep 2) (rinit two_batches 1) (fair n (Answered []) ++ [Producer])) (Task Failed)) (fair 50 Failed)).
Proof. exists 7, (wt 2). vm_compute. repeat split; eauto. Qed.
Example prefetch_with_tests_waiting :
  exists es, let s := run (rstep 2) (rinit two_batches 2) es in ~ crashed s /\ r_prod s = PFetch /\ length (on_the_way s) = 2.
Proof.
  exists (repeat Producer 5 ++ [Task Failed; Task Failed; Task Failed; Producer; Producer; Producer]). vm_compute. auto.
Qed.
Example idle_waiting :
  let s := run (rstep 2) (rinit [[Bundle {| b_work := [wt 1]; b_eow := false |}]] 2) (fair 50 (Answered [])) in
  r_task s = TRecv /\ r_chan s = [] /\ r_prod s = PFetch /\ r_results s = [] /\ length (r_sent s) = 1.
Proof. vm_compute. auto. Qed.

Print Assumptions C36_delivered_once_in_order.
Print Assumptions C36_no_panic.
Print Assumptions C36_refill_never_blocks.
Print Assumptions C36_prefetch.
Print Assumptions C37_bounded.
Print Assumptions C37_progress_partial.
Print Assumptions C37_no_crash_partial.
Print Assumptions C37_no_retries_partial.
Print Assumptions C37_all_reported.
Print Assumptions C37_all_run.
Print Assumptions C37_crash_reports.
Print Assumptions C37_crash_with_retries_hangs_refuted.
Print Assumptions C38_in_order.
Print Assumptions C38_batches_full.
Print Assumptions C38_nothing_held_back.
