(* Properties of what a runner is given to run: C31, C32, C33, C34. *)
From Verif Require Import Base StatusModel FetchModel FetchSpec FetchProofs FetchAttempts.

(* C34.  The tests of the sources are handed out for their first attempt in order,
   without loss or repetition; retries come only after all of them. *)
Theorem C34_order : forall ss max es, proper ss -> 1 <= max -> in_order (start ss max) es ->
  let w := run fstep (start ss max) es in
  exists rest retries, source_tests ss = first_attempts w ++ rest /\ handed w = first_attempts w ++ retries /\
    Forall (fun t => 1 < wt_run t) retries /\ (retries <> [] -> rest = []).
Proof. intros ss max es P M IO. exact (hist_order ss max P M es IO). Qed.

(* C34.  A worker that retries a run is given the tests of its retry manifest first, then
   those the queue hands it; a new worker only the latter. *)
Theorem C34_retry_manifest_first : forall rm queue max es, let ss := retry_sources (Bundle rm) queue in
  b_eow rm = true -> proper ss -> 1 <= max -> in_order (start ss max) es ->
  exists rest, b_work rm ++ fst (served queue) = first_attempts (run fstep (start ss max) es) ++ rest.
Proof.
  intros rm queue max es ss E P M IO. destruct (C34_order ss max es P M IO) as (rest & _ & H & _). exists rest. rewrite <- H.
  unfold ss, retry_sources. cbn [source_tests served]. rewrite E. destruct (served queue) as [ts e]. cbn [fst]. destruct e; now rewrite ?app_nil_r.
Qed.

Theorem C34_new_worker : forall queue max es, let ss := fresh_sources queue in
  proper ss -> 1 <= max -> in_order (start ss max) es ->
  exists rest, fst (served queue) = first_attempts (run fstep (start ss max) es) ++ rest.
Proof.
  intros queue max es ss P M IO. destruct (C34_order ss max es P M IO) as (rest & _ & H & _). exists rest. rewrite <- H.
  unfold ss, fresh_sources. cbn [source_tests]. destruct (served queue) as [ts e]. cbn [fst]. destruct e; now rewrite app_nil_r.
Qed.

(* C34.  The end of work is given only when every test of the sources was handed out. *)
Theorem C34_nothing_lost : forall ss max es b, proper ss -> 1 <= max -> in_order (start ss max) es ->
  let w := run fstep (start ss max) es in
  In b (w_answers w) -> b_eow b = true -> first_attempts w = source_tests ss.
Proof. exact hist_all_given. Qed.

(* C34.  Every answer but the end of work has tests; the end of work comes once, as the last answer. *)
Theorem C34_answers : forall ss max es, proper ss -> 1 <= max -> in_order (start ss max) es ->
  let w := run fstep (start ss max) es in
  exists bs tl, w_answers w = bs ++ tl /\ Forall (fun b => b_eow b = false /\ b_work b <> []) bs /\
    (tl = [] \/ w_ended w = true /\ tl = [{| b_work := []; b_eow := true |}]).
Proof. intros ss max es P M IO. exact (hist_answers ss max P M es IO). Qed.

(* C34.  No call panics. *)
Theorem C34_no_panic : forall ss max es, proper ss -> 1 <= max -> in_order (start ss max) es ->
  w_panicked (run fstep (start ss max) es) = false.
Proof. intros ss max es P M IO. exact (hist_no_panic ss max P M es IO). Qed.

(* C34.  A call is answered when the sources have answered and every test handed out was reported. *)
Theorem C34_answered : forall ss max es, proper ss -> complete ss -> 1 <= max -> in_order (start ss max) es ->
  let w := run fstep (start ss max) es in
  w_ended w = false -> length (w_results w) = length (handed w) ->
  exists b, w_answers (fstep w Fetch) = w_answers w ++ [b].
Proof. intros ss max es P CP M IO w NE L. exact (hist_progress ss max P M es IO CP NE L). Qed.

(* C34.  In the last attempt a call is answered without waiting for reports. *)
Theorem C34_answered_last : forall ss max es, proper ss -> complete ss -> 1 <= max -> in_order (start ss max) es ->
  let w := run fstep (start ss max) es in
  w_ended w = false -> attempt w = max -> handed w <> [] ->
  exists b, w_answers (fstep w Fetch) = w_answers w ++ [b].
Proof. intros ss max es P CP M IO w NE L HN. exact (hist_progress_last ss max P M es IO CP NE L HN). Qed.

(* C31.  A retry holds exactly the tests that failed in every attempt so far, in the
   order of the manifest, and is made when all tests of the manifest were handed out and
   every report is in. *)
Theorem C31_retry : forall ss max es b t, proper ss -> 1 <= max -> in_order (start ss max) es ->
  let w := run fstep (start ss max) es in
  w_answers (fstep w Fetch) = w_answers w ++ [b] -> In t (b_work b) -> wt_run t <> 1 ->
  first_attempts w = source_tests ss /\ length (w_results w) = length (handed w) /\
  Forall (fun t => wt_run t = attempt w + 1) (b_work b) /\
  map id_of (b_work b) = filter (fun id => fails_through (w_results w) id (attempt w)) (map id_of (source_tests ss)).
Proof.
  intros ss max es b t P M IO w E I N. destruct (hist_retry ss max P M es IO b t E I N) as (_ & A & B & C & D & _). auto.
Qed.

(* C31.  The end of work is given only in the last attempt, or when every report is in
   and no test failed in every attempt so far. *)
Theorem C31_end : forall ss max es b, proper ss -> 1 <= max -> in_order (start ss max) es ->
  let w := run fstep (start ss max) es in
  w_answers (fstep w Fetch) = w_answers w ++ [b] -> b_eow b = true ->
  attempt w = max \/
  length (w_results w) = length (handed w) /\
  forall id, In id (map id_of (source_tests ss)) -> fails_through (w_results w) id (attempt w) = false.
Proof. intros ss max es b P M IO w E B. exact (proj2 (proj2 (hist_end ss max P M es IO b E B))). Qed.

(* C31.  When the end of work was given and every report is in, each test of the sources
   was tried up to some attempt, once in each: it failed in all attempts but the last, and
   the last one did not fail or was the last one allowed. *)
Theorem C31_outcome : forall ss max es b, proper ss -> 1 <= max -> in_order (start ss max) es ->
  let w := run fstep (start ss max) es in
  In b (w_answers w) -> b_eow b = true -> length (w_results w) = length (handed w) ->
  NoDup (map rkey (w_results w)) /\
  forall id, In id (map id_of (source_tests ss)) ->
  exists k, 1 <= k <= max /\ (forall j, In (id, j) (map rkey (w_results w)) <-> 1 <= j <= k) /\
    (forall j, 1 <= j < k -> fails (w_results w) id j = true) /\ (k = max \/ fails (w_results w) id k = false).
Proof.
  intros ss max es b P M IO w Ib Eb L. split.
  - destruct (reach_inv ss max es P M IO) as (H1 & H2 & O & C & I). pose proof (all_in max M w (i_res _ _ _ _ _ _ _ I) L) as K.
    rewrite <- K. exact (i_nd _ _ _ _ _ _ _ I).
  - intros id Iid. destruct (outcome ss max P M es b IO Ib Eb L id Iid) as (k & B & A & F & E). exists k. split; auto. split; auto. split; auto.
    intros j J. apply (proj1 (fails_through_spec _ _ _) F). lia.
Qed.

(* C32.  No test is handed out for more than the maximum number of attempts, nor twice for
   the same attempt; only tests of the sources are. *)
Theorem C32_attempts : forall ss max es, proper ss -> 1 <= max -> in_order (start ss max) es ->
  let w := run fstep (start ss max) es in
  Forall (fun t => 1 <= wt_run t <= max) (handed w) /\ NoDup (map key (handed w)) /\
  incl (map id_of (handed w)) (map id_of (source_tests ss)).
Proof. intros ss max es P M IO. exact (hist_runs ss max P M es IO). Qed.

Theorem C32_bound : forall ss max es, proper ss -> 1 <= max -> in_order (start ss max) es ->
  let w := run fstep (start ss max) es in
  length (handed w) <= length (source_tests ss) * max /\ length (w_answers w) <= length (source_tests ss) * max + 1.
Proof.
  intros ss max es P M IO. exact (conj (hist_bound ss max P M es IO) (hist_answer_bound ss max P M es IO)).
Qed.

(* C33.  What holds: a retried test is focused, on failing cases of its reports only, and
   on the first failing case of each of them. *)
Theorem C33_first_failing_case_partial : forall ss max es b t, proper ss -> 1 <= max -> in_order (start ss max) es ->
  let w := run fstep (start ss max) es in
  w_answers (fstep w Fetch) = w_answers w ++ [b] -> In t (b_work b) -> wt_run t <> 1 ->
  exists foc, sp_focus (wt_spec t) = Some foc /\
    (forall r x xs, In r (w_results w) -> ar_work r = id_of t -> failing_cases r = x :: xs -> In x foc) /\
    (forall x, In x foc -> exists r, In r (w_results w) /\ ar_work r = id_of t /\ In x (failing_cases r)).
Proof.
  intros ss max es b t P M IO w E I N. destruct (hist_retry ss max P M es IO b t E I N) as (_ & _ & _ & _ & _ & F).
  rewrite Forall_forall in F. exact (F t I).
Qed.

(* C33.  With at most one failing case in each report, the focus is every failing case. *)
Theorem C33_one_case_partial : forall ss max es b t, proper ss -> 1 <= max -> in_order (start ss max) es ->
  let w := run fstep (start ss max) es in
  w_answers (fstep w Fetch) = w_answers w ++ [b] -> In t (b_work b) -> wt_run t <> 1 ->
  (forall r, In r (w_results w) -> length (failing_cases r) <= 1) ->
  forall x, In x (focus_of t) <-> exists r, In r (w_results w) /\ ar_work r = id_of t /\ In x (failing_cases r).
Proof.
  intros ss max es b t P M IO w E I N One x.
  destruct (C33_first_failing_case_partial ss max es b t P M IO E I N) as (foc & F & A & B). unfold focus_of. rewrite F. split; [apply B|].
  intros (r & I1 & W & Ix). specialize (One r I1). destruct (failing_cases r) as [|y [|z l]] eqn:FC; [destruct Ix| |simpl in One; lia].
  destruct Ix as [<-|[]]. exact (A r y [] I1 W FC).
Qed.

Definition mk (i k : nat) : wtest := {| wt_spec := {| sp_id := i; sp_focus := None |}; wt_run := k |}.
Definition two_cases : list (list reply) := [[Bundle {| b_work := [mk 7 1]; b_eow := true |}]].

(* C33.  False of the code: of two failing cases of a test, the retry is focused on the
   first only. *)
Theorem C33_all_failing_cases_refuted :
  proper two_cases /\
  let es := [Fetch; Account [{| ar_work := 7; ar_run := 1; ar_results := [(1, Failure); (2, Failure)] |}]] in
  let w := run fstep (start two_cases 2) es in
  in_order (start two_cases 2) es /\
  exists b t r, w_answers (fstep w Fetch) = w_answers w ++ [b] /\ In t (b_work b) /\ wt_run t = 2 /\
    In r (w_results w) /\ ar_work r = id_of t /\ In 2 (failing_cases r) /\ ~ In 2 (focus_of t).
Proof.
  split; [|split].
  - split; [discriminate|]. split; simpl; [constructor; [intros []|constructor]|]. constructor; auto.
  - simpl. split; auto. split; auto. exists []. reflexivity.
  - eexists _, _, _. split; [reflexivity|]. split; [left; reflexivity|]. split; [reflexivity|]. split; [left; reflexivity|].
    split; [reflexivity|]. split; [simpl; auto|]. simpl. intros [|[]]; discriminate.
Qed.

(* A history that meets the hypotheses: a retry manifest, then the queue in two bundles;
   tests 1 and 3 fail, 3 passes on its first retry, 1 fails in all three attempts. *)
Definition example_sources : list (list reply) :=
  retry_sources (Bundle {| b_work := [mk 1 1]; b_eow := true |})
                [Bundle {| b_work := [mk 2 1; mk 3 1]; b_eow := false |}; Bundle {| b_work := []; b_eow := true |}].
Definition res (i k : nat) (s : rstatus) : aresult := {| ar_work := i; ar_run := k; ar_results := [(i, s)] |}.
Definition example_history : list event :=
  [Fetch; Account [res 1 1 Failure]; Fetch; Account [res 2 1 Success]; Fetch; Account [res 3 1 Error];
   Fetch; Account [res 1 2 Failure; res 3 2 Success]; Fetch; Account [res 1 3 Failure]; Fetch].

Example example_proper : proper example_sources /\ complete example_sources.
Proof.
  split; [split; [discriminate|split]|].
  - simpl. repeat constructor; simpl; intuition discriminate.
  - simpl. repeat constructor.
  - repeat constructor.
Qed.
Example example_in_order : in_order (start example_sources 3) example_history.
Proof.
  unfold example_history. cbn [in_order reports_in_order].
  split; [exact I|]. split; [exists []; vm_compute; reflexivity|]. split; [exact I|]. split; [exists [(3, 1)]; vm_compute; reflexivity|]. split; [exact I|].
  split; [exists []; vm_compute; reflexivity|]. split; [exact I|]. split; [exists []; vm_compute; reflexivity|]. split; [exact I|].
  split; [exists []; vm_compute; reflexivity|]. split; [exact I|]. exact I.
Qed.
Example example_handed :
  map (fun b => (map key (b_work b), b_eow b)) (w_answers (run fstep (start example_sources 3) example_history)) =
  [([(1, 1)], false); ([(2, 1); (3, 1)], false); ([(1, 2); (3, 2)], false); ([(1, 3)], false); ([], true)].
Proof. reflexivity. Qed.

Example example_outcome :
  let w := run fstep (start example_sources 3) example_history in
  length (w_results w) = length (handed w) /\ existsb b_eow (w_answers w) = true /\
  map (fun i => map (fails (w_results w) i) [1; 2; 3]) [1; 2; 3] = [[true; true; true]; [false; false; false]; [true; false; false]].
Proof. vm_compute. auto. Qed.

Print Assumptions C34_order.
Print Assumptions C34_retry_manifest_first.
Print Assumptions C34_new_worker.
Print Assumptions C34_nothing_lost.
Print Assumptions C34_answers.
Print Assumptions C34_no_panic.
Print Assumptions C34_answered.
Print Assumptions C34_answered_last.
Print Assumptions C31_retry.
Print Assumptions C31_end.
Print Assumptions C31_outcome.
Print Assumptions C32_attempts.
Print Assumptions C32_bound.
Print Assumptions C33_first_failing_case_partial.
Print Assumptions C33_one_case_partial.
Print Assumptions C33_all_failing_cases_refuted.
