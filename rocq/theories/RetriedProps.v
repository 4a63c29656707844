(* C71: worker processes are killed and started again, and no test is lost. *)
From Verif Require Import Base JobQueueModel JobQueueSpec JobQueueLemmas.
From Verif Require Import StatusModel FetchModel FetchSpec RunnerModel RunnerSpec SystemModel SystemSpec.
From Verif Require Import RetriedModel RetriedSpec RetriedFlat RetriedProofs RetriedSystem RetriedEnd.

(* At every moment, whichever processes were killed, at whatever point, and started again:
   a process reports an attempt of a test at most once, only for tests of the manifest and
   within its number of attempts; and a test is only ever reported on by processes of one
   worker. *)
Theorem C71_at_most_one_worker c z : NoDup (tests_of c) -> zreaches c z ->
  (forall pr, In pr (z_procs z) -> NoDup (map rkey (sent_by pr))) /\
  (forall pr r, In pr (z_procs z) -> In r (sent_by pr) -> In (ar_work r) (tests_of c) /\ 1 <= ar_run r <= p_max (q_params pr)) /\
  (forall p1 p2 r1 r2, In p1 (z_procs z) -> In p2 (z_procs z) -> In r1 (sent_by p1) -> In r2 (sent_by p2) ->
     ar_work r1 = ar_work r2 -> tag_of p1 = tag_of p2).
Proof.
  intros ND R. pose proof (reach_zinv c z ND R) as I. pose proof (z_reach _ _ I) as RE. pose proof (z_proc _ _ I) as F. rewrite Forall_forall in F. split; [|split].
  - intros pr P. apply (proc_reports c (z_queue z) pr RE ND (F pr P)).
  - intros pr r P Q. destruct (proc_reports c (z_queue z) pr RE ND (F pr P)) as [_ K]. destruct (K r Q) as [A B]. split; auto.
    destruct (got_claims c _ pr _ (F pr P) A) as (k & C & _). eapply claims_in_manifest; eauto.
  - intros p1 p2 r1 r2 P1 P2 R1 R2 E. destruct (proc_reports c _ p1 RE ND (F p1 P1)) as [_ K1]. destruct (proc_reports c _ p2 RE ND (F p2 P2)) as [_ K2].
    apply (one_tag c (z_queue z) p1 p2 (ar_work r1)); auto; [apply (K1 r1 R1)|]. rewrite E. apply (K2 r2 R2).
Qed.

(* If the last process of every worker has completed, and was retried in order, their reports
   cover every test of the manifest, exactly once. *)
Theorem C71_no_test_lost_partial c z : NoDup (tests_of c) -> zreaches c z -> z_procs z <> [] ->
  (forall pr, In pr (last_processes (z_procs z)) -> completed pr /\ orderly pr) ->
  Permutation (map ar_work (firsts (flat_map sent_by (last_processes (z_procs z))))) (tests_of c).
Proof. intros ND R. apply (no_test_lost c z ND). now apply reach_zinv. Qed.

(* Each test has been tried some number of times by the last process of one worker; it failed
   in all of these attempts but the last, which did not fail or was the last one allowed. *)
Theorem C71_outcomes_partial c z : NoDup (tests_of c) -> zreaches c z -> z_procs z <> [] ->
  (forall pr, In pr (last_processes (z_procs z)) -> completed pr /\ orderly pr) ->
  forall id, In id (tests_of c) ->
  exists pr k, In pr (last_processes (z_procs z)) /\ 1 <= k <= p_max (q_params pr) /\
    (forall j, In (id, j) (map rkey (sent_by pr)) <-> 1 <= j <= k) /\
    (forall j, 1 <= j < k -> fails (sent_by pr) id j = true) /\
    (k = p_max (q_params pr) \/ fails (sent_by pr) id k = false) /\
    (forall p r, In p (z_procs z) -> In r (sent_by p) -> ar_work r = id -> tag_of p = tag_of pr).
Proof.
  intros ND R NE H id ID. pose proof (reach_zinv c z ND R) as I. pose proof (z_reach _ _ I) as RE. pose proof (z_proc _ _ I) as F. rewrite Forall_forall in F.
  pose proof (no_test_lost c z ND I NE H) as P. apply (Permutation_in _ (Permutation_sym P)) in ID. apply in_map_iff in ID as (r0 & E0 & I0).
  unfold firsts in I0. apply filter_In in I0 as [I0 _]. apply in_flat_map in I0 as (pr & LP & I0). pose proof (F pr (last_in _ _ LP)) as IP.
  destruct (proc_reports c _ pr RE ND IP) as [_ K]. destruct (K r0 I0) as [G _]. rewrite E0 in G.
  destruct (proc_outcome c _ pr id RE ND IP (proj1 (H pr LP)) G) as (k & K1 & K2 & K3 & K4). exists pr, k. split; auto. split; auto. split; auto. split; auto. split; auto.
  intros p r IN IR E. destruct (proc_reports c _ p RE ND (F p IN)) as [_ Kp]. destruct (Kp r IR) as [Gp _]. rewrite E in Gp. eapply one_tag; eauto.
Qed.

(* A process that was retried in order and has returned has run, first and in the order of
   the manifest, the tests of its retry manifest; every test that an earlier process of its
   worker reported on is among them. *)
Theorem C71_runs_again c z i pr ids : NoDup (tests_of c) -> zreaches c z ->
  nth_error (z_procs z) i = Some pr -> q_retry pr = Some (Some ids) -> finished (q_runner pr) ->
  (exists more, map ar_work (firsts (sent_by pr)) = ids ++ more) /\
  (exists keep, ids = filter keep (tests_of c)) /\
  (orderly pr -> forall j pj r, j < i -> nth_error (z_procs z) j = Some pj -> tag_of pj = tag_of pr -> In r (sent_by pj) -> In (ar_work r) ids).
Proof.
  intros ND R E Q F. pose proof (reach_zinv c z ND R) as I. pose proof (z_reach _ _ I) as RE. pose proof (zin c z i pr I E) as PI. split; [|split].
  - rewrite (finished_firsts_proc c (z_queue z) pr RE ND PI F). unfold tests_got, ids_of_proc. rewrite Q. eauto.
  - destruct (manifest_order c z i pr ND R E) as (keep & K). unfold ids_of_proc in K. rewrite Q in K. eauto.
  - intros O j pj r L PJ T IR. pose proof (zin c z j pj I PJ) as IJ. destruct (proc_reports c _ pj RE ND IJ) as [_ K]. destruct (K r IR) as [G _].
    pose proof (repeats c z i j pr pj _ ND I E PJ L T O G) as X. unfold ids_of_proc in X. now rewrite Q in X.
Qed.

(* ---- the hypotheses are met, and the one on order is needed ---- *)

Definition five : config nat := {| cf_queue := [(10, 0); (11, 0); (12, 1); (13, 1); (14, 2)]; cf_strategy := ByTest |}.
Definition anna : params := {| p_tag := TRunner 0 1; p_batch := 2; p_max := 2 |}.
Definition bert : params := {| p_tag := TRunner 1 1; p_batch := 1; p_max := 1 |}.
Definition queue_turn : list zevent := map ZQueue (flat_map (fun k => repeat k 8) (seq 0 6)).
Definition passes (i : nat) : list zevent := [AskRetry i; ZAsk i] ++ queue_turn ++ [ZReply i; ZGo i Producer; ZGo i (Task (Answered [(1, Success)])); ZGo i Sender].
Definition works (i n : nat) : list zevent := concat (repeat (passes i) n).

Example five_nodup : NoDup (tests_of five).
Proof. repeat constructor; simpl; intuition discriminate. Qed.

(* The first process of a worker is given two tests and is killed before it has reported on
   either; another worker takes one test; then the first worker is started again. *)
Definition killed_and_retried : list zevent :=
  [Start anna; ZAsk 0] ++ queue_turn ++ [ZReply 0; ZGo 0 Producer; ZGo 0 Producer; Gone 0; Start bert] ++
  [ZAsk 1] ++ queue_turn ++ [Start anna] ++ works 2 30 ++ works 1 30.
Definition done_well (pr : proc) : bool :=
  match r_prod (q_runner pr), r_sender_done (q_runner pr), r_task (q_runner pr) with PExit, true, TDone false => true | _, _, _ => false end.
Lemma done_well_completed pr : done_well pr = true -> completed pr.
Proof.
  unfold done_well, completed, finished, crashed. destruct (r_prod (q_runner pr)), (r_sender_done (q_runner pr)), (r_task (q_runner pr)) as [| | | | | | |[|]|]; try discriminate.
  intros _. split; eauto.
Qed.

Example retried_in_order :
  let z := run (zstep five) (zinit five) killed_and_retried in
  zreaches five z /\ z_procs z <> [] /\ (forall pr, In pr (last_processes (z_procs z)) -> completed pr /\ orderly pr) /\
  map (fun pr => map rkey (sent_by pr)) (z_procs z) = [[]; [(12, 1)]; [(10, 1); (11, 1); (13, 1); (14, 1)]] /\
  map q_retry (z_procs z) = [None; None; Some (Some [10; 11])].
Proof.
  cbv zeta. split; [exists killed_and_retried; reflexivity|]. split; [intros H; apply (f_equal (@length proc)) in H; vm_compute in H; discriminate|]. split; [|split; vm_compute; reflexivity].
  assert (B : forallb (fun pr => done_well pr && match q_retry pr with None => true | _ => q_orderly pr end)
                      (last_processes (z_procs (run (zstep five) (zinit five) killed_and_retried))) = true) by (vm_compute; reflexivity).
  rewrite forallb_forall in B. intros pr P. specialize (B pr P). clear P. apply andb_prop in B as [B1 B2]. split; [apply done_well_completed; exact B1|].
  unfold orderly. destruct (q_retry pr); auto.
Qed.

(* A process is killed while its request is on the way to the queue, and started again; the
   new one gets its retry manifest before the queue gets to the request.  Two tests are handed
   out to nobody, and the new process completes without them. *)
Definition killed_while_asking : list zevent := [Start anna; ZAsk 0; Gone 0; Start anna; AskRetry 1] ++ works 1 30.
Theorem C71_no_test_lost_refuted : exists z, zreaches five z /\ z_procs z <> [] /\
  (forall pr, In pr (last_processes (z_procs z)) -> completed pr) /\
  ~ Permutation (map ar_work (firsts (flat_map sent_by (last_processes (z_procs z))))) (tests_of five) /\
  ~ In 10 (map ar_work (flat_map sent_by (z_procs z))).
Proof.
  exists (run (zstep five) (zinit five) killed_while_asking). split; [exists killed_while_asking; reflexivity|]. split; [intros H; apply (f_equal (@length proc)) in H; vm_compute in H; discriminate|]. split; [|split].
  - assert (B : forallb done_well (last_processes (z_procs (run (zstep five) (zinit five) killed_while_asking))) = true) by (vm_compute; reflexivity).
    rewrite forallb_forall in B. intros pr P. apply done_well_completed. exact (B pr P).
  - intros P. apply Permutation_length in P. vm_compute in P. discriminate.
  - vm_compute. intuition discriminate.
Qed.

Print Assumptions C71_at_most_one_worker.
Print Assumptions C71_no_test_lost_partial.
Print Assumptions C71_outcomes_partial.
Print Assumptions C71_runs_again.
Print Assumptions C71_no_test_lost_refuted.
