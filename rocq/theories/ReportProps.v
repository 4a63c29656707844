From Verif Require Import Base StatusModel ReportModel ReportSpec ReportProofs.
From Coq Require Import Sorting.Sorted.

(* C41: the order of the report *)

(* the comparison is a total order that agrees with equality *)
Theorem C41_total_order :
  (forall a, ale a a) /\ (forall a b, ale a b \/ ale b a) /\ (forall a b c, ale a b -> ale b c -> ale a c) /\
  (forall a b, ale a b -> ale b a -> aeq a b) /\ (forall a b, acmp a b = Eq <-> aeq a b).
Proof.
  repeat split; [apply ale_refl|apply ale_total|apply ale_trans|apply ale_antisym|intros H; now apply kcmp_eq|intros H; now apply kcmp_eq].
Qed.

(* whatever order the results arrived in, the report has the same sequence of test, time
   and attempt; and the same results if these tell all results apart *)
Theorem C41_canonical : forall sort1 sort2 l1 l2, sorter sort1 -> sorter sort2 -> Permutation l1 l2 ->
  Permutation l1 (sort1 l1) /\ map key_triple (sort1 l1) = map key_triple (sort2 l2) /\ (NoDup (map key_triple l1) -> sort1 l1 = sort2 l2).
Proof.
  intros s1 s2 l1 l2 H1 H2 P. destruct (H1 l1) as [P1 S1], (H2 l2) as [P2 S2].
  assert (PP : Permutation (s1 l1) (s2 l2)) by now rewrite <- P1, <- P2.
  assert (K : map key_triple (s1 l1) = map key_triple (s2 l2)) by (apply sorted_keys_unique; auto; now apply Permutation_map).
  split; auto. split; auto. intros N. apply keys_unique_eq; auto. eapply Permutation_NoDup; [|exact N]. now apply Permutation_map.
Qed.

(* the results of one test are in the order of their times, and of their attempts at equal times *)
Theorem C41_chronological : forall sort l i j a b, sorter sort -> nth_error (sort l) i = Some a -> nth_error (sort l) j = Some b -> i < j ->
  as_work a <= as_work b /\
  (as_work a = as_work b -> forall r r', hd_error (as_results a) = Some r -> hd_error (as_results b) = Some r' ->
     r_time r <= r_time r' /\ (r_time r = r_time r' -> as_run a <= as_run b)).
Proof.
  intros sort l i j a b H A B L. destruct (H l) as [_ S0].
  assert (LE : ale a b).
  { clear -S0 A B L. revert i j A B L. induction S0 as [|x t S1 IH F]; intros i j A B L; [destruct i; discriminate|]. destruct i as [|i], j as [|j]; simpl in A, B; try lia.
    - injection A as ->. rewrite Forall_forall in F. apply F. eapply nth_error_In; eauto.
    - apply (IH i j); auto. lia. }
  unfold ale, acmp, key_triple, kcmp in LE. destruct (Nat.compare_spec (as_work a) (as_work b)) as [E|E|E]; cbn [lex] in LE; [|split; lia|congruence].
  split; [lia|]. intros _ r r' R R'. destruct (as_results a) as [|r0 ra], (as_results b) as [|r1 rb]; try discriminate. injection R as ->. injection R' as ->. cbn [ocmp] in LE.
  destruct (Nat.compare_spec (r_time r) (r_time r')) as [E1|E1|E1]; cbn [lex] in LE; [|split; lia|congruence]. split; [lia|]. intros _.
  destruct (Nat.compare_spec (as_run a) (as_run b)); try lia. congruence.
Qed.

(* the whole report does not depend on the order of arrival *)
Theorem C41_report_independent : forall sort1 sort2 orders1 orders2 push_ok finish_ok ls1 ls2,
  sorter sort1 -> sorter sort2 -> walks orders1 -> walks orders2 ->
  Permutation (flat_map line_results ls1) (flat_map line_results ls2) -> last_summary ls1 None = last_summary ls2 None ->
  NoDup (map key_triple (flat_map line_results ls1)) ->
  process sort1 orders1 push_ok finish_ok ls1 = process sort2 orders2 push_ok finish_ok ls2.
Proof.
  intros s1 s2 o1 o2 p f ls1 ls2 H1 H2 W1 W2 P SM N. destruct (C41_canonical s1 s2 _ _ H1 H2 P) as (_ & _ & E). specialize (E N). unfold process. rewrite E, SM.
  destruct (negb (p (flat_map handle_calls (s2 (flat_map line_results ls2))))); auto. set (k := fold_left handle_account (s2 (flat_map line_results ls2)) tracker_new).
  assert (R : reaches (flat (s2 (flat_map line_results ls2))) k).
  { unfold k. rewrite flat_account. generalize (flat (s2 (flat_map line_results ls2))). intros es. induction es as [|e es IH] using rev_ind; [constructor|].
    rewrite fold_left_app. simpl. now constructor. }
  destruct (W1 k) as [A1 A2], (W2 k) as [B1 B2]. destruct (suite_result k (fst (o1 k)) (snd (o1 k))) as [k1 r1] eqn:E1. destruct (suite_result k (fst (o2 k)) (snd (o2 k))) as [k2 r2] eqn:E2.
  destruct (suite_spec _ _ _ _ _ _ R A1 A2 E1) as (X1 & _), (suite_spec _ _ _ _ _ _ R B1 B2 E2) as (X2 & _). now rewrite X1, X2.
Qed.

(* C42: the suite's outcome.  For every history of results and of earlier questions, and
   every order the maps are walked through. *)

(* exactly what the code does *)
Theorem C42_exit_code : forall es k o1 o2 k' s, reaches es k -> Permutation (statuses k) o1 -> Permutation (statuses k) o2 -> suite_result k o1 o2 = (k', s) ->
  (s_exit s = 101 <-> exists e, In e (unreplaced es)) /\
  (s_exit s = 1 <-> unreplaced es = [] /\ exists t, taken_for_failed (attempts t es)) /\
  (s_exit s = 0 <-> unreplaced es = [] /\ forall t, ~ taken_for_failed (attempts t es)).
Proof.
  intros es k o1 o2 k' s R P1 P2 E. destruct (suite_spec _ _ _ _ _ _ R P1 P2 E) as (-> & _). destruct (exit_spec es k (reaches_ti _ _ R)) as (X1 & X2 & X3).
  split; [|split; auto]. rewrite X1. destruct (unreplaced es) as [|e l]; split; try congruence; eauto. intros [e []]. intros _. exists e. left; auto.
Qed.

(* a made-up result counts unless a result of the framework for the same test came later *)
Theorem C42_made_up_results : forall es e, In e (unreplaced es) <->
  exists l1 l2, es = l1 ++ e :: l2 /\ r_status (e_result e) = PrivateNativeRunnerError /\
    forall e', In e' l2 -> r_status (e_result e') <> PrivateNativeRunnerError -> e_work e' <> e_work e.
Proof.
  intros es e. rewrite unreplaced_in. assert (M : forall x, material x = false <-> r_status (e_result x) = PrivateNativeRunnerError) by (intros x; unfold material; destruct (r_status (e_result x)); simpl; split; congruence).
  assert (M' : forall x, material x = true <-> r_status (e_result x) <> PrivateNativeRunnerError) by (intros x; unfold material; destruct (r_status (e_result x)); simpl; split; congruence).
  split; intros (l1 & l2 & A & B & C); exists l1, l2; (split; [exact A|split; [now apply M|]]); intros e' I Q; apply (C e' I); now apply M'.
Qed.

(* the counts *)
Theorem C42_counts : forall es k o1 o2 k' s, reaches es k -> Permutation (statuses k) o1 -> Permutation (statuses k) o2 -> suite_result k o1 o2 = (k', s) ->
  (exists tests, enumerates (fun t => has_result t es) tests /\ s_count s = length tests + length (unreplaced es)) /\
  (exists failed, enumerates (fun t => taken_for_failed (attempts t es)) failed /\ s_failed s = length failed + length (unreplaced es)) /\
  (exists retried, enumerates (fun t => 2 <= length (attempts t es)) retried /\ s_retried s = length retried).
Proof.
  intros es k o1 o2 k' s R P1 P2 E. pose proof (reaches_ti _ _ R) as I. destruct (suite_spec _ _ _ _ _ _ R P1 P2 E) as (_ & X1 & X2 & X3 & _). rewrite X1, X2, X3, aggregate_spec. cbn [m_failed m_retried].
  assert (ST : forall t, status_of t es = None <-> attempts t es = []) by (intros; apply status_none). split; [|split].
  - destruct (enum_count es k (fun _ => true) I) as (L & N & H & C). exists L. split; [split; auto; intros t; rewrite H|].
    + unfold has_result. specialize (ST t). destruct (status_of t es) as [x|]; split; [intros _ Q; apply ST in Q; discriminate|eauto|intros (? & Q & _); discriminate|].
      intros Q. exfalso. apply Q. now apply ST.
    + revert C. clear. assert (ID : forall l : list tstatus, filter (fun _ => true) l = l) by (induction l; simpl; congruence). rewrite !ID, map_length. auto.
  - destruct (enum_count es k is_failed I) as (L & N & H & C). exists L. split; [split; auto; intros t; rewrite H|].
    + rewrite <- tag_failed. split.
      * intros (x & Q & B). unfold status_of in Q. destruct (first_result t es); [|discriminate]. injection Q as <-. unfold is_failed in B. cbn [ts_tag] in B.
        pose proof (tag_not_internal (attempts t es)). destruct (tag_of (attempts t es)) as [|[|]| |]; congruence.
      * intros Q. assert (NE : attempts t es <> []) by (intros Z; rewrite Z in Q; discriminate). unfold status_of. pose proof (first_attempts t es) as FA. destruct (first_result t es); [|exfalso; apply NE; now apply FA].
        eexists. split; [reflexivity|]. unfold is_failed. cbn [ts_tag]. now rewrite Q.
    + rewrite C. f_equal. clear. induction (unreplaced es); simpl; auto.
  - destruct (enum_count es k ts_retried I) as (L & N & H & C). exists L. split; [split; auto; intros t; rewrite H|].
    + unfold status_of. pose proof (first_attempts t es) as FA. destruct (first_result t es); split.
      * intros (x & Q & B). injection Q as <-. now apply Nat.leb_le.
      * intros Q. eexists. split; [reflexivity|]. now apply Nat.leb_le.
      * intros (x & Q & _). discriminate.
      * intros Q. destruct FA as [FA _]. rewrite (FA eq_refl) in Q. simpl in Q. lia.
    + rewrite C. replace (length (filter ts_retried _)) with 0; [lia|]. clear. induction (unreplaced es); simpl; auto.
Qed.

(* The claim as a user would put it: the suite fails exactly if some test failed in all its
   attempts.  Missing: histories that are not orderly, for which it is false (below). *)
Theorem C42_fails_iff_always_failed_partial : forall es k o1 o2 k' s, reaches es k -> Permutation (statuses k) o1 -> Permutation (statuses k) o2 -> suite_result k o1 o2 = (k', s) ->
  orderly es ->
  (s_exit s <> 0 <-> (exists e, In e (unreplaced es)) \/ exists t, always_failed t es) /\
  (exists failed, enumerates (fun t => always_failed t es) failed /\ s_failed s = length failed + length (unreplaced es)).
Proof.
  intros es k o1 o2 k' s R P1 P2 E O. destruct (C42_exit_code _ _ _ _ _ _ R P1 P2 E) as (X1 & X2 & X3). destruct (C42_counts _ _ _ _ _ _ R P1 P2 E) as (_ & (L & [N H] & C) & _). split.
  - split.
    + intros NE. destruct (unreplaced es) as [|e l] eqn:U; [|left; exists e; left; auto]. right.
      destruct L as [|t L].
      * exfalso. apply NE. apply X3. split; auto. intros t T. apply H in T. destruct T.
      * exists t. apply orderly_taken; auto. apply H. left; auto.
    + intros [[e I]|[t T]] Z; apply X3 in Z as [Z1 Z2]; [rewrite Z1 in I; destruct I|]. apply (Z2 t). now apply orderly_taken.
  - exists L. split; auto. split; auto. intros t. rewrite H. now apply orderly_taken.
Qed.

(* Refuted in general: a test whose every attempt failed does not fail the suite if the
   attempts come in the wrong order (say the worker's clock was set back between them) *)
Theorem C42_always_failed_refuted :
  let failing n t := {| as_work := 1; as_run := n; as_results := [{| r_id := 7; r_status := Failure; r_file := None; r_runner := (0, 1); r_time := t |}]; as_before := []; as_after := None |} in
  let ls := [Results [failing 1 20]; Results [failing 2 10]; Summary 1 0] in
  (forall sort orders, sorter sort -> walks orders -> fst (process sort orders (fun _ => true) true ls) = Reported 0) /\
  always_failed 7 (flat (flat_map line_results ls)).
Proof.
  intros failing ls. split; [|split; [vm_compute; discriminate|vm_compute; repeat constructor]]. intros sort orders S0 W.
  rewrite (C41_report_independent sort isort orders (fun k => (statuses k, statuses k)) (fun _ => true) true ls ls); [reflexivity|exact S0|apply isort_sorter|exact W|split; apply Permutation_refl|apply Permutation_refl|reflexivity|].
  vm_compute. repeat constructor; simpl; intuition congruence.
Qed.
(* and a test that passed does fail the suite if it failed in a later first attempt, as made
   when a worker is started again for a run *)
Theorem C42_passed_once_refuted :
  let first st t := {| as_work := 1; as_run := 1; as_results := [{| r_id := 7; r_status := st; r_file := None; r_runner := (0, 1); r_time := t |}]; as_before := []; as_after := None |} in
  let ls := [Results [first Success 10]; Results [first Failure 20]; Summary 1 0] in
  (forall sort orders, sorter sort -> walks orders -> fst (process sort orders (fun _ => true) true ls) = Reported 1) /\
  (forall t, ~ always_failed t (flat (flat_map line_results ls))).
Proof.
  intros first ls. split.
  - intros sort orders S0 W.
    rewrite (C41_report_independent sort isort orders (fun k => (statuses k, statuses k)) (fun _ => true) true ls ls); [reflexivity|exact S0|apply isort_sorter|exact W|split; apply Permutation_refl|apply Permutation_refl|reflexivity|].
    vm_compute. repeat constructor; simpl; intuition congruence.
  - intros t [H F]. unfold has_result, attempts in *. simpl in *. unfold of_test in *. cbn [material e_result r_status is_synthetic negb andb r_id first] in *.
    destruct (Nat.eqb 7 t); simpl in *; [|now apply H]. inversion F as [|? ? F1]. discriminate.
Qed.

(* C43: a report is made only of complete results *)

Theorem C43_complete : forall sort orders push_ok finish_ok ls exit calls manifest info, sorter sort ->
  process sort orders push_ok finish_ok ls = (Reported exit, calls) ->
  (* the queue's summary gives the size of the manifest, and results are of its tests *)
  last_summary ls None = Some (length manifest, info) -> NoDup manifest ->
  (forall a, In a (flat_map line_results ls) -> In (as_work a) manifest) ->
  forall w, In w manifest -> exists a, In a (flat_map line_results ls) /\ as_work a = w.
Proof.
  intros sort orders p f ls ex calls M info S0 E SM N I w W. unfold process in E. destruct (S0 (flat_map line_results ls)) as [P _]. set (ord := sort (flat_map line_results ls)) in *.
  destruct (negb (p (flat_map handle_calls ord))); [discriminate|]. destruct (suite_result _ _ _) as [k' s]. rewrite SM in E.
  destruct (Nat.eqb_spec (length M) (length (nodup Nat.eq_dec (map as_work ord)))) as [L|L]; [|discriminate].
  assert (INC : incl M (nodup Nat.eq_dec (map as_work ord))).
  { apply NoDup_length_incl; [apply NoDup_nodup|lia|]. intros x X. apply nodup_In in X. apply in_map_iff in X as (a & <- & A). apply I. now apply (Permutation_in _ (Permutation_sym P)). }
  specialize (INC w W). apply nodup_In in INC. apply in_map_iff in INC as (a & A1 & A2). exists a. split; auto. now apply (Permutation_in _ (Permutation_sym P)).
Qed.

(* without a summary, or with tests missing, the command fails and no report is finished *)
Theorem C43_incomplete_fails : forall sort orders push_ok finish_ok ls, sorter sort ->
  (last_summary ls None = None \/ exists nonce info, last_summary ls None = Some (nonce, info) /\ forall ws, NoDup ws -> (forall w, In w ws <-> exists a, In a (flat_map line_results ls) /\ as_work a = w) -> length ws <> nonce) ->
  let '(o, calls) := process sort orders push_ok finish_ok ls in
  (o = NoSummary \/ o = SizeMismatch \/ o = ReporterFailed) /\ forall info, ~ In (Finish info) calls.
Proof.
  intros sort orders p f ls S0 H. unfold process. destruct (S0 (flat_map line_results ls)) as [P _]. set (ord := sort (flat_map line_results ls)) in *.
  assert (NF : forall info, ~ In (Finish info) (flat_map handle_calls ord)).
  { intros info I. apply in_flat_map in I as (a & _ & I). unfold handle_calls in I. revert I. generalize (Some (as_before a)). generalize (as_results a) as rs. clear.
    induction rs as [|r [|r' rs] IH]; intros b I; simpl in I; [tauto|destruct I as [I|[]]; discriminate|]. destruct I as [I|I]; [discriminate|]. exact (IH None I). }
  destruct (negb (p (flat_map handle_calls ord))); [split; auto|]. destruct (suite_result _ _ _) as [k' s].
  assert (NF' : forall info, ~ In (Finish info) (flat_map handle_calls ord ++ [AfterAll])) by (intros info I; apply in_app_or in I as [I|[I|[]]]; [now apply NF in I|discriminate]).
  destruct H as [->|(nonce & info & -> & H)]; [split; auto|].
  destruct (Nat.eqb_spec nonce (length (nodup Nat.eq_dec (map as_work ord)))) as [E|E]; [|split; auto]. exfalso.
  apply (H (nodup Nat.eq_dec (map as_work ord))); auto; [apply NoDup_nodup|]. intros w. rewrite nodup_In, in_map_iff. split; intros (a & A & B); exists a; split; auto.
  - now apply (Permutation_in _ (Permutation_sym P)).
  - now apply (Permutation_in _ P).
Qed.

(* a reporter that fails ends the command with an error: at its first results nothing is finished; and without any
   failure no error is due to a reporter *)
Theorem C43_failing_reporter : forall sort orders push_ok finish_ok ls,
  ((forall calls, push_ok calls = false) ->
     fst (process sort orders push_ok finish_ok ls) = ReporterFailed /\
     forall info, ~ In (Finish info) (snd (process sort orders push_ok finish_ok ls))) /\
  (finish_ok = false -> forall exit, fst (process sort orders push_ok finish_ok ls) <> Reported exit) /\
  ((forall calls, push_ok calls = true) -> finish_ok = true -> fst (process sort orders push_ok finish_ok ls) <> ReporterFailed).
Proof.
  intros sort orders p f ls. unfold process. set (ord := sort (flat_map line_results ls)).
  assert (NF : forall info, ~ In (Finish info) (flat_map handle_calls ord)).
  { intros info I. apply in_flat_map in I as (a & _ & I). unfold handle_calls in I. revert I. generalize (Some (as_before a)). generalize (as_results a) as rs. clear.
    induction rs as [|r [|r' rs] IH]; intros b I; simpl in I; [tauto|destruct I as [I|[]]; discriminate|]. destruct I as [I|I]; [discriminate|]. exact (IH None I). }
  repeat split.
  - now rewrite H.
  - rewrite H. exact NF.
  - intros -> exit. destruct (negb _); [discriminate|]. destruct (suite_result _ _ _). destruct (last_summary ls None) as [[n i]|]; [|discriminate].
    destruct (Nat.eqb _ _); discriminate.
  - intros -> ->. cbn [negb]. destruct (suite_result _ _ _). destruct (last_summary ls None) as [[n i]|]; [|discriminate].
    destruct (Nat.eqb _ _); discriminate.
Qed.

(* results are only taken from an answer that streams them; a pending answer is asked again *)
Theorem C43_fetch : forall answers ls, wait_for_results answers = Fetched ls ->
  exists before after, answers = before ++ Streaming ls :: after /\ Forall (fun a => a = PendingResults) before.
Proof.
  induction answers as [|a t IH]; intros ls H; simpl in H; [discriminate|]. destruct a; try discriminate.
  - injection H as ->. exists [], t. auto.
  - destruct (IH _ H) as (b & af & -> & F). exists (PendingResults :: b), af. auto.
Qed.

(* C44: summaries per runner *)

(* the failures and retries listed for runners and a file are those of the tests first run
   by these runners and located in this file *)
Theorem C44_per_runner : forall es k o1 o2 k' s who f, reaches es k -> Permutation (statuses k) o1 -> Permutation (statuses k) o2 -> suite_result k o1 o2 = (k', s) ->
  (exists failed, enumerates (fun t => taken_for_failed (attempts t es) /\ exists e, first_result t es = Some e /\ r_file (e_result e) = Some f /\ who (r_runner (e_result e)) = true) failed /\
     total u_failures who f (s_runners s) = length failed) /\
  (exists retried, enumerates (fun t => 2 <= length (attempts t es) /\ exists e, first_result t es = Some e /\ r_file (e_result e) = Some f /\ who (r_runner (e_result e)) = true) retried /\
     total u_retries who f (s_runners s) = length retried).
Proof.
  intros es k o1 o2 k' s who f R P1 P2 E. pose proof (reaches_ti _ _ R) as I. destruct (suite_spec _ _ _ _ _ _ R P1 P2 E) as (_ & _ & _ & _ & ->). destruct (sum_total o2 who f) as (_ & -> & ->). split.
  - destruct (enum_count es k (fun t => who (ts_runner t) && fails_in f t) I) as (L & N & H & C). exists L. split; [split; auto; intros t; rewrite H|].
    + rewrite <- tag_failed. unfold status_of. split.
      * intros (x & Q & B). destruct (first_result t es) as [e|]; [|discriminate]. injection Q as <-. apply andb_prop in B as [B1 B2]. unfold fails_in in B2. cbn [ts_tag ts_file ts_runner] in *.
        destruct (tag_of (attempts t es)) as [|[|]| |]; try discriminate. destruct (r_file (e_result e)) as [g|] eqn:G; [|discriminate]. apply Nat.eqb_eq in B2 as ->. split; auto. exists e. auto.
      * intros (T & e & -> & F & W). eexists. split; [reflexivity|]. unfold fails_in. cbn [ts_tag ts_file ts_runner]. rewrite T, F, W, Nat.eqb_refl. reflexivity.
    + rewrite <- (Permutation_length (filter_perm _ _ _ P2)), C. replace (length (filter _ (map _ _))) with 0; [lia|]. clear. induction (unreplaced es) as [|e l IH]; simpl; auto.
      unfold fails_in at 1. cbn [make_new ts_tag]. now rewrite andb_false_r.
  - destruct (enum_count es k (fun t => who (ts_runner t) && retried_in f t) I) as (L & N & H & C). exists L. split; [split; auto; intros t; rewrite H|].
    + unfold status_of. split.
      * intros (x & Q & B). destruct (first_result t es) as [e|]; [|discriminate]. injection Q as <-. apply andb_prop in B as [B1 B2]. unfold retried_in in B2. cbn [ts_retried ts_file ts_runner] in *.
        destruct (r_file (e_result e)) as [g|] eqn:G; [|discriminate]. apply andb_prop in B2 as [B2 B3]. apply Nat.eqb_eq in B3 as ->. split; [now apply Nat.leb_le|]. exists e. auto.
      * intros (T & e & -> & F & W). eexists. split; [reflexivity|]. unfold retried_in. cbn [ts_retried ts_file ts_runner]. rewrite F, W, Nat.eqb_refl. apply Nat.leb_le in T. now rewrite T.
    + rewrite <- (Permutation_length (filter_perm _ _ _ P2)), C. replace (length (filter _ (map _ _))) with 0; [lia|]. clear. induction (unreplaced es) as [|e l IH]; simpl; auto.
      unfold retried_in at 1. cbn [make_new ts_retried ts_file]. destruct (r_file (e_result e)); now rewrite andb_false_r.
Qed.

(* each runner has one summary; grouping by worker or by runner number keeps the counts of
   every file, and gives each worker or number one summary *)
Theorem C44_one_each : forall k o1 o2 g us,
  StronglySorted (fun a b => runner_cmp (u_runner a) (u_runner b) = Lt) (s_runners (snd (suite_result k o1 o2))) /\
  StronglySorted (fun a b => grouping_key g (u_runner a) < grouping_key g (u_runner b)) (grouped g us).
Proof. intros k o1 o2 g us. split; [|apply group_sorted]. unfold suite_result. destruct (load_metrics k o1) as [k' m]. apply sum_sorted. Qed.

Theorem C44_grouping : forall us n f,
  total u_failures (fun r => Nat.eqb (fst r) n) f (grouped ByWorker us) = total u_failures (fun r => Nat.eqb (fst r) n) f us /\
  total u_retries (fun r => Nat.eqb (fst r) n) f (grouped ByWorker us) = total u_retries (fun r => Nat.eqb (fst r) n) f us /\
  total u_failures (fun r => Nat.eqb (snd r) n) f (grouped ByRunner us) = total u_failures (fun r => Nat.eqb (snd r) n) f us /\
  total u_retries (fun r => Nat.eqb (snd r) n) f (grouped ByRunner us) = total u_retries (fun r => Nat.eqb (snd r) n) f us.
Proof.
  intros us n f. destruct (group_total ByWorker us n f) as (_ & A & B), (group_total ByRunner us n f) as (_ & C & D). exact (conj A (conj B (conj C D))).
Qed.

(* C59: reporters see each result once, in order, with the outputs around it *)
Theorem C59_results_shown : forall sort orders finish_ok ls, sorter sort ->
  let calls := snd (process sort orders (fun _ => true) finish_ok ls) in
  flat_map shown calls = flat_map as_results (sort (flat_map line_results ls)) /\
  Permutation (flat_map shown calls) (flat_map as_results (flat_map line_results ls)) /\
  ((forall a, In a (flat_map line_results ls) -> as_results a <> []) ->
   flat_map shown_before calls = map as_before (sort (flat_map line_results ls)) /\
   flat_map shown_after calls = flat_map (fun a => of_option (as_after a)) (sort (flat_map line_results ls))).
Proof.
  intros sort orders fo ls S0 calls. destruct (S0 (flat_map line_results ls)) as [P _]. set (ord := sort (flat_map line_results ls)) in *.
  assert (E : exists tl, calls = flat_map handle_calls ord ++ AfterAll :: tl /\ (tl = [] \/ exists i, tl = [Finish i])).
  { unfold calls, process. fold ord. cbn [negb]. destruct (suite_result _ _ _) as [k' s]. destruct (last_summary ls None) as [[nonce info]|]; [|eexists; split; [reflexivity|auto]].
    destruct (Nat.eqb nonce _); [|eexists; split; [reflexivity|auto]]. exists [Finish info]. split; [|eauto]. destruct fo; cbn [snd]; now rewrite <- app_assoc. }
  destruct E as (tl & E & TL). clearbody calls. subst calls.
  assert (SH : flat_map shown (flat_map handle_calls ord ++ AfterAll :: tl) = flat_map as_results ord).
  { rewrite flat_map_app. assert (Z : flat_map shown (AfterAll :: tl) = []) by (destruct TL as [->|[i ->]]; reflexivity). rewrite Z, app_nil_r. clear. induction ord as [|a l IH]; simpl; auto. rewrite flat_map_app, IH. f_equal. apply pushes_shown. }
  split; auto. split.
  - rewrite SH. apply Permutation_flat_map. now symmetry.
  - intros NE. assert (NE' : forall a, In a ord -> as_results a <> []) by (intros a A; apply NE; now apply (Permutation_in _ (Permutation_sym P))).
    rewrite !flat_map_app. assert (Z1 : flat_map shown_before (AfterAll :: tl) = []) by (destruct TL as [->|[i ->]]; reflexivity).
    assert (Z2 : flat_map shown_after (AfterAll :: tl) = []) by (destruct TL as [->|[i ->]]; reflexivity). rewrite Z1, Z2, !app_nil_r. clear -NE'.
    induction ord as [|a l IH]; simpl; auto. destruct IH as [I1 I2]; [intros; apply NE'; right; auto|]. rewrite !flat_map_app, I1, I2. unfold handle_calls. rewrite pushes_before, pushes_after.
    specialize (NE' a (or_introl eq_refl)). destruct (as_results a); [congruence|]. auto.
Qed.

(* each result comes with the number of its attempt, the output before the test with the first result of the attempt and
   no other, the output after it with the last and no other; then all reporters are told that this was all, and they are
   finished, with the native runner that the last summary names, exactly if the summary is about as many tests *)
Theorem C59_in_its_place : forall sort orders finish_ok ls,
  let p := process sort orders (fun _ => true) finish_ok ls in
  exists per_test finish, snd p = concat per_test ++ AfterAll :: finish /\
  Forall2 (fun a calls => length calls = length (as_results a) /\
      forall i r, nth_error (as_results a) i = Some r ->
        nth_error calls i = Some (Push (as_run a) (if Nat.eqb i 0 then Some (as_before a) else None) r
                                       (if Nat.eqb (S i) (length (as_results a)) then as_after a else None)))
    (sort (flat_map line_results ls)) per_test /\
  match last_summary ls None with
  | Some (tests, info) =>
      (finish = [Finish info] /\ tests = length (nodup Nat.eq_dec (map as_work (sort (flat_map line_results ls)))) /\
         if finish_ok then exists c, fst p = Reported c else fst p = ReporterFailed) \/
      (finish = [] /\ tests <> length (nodup Nat.eq_dec (map as_work (sort (flat_map line_results ls)))) /\ fst p = SizeMismatch)
  | None => finish = [] /\ fst p = NoSummary
  end.
Proof.
  intros sort orders fo ls p. set (ord := sort (flat_map line_results ls)).
  assert (F : Forall2 (fun a calls => length calls = length (as_results a) /\
      forall i r, nth_error (as_results a) i = Some r ->
        nth_error calls i = Some (Push (as_run a) (if Nat.eqb i 0 then Some (as_before a) else None) r
                                       (if Nat.eqb (S i) (length (as_results a)) then as_after a else None))) ord (map handle_calls ord)).
  { clear. induction ord as [|a l IH]; cbn [map]; constructor; auto. unfold handle_calls.
    assert (G : forall b, length (pushes (as_run a) b (as_after a) (as_results a)) = length (as_results a) /\
       forall i r, nth_error (as_results a) i = Some r -> nth_error (pushes (as_run a) b (as_after a) (as_results a)) i =
         Some (Push (as_run a) (if Nat.eqb i 0 then b else None) r (if Nat.eqb (S i) (length (as_results a)) then as_after a else None))).
    { induction (as_results a) as [|x [|y rs] IHr]; intros b; [split; [reflexivity|intros [|i] r E; discriminate]| |].
      - split; [reflexivity|]. intros [|i] r E; [injection E as <-; reflexivity|destruct i; discriminate].
      - destruct (IHr None) as [L N]. change (pushes (as_run a) b (as_after a) (x :: y :: rs)) with (Push (as_run a) b x None :: pushes (as_run a) None (as_after a) (y :: rs)).
        split; [cbn [length]; f_equal; exact L|]. intros [|i] r E; [injection E as <-; reflexivity|]. cbn [nth_error] in *. rewrite (N i r E).
        destruct i; reflexivity. }
    exact (G (Some (as_before a))). }
  exists (map handle_calls ord). rewrite <- flat_map_concat_map. unfold p, process. fold ord. cbn [negb]. destruct (suite_result _ _ _) as [k' s].
  destruct (last_summary ls None) as [[tests info]|]; [|exists []; auto].
  destruct (Nat.eqb_spec tests (length (nodup Nat.eq_dec (map as_work ord)))) as [Q|Q].
  - exists [Finish info]. destruct fo; cbn [fst snd]; rewrite <- app_assoc; split; auto; split; auto; left; eauto.
  - exists []. cbn [fst snd]. split; auto.
Qed.

(* C60: abq list-tests *)
(* the results that runner [who] reported for its first attempts *)
Definition runner_dec (a b : nat * nat) : {a = b} + {a <> b}.
Proof. decide equality; apply Nat.eq_dec. Defined.
Definition reported_first (who : nat * nat) (ls : list rline) : list result :=
  filter (fun r => if runner_dec (r_runner r) who then true else false)
    (flat_map as_results (filter (fun a => if Nat.eq_dec (as_run a) 1 then true else false) (flat_map line_results ls))).
(* they are all listed, each once, by time; results of the same time stay in the order in which they came *)
Theorem C60_list_tests : forall ls who, exists rs,
  list_tests ls who = map r_id rs /\
  Permutation rs (reported_first who ls) /\
  StronglySorted (fun a b => r_time a <= r_time b) rs /\
  (forall n, filter (fun r => Nat.eqb (r_time r) n) rs = filter (fun r => Nat.eqb (r_time r) n) (reported_first who ls)).
Proof.
  intros ls who. exists (sort_by_time (reported_first who ls)). split.
  - unfold list_tests, reported_first. f_equal. f_equal. rewrite (filter_ext (fun a => Nat.eqb (as_run a) 1) (fun a => if Nat.eq_dec (as_run a) 1 then true else false)).
    + apply filter_ext. intros r. unfold runner_eqb. destruct (r_runner r) as [a b], who as [c d]. cbn [fst snd].
      destruct (runner_dec (a, b) (c, d)) as [E|E]; [injection E as -> ->; now rewrite !Nat.eqb_refl|].
      destruct (Nat.eqb_spec a c), (Nat.eqb_spec b d); cbn; congruence.
    + intros a. destruct (Nat.eqb_spec (as_run a) 1), (Nat.eq_dec (as_run a) 1); congruence.
  - destruct (sort_time_spec (reported_first who ls)) as [P S0].
    split; [now symmetry|]. split; auto. intros n. apply sort_stable.
Qed.
(* exactly the tests that the runner reported in a first attempt *)
Theorem C60_exactly_its_tests : forall ls who t,
  In t (list_tests ls who) <-> exists a r, In a (flat_map line_results ls) /\ as_run a = 1 /\ In r (as_results a) /\ r_runner r = who /\ r_id r = t.
Proof.
  intros ls who t. destruct (C60_list_tests ls who) as (rs & -> & P & _ & _). rewrite in_map_iff. split.
  - intros (r & <- & I). apply (Permutation_in _ P) in I. unfold reported_first in I. apply filter_In in I as [I W].
    destruct (runner_dec (r_runner r) who) as [E|]; [|discriminate]. apply in_flat_map in I as (a & A & I). apply filter_In in A as [A N].
    destruct (Nat.eq_dec (as_run a) 1) as [E1|]; [|discriminate]. eauto 10.
  - intros (a & r & A & N & I & E & <-). exists r. split; [reflexivity|]. apply (Permutation_in _ (Permutation_sym P)). unfold reported_first. apply filter_In. split.
    + apply in_flat_map. exists a. split; [|exact I]. apply filter_In. split; [exact A|]. destruct (Nat.eq_dec (as_run a) 1); congruence.
    + destruct (runner_dec (r_runner r) who); congruence.
Qed.

(* a report over three tests: one passes, one fails twice, one's runner broke *)
Definition res id st t r := {| r_id := id; r_status := st; r_file := Some 3; r_runner := (r, 1); r_time := t |}.
Definition asc w n rs := {| as_work := w; as_run := n; as_results := rs; as_before := [w]; as_after := Some [n] |}.
Example C42_example :
  let ls := [Results [asc 2 2 [res 20 Failure 9 0]; asc 1 1 [res 10 Success 5 1]]; Summary 3 0; Results [asc 2 1 [res 20 Failure 6 0]; asc 3 1 [res 99 PrivateNativeRunnerError 7 0]]] in
  let es := flat (isort (flat_map line_results ls)) in
  fst (process isort (fun k => (statuses k, statuses k)) (fun _ => true) true ls) = Reported 101 /\
  attempts 20 es = [(1, true); (2, true)] /\ length (unreplaced es) = 1 /\ NoDup (map key_triple (flat_map line_results ls)) /\
  s_count (snd (suite_result (fold_left account_entry es tracker_new) (statuses (fold_left account_entry es tracker_new)) (statuses (fold_left account_entry es tracker_new)))) = 3 /\
  s_runners (snd (suite_result (fold_left account_entry es tracker_new) [] (statuses (fold_left account_entry es tracker_new)))) =
    [{| u_runner := (0, 1); u_failures := [(3, 1)]; u_retries := [(3, 1)] |}; {| u_runner := (1, 1); u_failures := []; u_retries := [] |}].
Proof. repeat split; try reflexivity. vm_compute. repeat constructor; simpl; intuition congruence. Qed.
Example C42_orderly_example : orderly (flat [asc 1 1 [res 10 Success 5 1]; asc 2 1 [res 20 Failure 6 0]; asc 2 2 [res 20 Failure 9 0]]) /\
  always_failed 20 (flat [asc 1 1 [res 10 Success 5 1]; asc 2 1 [res 20 Failure 6 0]; asc 2 2 [res 20 Failure 9 0]]).
Proof.
  split.
  - intros t. unfold attempts. simpl. unfold of_test. cbn [material e_result e_run r_id r_status is_synthetic negb andb res asc].
    destruct (Nat.eqb_spec 10 t), (Nat.eqb_spec 20 t); try lia; cbn [filter map]; split.
    + intros m b h E. injection E as <- <- <-. discriminate.
    + intros h1 h2 m E N F. exfalso. destruct h1 as [|x [|y h1]]; try congruence; discriminate.
    + intros m b h E. injection E as <- <- <-. auto.
    + intros h1 h2 m E N F. destruct h1 as [|x h1]; [congruence|]. exfalso. injection E as <- _. inversion F as [|? ? Q]. discriminate.
    + discriminate.
    + intros h1 h2 m E. exfalso. destruct h1; discriminate.
  - vm_compute. split; [discriminate|repeat constructor].
Qed.
Example C60_example : list_tests [Results [asc 2 2 [res 20 Failure 9 0]; asc 1 1 [res 10 Success 8 0]]; Results [asc 3 1 [res 30 Success 4 0; res 31 Success 3 1]]] (0, 1) = [30; 10].
Proof. reflexivity. Qed.

Print Assumptions C41_total_order.
Print Assumptions C41_canonical.
Print Assumptions C41_chronological.
Print Assumptions C41_report_independent.
Print Assumptions C42_exit_code.
Print Assumptions C42_made_up_results.
Print Assumptions C42_counts.
Print Assumptions C42_fails_iff_always_failed_partial.
Print Assumptions C42_always_failed_refuted.
Print Assumptions C42_passed_once_refuted.
Print Assumptions C43_complete.
Print Assumptions C43_incomplete_fails.
Print Assumptions C43_fetch.
Print Assumptions C44_per_runner.
Print Assumptions C44_one_each.
Print Assumptions C44_grouping.
Print Assumptions C59_results_shown.
Print Assumptions C59_in_its_place.
Print Assumptions C43_failing_reporter.
Print Assumptions C60_list_tests.
Print Assumptions C60_exactly_its_tests.
