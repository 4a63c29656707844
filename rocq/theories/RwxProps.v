(* C46: the JSON report adds up. *)
From Verif Require Import Base StatusModel ReportModel RwxModel RwxSpec RwxProofs.

Section C46.
Context {P : Type}.
Implicit Types (rs : list (tresult P)) (rep : report P).

(* The counters count the tests of the report by the status of their latest
   attempt, and partition them; the tests are listed once each. *)
Theorem C46_counters rs rep : reports rs rep ->
  let s := rp_summary rep in let n k := number (is_kind k) (rp_tests rep) in
  su_tests s = length (rp_tests rep) /\
  su_canceled s = n KCanceled /\ su_failed s = n KFailed /\ su_pended s = n KPended /\
  su_quarantined s = n KQuarantined /\ su_skipped s = n KSkipped /\ su_successful s = n KSuccessful /\
  su_timed_out s = n KTimedOut /\ su_todo s = n KTodo /\
  su_tests s = su_canceled s + su_failed s + su_pended s + su_quarantined s + su_skipped s + su_successful s
               + su_timed_out s + su_todo s /\
  su_retries s = number (fun t => Nat.ltb 1 (length (attempts t))) (rp_tests rep) /\
  su_other_errors s = length (rp_errors rep) /\
  NoDup (map te_id (rp_tests rep)).
Proof.
  intros (vals & Pe & ->). simpl.
  destruct (account_all vals summary0) as (I1 & I2 & I3 & I4 & I5 & I6 & I7 & I8 & I9 & I10 & I11 & _). simpl in *.
  rewrite I1, I2, I3, I4, I5, I6, I7, I8, I9, I10, I11. repeat split; auto.
  - clear. induction vals as [|t vals IH]; auto. rewrite !number_cons. simpl length. rewrite IH.
    unfold is_kind. destruct (kind_of (at_status (te_attempt t))); simpl; lia.
  - unfold number. f_equal. apply filter_ext. intros t. unfold retried, attempts. rewrite app_length. simpl.
    destruct (opt_list (te_past t)); simpl; auto. destruct (length l + 1) eqn:E; auto; lia.
  - destruct (cok_all rs) as [N H]. apply (Permutation_NoDup (l := map te_id (map snd (c_tests (fold_left push_result rs cnew))))).
    + now apply Permutation_map.
    + rewrite map_map. erewrite map_ext_in; [exact N|]. intros [i t] Hi. simpl. now apply H in Hi.
Qed.

(* The report is failed exactly if the latest attempt of a test failed, timed out
   or was canceled, or an error is listed. *)
Theorem C46_failed_iff rs rep : reports rs rep ->
  (su_status (rp_summary rep) = SSFailed <->
   (exists t, In t (rp_tests rep) /\ bad (kind_of (at_status (te_attempt t))) = true) \/ rp_errors rep <> []).
Proof.
  intros (vals & Pe & ->). simpl.
  destruct (account_all vals summary0) as (_ & _ & _ & _ & _ & _ & _ & _ & _ & _ & _ & I). simpl in I.
  destruct (c_errors (fold_left push_result rs cnew)) as [|m l]; simpl.
  - rewrite I. split; [intros [H|H]; [discriminate|now left]|]. intros [H|H]; [now right|congruence].
  - split; auto. intros _. right. discriminate.
Qed.

(* Every attempt of a test is in the report once, in order, the latest as the
   test's result, provided the results are plain and the test has a place. *)
Theorem C46_attempts_partial rs rep i : reports rs rep ->
  of_test i rs <> [] -> (forall r, In r (of_test i rs) -> plain r) ->
  (forall r rest, of_test i rs = r :: rest -> placed r) ->
  exists t, In t (rp_tests rep) /\ te_id t = i /\
    Forall2 (fun a y => shows a (fst y) (snd y)) (attempts t) (flat_map timeline (of_test i rs)).
Proof.
  intros (vals & Pe & ->) HN HP HF. simpl.
  destruct (collected rs i HP HF HN) as (t & G & Mt). exists t. apply mget_In in G. split; [|split].
  - apply (Permutation_in _ Pe). apply in_map_iff. now exists (i, t).
  - now apply (cok_all rs) in G.
  - exact Mt.
Qed.

(* The report lists no other tests. *)
Theorem C46_only_tests_that_ran rs rep t : reports rs rep -> In t (rp_tests rep) -> of_test (te_id t) rs <> [].
Proof.
  intros (vals & Pe & ->) H. simpl in H. apply (Permutation_in _ (Permutation_sym Pe)) in H.
  apply in_map_iff in H as ([i u] & <- & H). simpl. pose proof H as H'. apply (cok_all rs) in H as [<- H]. exact H.
Qed.

(* An error of a native runner is listed. *)
Theorem C46_runner_errors_listed rs rep r : reports rs rep -> In r rs -> sp_status (tr_spec r) = PrivateNativeRunnerError ->
  In (match sp_output (tr_spec r) with Some o => MOutput o | None => MNoOutput end) (rp_errors rep).
Proof. intros (vals & Pe & ->) H E. simpl. now apply synthetic_listed. Qed.
End C46.

(* In general the attempts of a test are not all in the report, and the report is
   failed although every test passed in the end: a test without a location that
   failed once and then passed is listed as an error. *)
Definition ex_spec (i : nat) (loc : option nat) (s : rstatus) (past : option (list (spec nat))) (rest : nat) : spec nat :=
  Spec i (i + 100) loc s None None (Some rest) rest past.
Definition ex_res i loc s past rest : tresult nat := {| tr_src := (1, 1); tr_spec := ex_spec i loc s past rest |}.
Theorem C46_attempts_refuted : exists rs rep,
  reports rs rep /\ rs = [ex_res 1 None Failure None 10; ex_res 1 None Success None 11] /\
  (forall r, In r rs -> plain r) /\
  map (fun t => length (attempts t)) (rp_tests rep) = [1] /\
  number (is_kind KSuccessful) (rp_tests rep) = length (rp_tests rep) /\ su_status (rp_summary rep) = SSFailed.
Proof.
  eexists _, _. split; [eexists; split; [apply Permutation_refl|reflexivity]|]. split; [reflexivity|]. split.
  - intros r [<-|[<-|[]]]; split; try discriminate; simpl; tauto.
  - vm_compute. auto.
Qed.
(* ... and past attempts that have past attempts of their own are out of order. *)
Theorem C46_order_refuted : exists rs rep, reports rs rep /\
  rs = [ex_res 1 (Some 5) Success (Some [ex_spec 1 (Some 5) Failure (Some [ex_spec 1 (Some 5) TimedOut None 1]) 2]) 3] /\
  map (fun t => map at_rest (attempts t)) (rp_tests rep) = [[2; 1; 3]].
Proof.
  eexists _, _. split; [eexists; split; [apply Permutation_refl|reflexivity]|]. split; [reflexivity|]. reflexivity.
Qed.

(* two tests, one failing with a past attempt and retried twice, and a native
   runner error *)
Definition ex_run : list (tresult nat) :=
  [ex_res 1 (Some 5) Failure (Some [ex_spec 1 (Some 5) Error None 1]) 2; ex_res 2 None Skipped None 3;
   ex_res 1 (Some 5) TimedOut None 4; ex_res 9 None PrivateNativeRunnerError None 8; ex_res 1 (Some 5) Success None 5].
Example ex_c46 : exists rep, reports ex_run rep /\
  map (fun t => (te_id t, map at_rest (attempts t))) (rp_tests rep) = [(1, [1; 2; 4; 5]); (2, [3])] /\
  rp_errors rep = [MOutput 8] /\ su_status (rp_summary rep) = SSFailed /\ su_retries (rp_summary rep) = 1.
Proof. eexists. split; [eexists; split; [apply Permutation_refl|reflexivity]|]. vm_compute. auto. Qed.
Example ex_c46_hyp : of_test 1 ex_run <> [] /\ (forall r, In r (of_test 1 ex_run) -> plain r) /\
  (forall r rest, of_test 1 ex_run = r :: rest -> placed r).
Proof.
  split; [discriminate|]. split.
  - intros r H. vm_compute in H. destruct H as [<-|[<-|[<-|[]]]]; split; try discriminate; simpl; try tauto.
    intros s [<-|[]]. split; [discriminate|reflexivity].
  - intros r rest H. vm_compute in H. inversion H. left. discriminate.
Qed.

Print Assumptions C46_counters.
Print Assumptions C46_failed_iff.
Print Assumptions C46_attempts_partial.
Print Assumptions C46_only_tests_that_ran.
Print Assumptions C46_runner_errors_listed.
Print Assumptions C46_attempts_refuted.
Print Assumptions C46_order_refuted.
