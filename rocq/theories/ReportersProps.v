(* C79: the reports of `abq test` and `abq report`.  For every choice of reporters, every
   sequence of results, every way of the terminal and the file system to fail. *)
From Verif Require Import Base StatusModel TermModel ReportModel ReportSpec ReportProofs ReportersModel ReportersSpec ReportersProofs.
From Verif Require PoolModel.
From Coq Require Import ZArith NArith Sorting.Sorted.
Open Scope nat_scope.

(* every reporter asked for is made, in the order they were asked for, and no other *)
Theorem C79_each_has_its_reporter : forall kinds n,
  (forall k1 k k2, kinds = k1 ++ k :: k2 -> k <> RkDefault -> exists rep, build_reporters kinds n = filter_map (reporter_from_kind (has_stdout_reporters kinds n)) k1 ++ rep :: filter_map (reporter_from_kind (has_stdout_reporters kinds n)) k2 /\ is_for k rep) /\
  (forall rep, In rep (build_reporters kinds n) -> exists k, In k kinds /\ is_for k rep) /\
  ((exists rep, In rep (build_reporters kinds n) /\ on_terminal rep) <-> has_stdout_reporters kinds n = true).
Proof.
  intros kinds n. split; [|split; [apply built_from|apply built_terminal]].
  intros k1 k k2 E N. unfold build_reporters, has_stdout_reporters. set (b := existsb _ _). clearbody b. rewrite E, filter_map_app.
  destruct k; try congruence; cbn [filter_map reporter_from_kind]; eexists; (split; [reflexivity|]); cbn [is_for]; eauto.
Qed.

(* abq test: a file whose reporter can write it holds all the results in the order they
   came, whatever happens to the other reporters and to the terminal *)
Theorem C79_test_files : forall strip w fin kinds n batches info fs out, abq_test strip w fin kinds n batches info fs = Some out ->
  forall i rep p, nth_error (build_reporters kinds n) i = Some rep -> path_of rep = Some p -> fin i = FinOk -> undisturbed fin (build_reporters kinds n) i p ->
  holds_report strip rep (results_of (concat batches)) info (tr_files out p).
Proof.
  intros strip w fin kinds n batches info fs out. unfold abq_test. destruct (work_forever _ _ _ _) as [reps|] eqn:W; [|discriminate].
  destruct (finish_all fin 0 info reps fs) as [fs' errs] eqn:F. intros [= <-] i rep p N P O U. cbn [tr_files].
  pose proof (work_grown _ _ _ _ _ W) as G. destruct (Forall2_nth _ _ _ G i rep N) as (rep' & N' & G').
  assert (FR : fresh rep) by (pose proof (built_fresh kinds n) as B; rewrite Forall_forall in B; apply B; eapply nth_error_In; eauto).
  destruct (grown_content _ strip _ info rep rep' p FR G' P) as [P' H]. rewrite attempts_results in H.
  pose proof (finish_all_writes fin info p reps 0 i fs rep' N' P' O) as X. rewrite F in X. cbn [fst] in X. rewrite X; [exact H|].
  intros j r L Nj Pj. destruct (Forall2_nth_r _ _ _ G j r Nj) as (r0 & Nj0 & Gj). apply (U j r0); auto. rewrite (grown_path _ _ _ _ _ Gj). exact Pj.
Qed.

(* files of no reporter are left alone, and those that could not be written are told *)
Theorem C79_test_failures_told : forall strip w fin kinds n batches info fs out, abq_test strip w fin kinds n batches info fs = Some out ->
  (forall p, (forall rep, In rep (build_reporters kinds n) -> path_of rep <> Some p) -> tr_files out p = fs p) /\
  (forall i, In i (tr_errors out) <-> i < length (build_reporters kinds n) /\ fin i <> FinOk) /\ NoDup (tr_errors out).
Proof.
  intros strip w fin kinds n batches info fs out. unfold abq_test. destruct (work_forever _ _ _ _) as [reps|] eqn:W; [|discriminate].
  destruct (finish_all fin 0 info reps fs) as [fs' errs] eqn:F. intros [= <-]. cbn [tr_files tr_errors]. pose proof (work_grown _ _ _ _ _ W) as G.
  pose proof (finish_all_errors fin info reps 0 fs) as E. rewrite F in E. cbn [snd] in E. subst errs. rewrite (Forall2_length _ _ _ G). split; [|split].
  - intros p H. pose proof (finish_all_leaves fin info p reps 0 fs) as X. rewrite F in X. apply X. intros j rep Nj Pj. exfalso.
    destruct (Forall2_nth_r _ _ _ G j rep Nj) as (r0 & Nj0 & Gj). apply (H r0); [eapply nth_error_In; eauto|]. rewrite (grown_path _ _ _ _ _ Gj). exact Pj.
  - intros i. rewrite filter_In, in_seq. destruct (fin i); cbn [fine negb]; intuition (try lia; try congruence; try discriminate).
  - apply NoDup_filter, seq_NoDup.
Qed.

(* the reports of a worker are made unless a test comes without a result, which none does
   (C43, C30) *)
Theorem C79_test_reports_made : forall strip w fin kinds n batches info fs,
  (forall a, In a (concat batches) -> fa_results a <> []) -> exists out, abq_test strip w fin kinds n batches info fs = Some out.
Proof.
  intros strip w fin kinds n batches info fs H. unfold abq_test. destruct (work_total strip w batches (build_reporters kinds n) H) as [reps ->].
  destruct (finish_all fin 0 info reps fs) as [fs' errs]. eauto.
Qed.

(* the reporters of the terminal are told every result with its attempt too; but that one
   could not write is dropped *)
Theorem C79_terminal_told : forall strip w fin kinds n batches info fs out, abq_test strip w fin kinds n batches info fs = Some out ->
  forall i k told, nth_error (tr_reporters out) i = Some (RStdout k told) -> map fst told = attempts_of (concat batches).
Proof.
  intros strip w fin kinds n batches info fs out. unfold abq_test. destruct (work_forever _ _ _ _) as [reps|] eqn:W; [|discriminate].
  destruct (finish_all fin 0 info reps fs) as [fs' errs] eqn:F. intros [= <-] i k told N. cbn [tr_reporters] in N.
  destruct (Forall2_nth_r _ _ _ (work_grown _ _ _ _ _ W) i _ N) as (rep & N' & G). assert (FR : fresh rep) by (pose proof (built_fresh kinds n) as B; rewrite Forall_forall in B; apply B; eapply nth_error_In; eauto).
  destruct rep as [k' t'|p s|p t]; cbn [grown] in G; try tauto. cbn [fresh] in FR. subst t'. destruct G as [-> (l & -> & E & _)]. exact E.
Qed.

Definition ex_res (id : nat) (s : rstatus) : full :=
  {| f_res := {| r_id := id; r_status := s; r_file := None; r_runner := (0, 0); r_time := id |}; f_name := [116]%N; f_output := Some [98; 97; 100]%N;
     f_stdout := None; f_stderr := None; f_runtime := Milliseconds 3 2 |}.
Definition ex_assoc (work run id : nat) (s : rstatus) : fassoc := {| fa_work := work; fa_run := run; fa_results := [ex_res id s]; fa_before := []; fa_after := None |}.
Definition ex_path : text := [97]%N.
Definition ex_path2 : text := [98]%N.
Definition no_files : files := fun _ => None.
Definition all_well : nat -> ending := fun _ => FinOk.

Theorem C79_terminal_failures_told_refuted :
  ~ forall strip w fin kinds n batches info fs out, abq_test strip w fin kinds n batches info fs = Some out ->
      (exists i k told x, nth_error (tr_reporters out) i = Some (RStdout k told) /\ In x told /\ snd x = false) -> tr_errors out <> [].
Proof.
  intros H.
  apply (H (fun t => t) (fun _ _ => false) all_well [RkLine] 1 [[ex_assoc 1 1 1 Failure]] None no_files _ eq_refl); [|reflexivity].
  eexists 0, SLine, _, _. split; [reflexivity|]. split; [left; reflexivity|reflexivity].
Qed.

(* two reports and a line reporter that fails: the reports are there *)
Example C79_test_files_example :
  exists out, abq_test (fun t => t) (fun _ _ => false) (fun i => if Nat.eqb i 1 then FinNoDir else FinOk)
                [RkLine; RkJUnitXml ex_path2; RkJUnitXml ex_path; RkRwxV1Json ex_path2] 2 [[ex_assoc 1 1 1 Failure]; [ex_assoc 1 2 1 Success; ex_assoc 2 1 2 Skipped]] (Some 7) no_files = Some out /\
    tr_errors out = [1] /\
    tr_files out ex_path2 = Some (JsonFile [ex_res 1 Failure; ex_res 1 Success; ex_res 2 Skipped] (Some 7)) /\
    tr_files out ex_path = Some (JUnitFile {| j_name := t_suite; j_cases :=
      [{| c_name := [116]%N; c_time := 1000000; c_verdict := CFailure t_failure [98; 97; 100]%N |};
       {| c_name := [116]%N; c_time := 1000000; c_verdict := CSuccess |};
       {| c_name := [116]%N; c_time := 0; c_verdict := CSkipped |}] |}).
Proof. eexists. split; [vm_compute; reflexivity|]. repeat split. Qed.

(* ---- abq report ---- *)

(* if it ends with an exit code, every file holds all the results in the order of the report
   and every line was written; and the summaries are those of the failing attempts in the
   same order, with blank lines exactly between them *)
Theorem C79_report_files : forall strip w fin sort order kinds ls fs code,
  rr_end (abq_report strip w fin sort order kinds ls fs) = ReportExit code ->
  let out := abq_report strip w fin sort order kinds ls fs in
  let ordered := sort (flat_map fline_results ls) in
  (exists nonce info, flast_summary ls None = Some (nonce, info) /\
     forall i rep p, nth_error (build_reporters kinds 1) i = Some rep -> path_of rep = Some p ->
       (forall j rep', i < j -> nth_error (build_reporters kinds 1) j = Some rep' -> path_of rep' <> Some p) ->
       holds_report strip rep (results_of ordered) (Some info) (rr_files out p)) /\
  (forall p, (forall rep, In rep (build_reporters kinds 1) -> path_of rep <> Some p) -> rr_files out p = fs p) /\
  (forall i k told, nth_error (rr_reporters out) i = Some (RStdout k told) -> told = map (fun a => (a, true)) (attempts_of ordered)) /\
  (forall i, i < length (build_reporters kinds 1) -> fin i = FinOk) /\
  summaries (rr_printed out) = filter (fun e => is_fail_like (f_status (snd e))) (attempts_of ordered) /\ separated (rr_printed out).
Proof.
  intros strip w fin sort order kinds ls fs code. cbn zeta. unfold abq_report. set (ordered := sort (flat_map fline_results ls)).
  destruct (tell_report strip w ordered (build_reporters kinds 1)) as [reps ok] eqn:T. destruct ok; [|discriminate].
  destruct (flast_summary ls None) as [[nonce info]|] eqn:SM; [|discriminate]. destruct (Nat.eqb nonce _); [|discriminate].
  destruct (finish_until fin 0 (Some info) reps fs) as [fs' okf] eqn:F. destruct okf; [|discriminate]. intros _. cbn [rr_files rr_reporters rr_printed].
  apply finish_until_all in F as [F FO]. pose proof (tell_report_grown _ _ _ _ _ T) as G. rewrite <- (Forall2_length _ _ _ G) in FO.
  split; [|split; [|split; [|split; [exact FO|split; [apply print_summaries|apply print_false]]]]].
  - exists nonce, info. split; auto. intros i rep p N P D.
    destruct (Forall2_nth _ _ _ G i rep N) as (rep' & N' & G').
    assert (FR : fresh rep) by (pose proof (built_fresh kinds 1) as B; rewrite Forall_forall in B; apply B; eapply nth_error_In; eauto).
    destruct (grown_content _ strip _ (Some info) rep rep' p FR G' P) as [P' H]. rewrite attempts_results in H.
    pose proof (finish_all_writes fin (Some info) p reps 0 i fs rep' N' P') as X. rewrite F in X. cbn [fst] in X. rewrite X; [exact H| |].
    + apply FO. apply nth_error_Some. rewrite N. discriminate.
    + intros j r L Nj Pj. exfalso. destruct (Forall2_nth_r _ _ _ G j r Nj) as (r0 & Nj0 & Gj). apply (D j r0); auto. rewrite (grown_path _ _ _ _ _ Gj). exact Pj.
  - intros p H. pose proof (finish_all_leaves fin (Some info) p reps 0 fs) as X. rewrite F in X. apply X. intros j rep Nj Pj. exfalso.
    destruct (Forall2_nth_r _ _ _ G j rep Nj) as (r0 & Nj0 & Gj). apply (H r0); [eapply nth_error_In; eauto|]. rewrite (grown_path _ _ _ _ _ Gj). exact Pj.
  - intros i k told N. destruct (Forall2_nth_r _ _ _ G i _ N) as (rep & N' & Gi).
    assert (FR : fresh rep) by (pose proof (built_fresh kinds 1) as B; rewrite Forall_forall in B; apply B; eapply nth_error_In; eauto).
    destruct rep as [k' t'|p s|p t]; cbn [grown] in Gi; try tauto. cbn [fresh] in FR. subst t'. destruct Gi as [-> (l & -> & E & O)]. cbn [app].
    rewrite <- E, map_map. specialize (O eq_refl). clear -O. induction l as [|[a b] l IH]; cbn [map]; auto. f_equal; [|apply IH; intros x I; apply O; now right].
    pose proof (O (a, b) (or_introl eq_refl)) as X. cbn [snd fst] in *. now subst b.
Qed.

(* and it ends with an exit code if nothing fails and the queue's summary counts the tests *)
Theorem C79_report_ends : forall strip w fin sort order kinds ls fs,
  (forall i n, w i n = true) -> (forall i, i < length (build_reporters kinds 1) -> fin i = FinOk) ->
  (exists info, flast_summary ls None = Some (length (nodup Nat.eq_dec (map fa_work (sort (flat_map fline_results ls)))), info)) ->
  exists code, rr_end (abq_report strip w fin sort order kinds ls fs) = ReportExit code.
Proof.
  intros strip w fin sort order kinds ls fs W O (info & SM). unfold abq_report. set (ordered := sort (flat_map fline_results ls)) in *.
  destruct (tell_report_fine strip w ordered W (build_reporters kinds 1)) as [reps T]. rewrite T, SM, Nat.eqb_refl.
  destruct (finish_until_fine fin (Some info) reps 0 fs) as [fs' ->]; [|cbn [rr_end]; eauto].
  rewrite <- (Forall2_length _ _ _ (tell_report_grown _ _ _ _ _ T)). exact O.
Qed.

(* what abq test promises of each file does not hold of abq report: another reporter that
   fails costs the files of those after it *)
Theorem C79_report_files_refuted :
  ~ forall strip w fin sort order kinds ls fs info,
      fsorter sort -> fwalks order -> flast_summary ls None = Some (length (nodup Nat.eq_dec (map fa_work (flat_map fline_results ls))), info) ->
      forall i rep p, nth_error (build_reporters kinds 1) i = Some rep -> path_of rep = Some p -> fin i = FinOk -> undisturbed fin (build_reporters kinds 1) i p ->
      holds_report strip rep (results_of (sort (flat_map fline_results ls))) (Some info) (rr_files (abq_report strip w fin sort order kinds ls fs) p).
Proof.
  intros H.
  assert (X := H (fun t => t) (fun _ _ => true) (fun i => if Nat.eqb i 0 then FinNoDir else FinOk) fisort statuses [RkJUnitXml ex_path; RkRwxV1Json ex_path2]
                 [FResults [ex_assoc 1 1 1 Success]; FSummary 1 7] no_files 7 fisort_sorter (fun k => Permutation_refl _) eq_refl 1 _ ex_path2 eq_refl eq_refl eq_refl).
  assert (U : undisturbed (fun i => if Nat.eqb i 0 then FinNoDir else FinOk) (build_reporters [RkJUnitXml ex_path; RkRwxV1Json ex_path2] 1) 1 ex_path2).
  { intros j rep L N P. destruct j as [|[|[|j]]]; try lia; discriminate. }
  specialize (X U). vm_compute in X. discriminate.
Qed.
(* it holds if the terminal can be written and the reporters before it can finish *)
Theorem C79_report_files_partial : forall strip w fin sort order kinds ls fs info,
  (forall i n, w i n = true) ->
  flast_summary ls None = Some (length (nodup Nat.eq_dec (map fa_work (sort (flat_map fline_results ls)))), info) ->
  forall i rep p, nth_error (build_reporters kinds 1) i = Some rep -> path_of rep = Some p -> (forall j, j <= i -> fin j = FinOk) ->
  (forall j rep', i < j -> nth_error (build_reporters kinds 1) j = Some rep' -> path_of rep' <> Some p) ->
  holds_report strip rep (results_of (sort (flat_map fline_results ls))) (Some info) (rr_files (abq_report strip w fin sort order kinds ls fs) p).
Proof.
  intros strip w fin sort order kinds ls fs info W SM i rep p N P O D. unfold abq_report. set (ordered := sort (flat_map fline_results ls)) in *.
  destruct (tell_report_fine strip w ordered W (build_reporters kinds 1)) as [reps T]. rewrite T, SM, Nat.eqb_refl.
  pose proof (tell_report_grown _ _ _ _ _ T) as G. destruct (Forall2_nth _ _ _ G i rep N) as (rep' & N' & G').
  assert (FR : fresh rep) by (pose proof (built_fresh kinds 1) as B; rewrite Forall_forall in B; apply B; eapply nth_error_In; eauto).
  destruct (grown_content _ strip _ (Some info) rep rep' p FR G' P) as [P' H]. rewrite attempts_results in H.
  assert (D' : forall j r, i < j -> nth_error reps j = Some r -> path_of r <> Some p).
  { intros j r L Nj Pj. destruct (Forall2_nth_r _ _ _ G j r Nj) as (r0 & Nj0 & Gj). apply (D j r0); auto. rewrite (grown_path _ _ _ _ _ Gj). exact Pj. }
  assert (L : i < length reps) by (apply nth_error_Some; rewrite N'; discriminate).
  destruct (finish_until fin 0 (Some info) reps fs) as [fs' okf] eqn:F. destruct okf; cbn [rr_files].
  - apply finish_until_all in F as [F FO]. pose proof (finish_all_writes fin (Some info) p reps 0 i fs rep' N' P' (FO i L)) as X. rewrite F in X. cbn [fst] in X.
    rewrite X; [exact H|]. intros j r Lj Nj Pj. exfalso. now apply (D' j r).
  - assert (E : exists k, k < length reps /\ fin k <> FinOk /\ forall j, j < k -> fin j = FinOk).
    { assert (Q : forall m, (forall j, j < m -> fin j = FinOk) \/ exists k, k < m /\ fin k <> FinOk /\ forall j, j < k -> fin j = FinOk).
      { induction m as [|m [A|(k & A & B & C)]]; [left; lia| |right; exists k; repeat split; auto; lia].
        destruct (fine (fin m)) eqn:Fm.
        - left. intros j Lj. assert (j < m \/ j = m) as [Z|Z] by lia; [auto|subst j; destruct (fin m); cbn in Fm; congruence].
        - right. exists m. repeat split; auto. intros Z. now rewrite Z in Fm. }
      destruct (Q (length reps)) as [A|A]; auto. destruct (finish_until_fine fin (Some info) reps 0 fs A) as [fs2 Z]. congruence. }
    destruct E as (k & Lk & Bk & Gk). destruct (finish_until_first fin (Some info) reps k 0 fs Lk Bk Gk) as (fs2 & Z & Y & _). rewrite F in Z. injection Z as <-.
    assert (i < k) by (destruct (Nat.lt_ge_cases i k); auto; exfalso; apply Bk; now apply O).
    rewrite (Y i rep' p); auto. intros j r Lj Nj. apply (D' j r); auto; lia.
Qed.
(* on both: the JSON report is kept although the JUnit report after it cannot be written *)
Example C79_report_files_example :
  let out := abq_report (fun t => t) (fun _ _ => true) (fun i => if Nat.eqb i 1 then FinNoDir else FinOk) fisort statuses [RkRwxV1Json ex_path2; RkJUnitXml ex_path]
               [FResults [ex_assoc 2 1 2 Success]; FResults [ex_assoc 1 1 1 Failure]; FSummary 2 7] no_files in
  rr_end out = ReportError /\ rr_files out ex_path2 = Some (JsonFile [ex_res 1 Failure; ex_res 2 Success] (Some 7)) /\ rr_files out ex_path = None.
Proof. repeat split. Qed.
Example C79_report_example :
  let out := abq_report (fun t => t) (fun _ _ => true) all_well fisort statuses [RkLine; RkRwxV1Json ex_path2; RkJUnitXml ex_path]
               [FResults [ex_assoc 2 1 2 TimedOut]; FResults [ex_assoc 1 1 1 Failure; ex_assoc 3 1 3 Success]; FSummary 3 7] no_files in
  rr_end out = ReportExit 1 /\ rr_files out ex_path2 = Some (JsonFile [ex_res 1 Failure; ex_res 2 TimedOut; ex_res 3 Success] (Some 7)) /\
  rr_printed out = [PSummary 1 (ex_res 1 Failure); PBlank; PSummary 1 (ex_res 2 TimedOut)].
Proof. repeat split. Qed.

(* a report that fails is not told apart from a suite that fails by the exit code *)
Theorem C79_exit_told_apart_refuted :
  ~ forall strip w fin sort order kinds ls fs w' fin' sort' order' kinds' ls' fs' code,
      fsorter sort -> fwalks order -> fsorter sort' -> fwalks order' ->
      rr_end (abq_report strip w fin sort order kinds ls fs) = ReportError ->
      rr_end (abq_report strip w' fin' sort' order' kinds' ls' fs') = ReportExit code ->
      process_exit (rr_end (abq_report strip w fin sort order kinds ls fs)) <> code.
Proof.
  intros H.
  apply (H (fun t => t) (fun _ _ => true) all_well fisort statuses [] [] no_files (fun _ _ => true) all_well fisort statuses []
           [FResults [ex_assoc 1 1 1 Failure]; FSummary 1 7] no_files 1 fisort_sorter (fun k => Permutation_refl _) fisort_sorter (fun k => Permutation_refl _) eq_refl eq_refl). reflexivity.
Qed.

(* ---- the JUnit file and the suite ---- *)

(* the file's counts are the numbers of results that failed and of those that broke down *)
Theorem C79_junit_counts : forall strip rs s, says_all strip rs s ->
  junit_tests s = length rs /\ junit_failures s = number (has_status [Failure]) rs /\ junit_errors s = number (has_status [Error; TimedOut; PrivateNativeRunnerError]) rs.
Proof. exact says_counts. Qed.

(* the file of a suite that succeeded may count failures: those of tests that succeeded when
   they were run again *)
Theorem C79_junit_agrees_refuted :
  ~ forall strip w fin sort order kinds ls fs code i p s0 s, fsorter sort -> fwalks order ->
      rr_end (abq_report strip w fin sort order kinds ls fs) = ReportExit code ->
      nth_error (build_reporters kinds 1) i = Some (RJUnit p s0) -> rr_files (abq_report strip w fin sort order kinds ls fs) p = Some (JUnitFile s) ->
      (code = 0 <-> junit_failures s + junit_errors s = 0).
Proof.
  intros H.
  assert (X := H (fun t => t) (fun _ _ => true) all_well fisort statuses [RkJUnitXml ex_path] [FResults [ex_assoc 1 1 1 Failure; ex_assoc 1 2 1 Success]; FSummary 1 7] no_files 0 0 ex_path
                 _ _ fisort_sorter (fun k => Permutation_refl _) eq_refl eq_refl eq_refl).
  destruct X as [X _]. specialize (X eq_refl). vm_compute in X. discriminate.
Qed.
(* they agree if nothing was run again *)
Theorem C79_junit_agrees_partial : forall strip w fin sort order kinds ls fs code i p s0, fsorter sort -> fwalks order ->
  run_once (flat_map fline_results ls) ->
  rr_end (abq_report strip w fin sort order kinds ls fs) = ReportExit code ->
  nth_error (build_reporters kinds 1) i = Some (RJUnit p s0) ->
  (forall j rep', i < j -> nth_error (build_reporters kinds 1) j = Some rep' -> path_of rep' <> Some p) ->
  exists s, rr_files (abq_report strip w fin sort order kinds ls fs) p = Some (JUnitFile s) /\ (code = 0 <-> junit_failures s + junit_errors s = 0).
Proof.
  intros strip w fin sort order kinds ls fs code i p s0 FS FW RO E N D.
  destruct (C79_report_files strip w fin sort order kinds ls fs code E) as ((nonce & info & SM & FI) & _). specialize (FI i (RJUnit p s0) p N eq_refl D).
  cbn [holds_report] in FI. destruct FI as (sj & FE & SA). exists sj. split; auto. destruct (says_counts _ _ _ SA) as (_ & -> & ->).
  assert (RO' : run_once (sort (flat_map fline_results ls))) by (eapply run_once_perm; [apply FS|exact RO]).
  pose proof (exit_once _ order FW RO') as X. cbn zeta in X.
  assert (C : code = s_exit (snd (let k := fold_left handle_account (map plain (sort (flat_map fline_results ls))) tracker_new in suite_result k (order k) (order k)))).
  { revert E. unfold abq_report. destruct (tell_report strip w (sort (flat_map fline_results ls)) (build_reporters kinds 1)) as [reps ok]. destruct ok; [|discriminate]. rewrite SM.
    destruct (Nat.eqb nonce _); [|discriminate]. destruct (finish_until fin 0 (Some info) reps fs) as [fs' okf]. destruct okf; [|discriminate]. cbn [rr_end]. now intros [= <-]. }
  rewrite C. cbn zeta. rewrite X. set (rs := results_of (sort (flat_map fline_results ls))). split.
  - intros H. assert (number (has_status [Failure]) rs = 0 /\ number (has_status [Error; TimedOut; PrivateNativeRunnerError]) rs = 0) as [-> ->]; auto.
    split; apply number_zero; intros r I; specialize (H r I); unfold has_status; destruct (f_status r); cbn in *; congruence.
  - intros H r I. assert (A : number (has_status [Failure]) rs = 0) by lia. assert (B : number (has_status [Error; TimedOut; PrivateNativeRunnerError]) rs = 0) by lia.
    pose proof (proj1 (number_zero _ _) A r I) as A'. pose proof (proj1 (number_zero _ _) B r I) as B'. revert A' B'. unfold has_status. destruct (f_status r); cbn; congruence.
Qed.
Example C79_junit_agrees_example : run_once [ex_assoc 2 1 2 TimedOut; ex_assoc 1 1 1 Failure; ex_assoc 3 1 3 Success].
Proof.
  split; [|split].
  - intros a [<-|[<-|[<-|[]]]]; reflexivity.
  - cbn. repeat constructor; cbn; intuition discriminate.
  - intros a b r r' [<-|[<-|[<-|[]]]] _ [<-|[]]; cbn; discriminate.
Qed.

(* ---- the line reporter ---- *)

(* its comment promises summaries of failing tests, but what it writes of a failing test does not depend
   on what the test said *)
Theorem C79_line_shows_failures_refuted :
  ~ forall r r', f_res r = f_res r' -> f_name r = f_name r' -> f_status r = Failure -> line_push r = line_push r' -> f_output r = f_output r'.
Proof.
  intros H.
  specialize (H (ex_res 1 Failure) {| f_res := f_res (ex_res 1 Failure); f_name := [116]%N; f_output := None; f_stdout := None; f_stderr := None; f_runtime := Nanoseconds 0 |} eq_refl eq_refl eq_refl eq_refl). discriminate.
Qed.

(* but it tells how each test went: the lines of two results of one name are the same only
   if they went the same way; a test that errored and one for which a runner broke down are
   both said to have errored *)
Theorem C79_line_tells_status_partial : forall r r', f_name r = f_name r' ->
  (result_line r = result_line r' <->
     f_status r = f_status r' \/ (f_status r = Error /\ f_status r' = PrivateNativeRunnerError) \/ (f_status r = PrivateNativeRunnerError /\ f_status r' = Error)).
Proof.
  intros r r' E. unfold result_line. rewrite E. split.
  - intros H. apply app_inv_head in H. destruct (f_status r), (f_status r'); auto; discriminate.
  - intros [->|[[-> ->]|[-> ->]]]; reflexivity.
Qed.

(* ---- the output of the native processes ---- *)

(* what the processes of a runner wrote is shown exactly once; and while the tests run
   exactly if there is one runner and no reporter is on the terminal *)
Theorem C79_native_output_once : forall info kinds (rs : list (PoolModel.runner_exit info)) i r, nth_error rs i = Some r -> written r <> [] ->
  flat_map (output_of (S i)) (terminal kinds rs) = [written r] /\
  ((exists o, In (Live (S i) o) (terminal kinds rs)) <-> length rs = 1 /\ ~ exists rep, In rep (build_reporters kinds (length rs)) /\ on_terminal rep).
Proof.
  intros info kinds rs i r N W. unfold terminal. cbn zeta. set (pipes := pipes_to_parent kinds (length rs)).
  assert (XP : PoolModel.x_process (PoolModel.shutdown rs) = combine (seq 1 (length rs)) (map written rs)) by (unfold PoolModel.shutdown; cbn [PoolModel.x_process]; rewrite pool_process; reflexivity).
  assert (N' : nth_error (map written rs) i = Some (written r)) by (rewrite nth_error_map, N; reflexivity).
  assert (PP : pipes = true <-> length rs = 1 /\ ~ exists rep, In rep (build_reporters kinds (length rs)) /\ on_terminal rep).
  { rewrite built_terminal. unfold pipes, pipes_to_parent. destruct (has_stdout_reporters kinds (length rs)); destruct (Nat.eqb_spec (length rs) 1); cbn; intuition (try discriminate; try congruence). }
  split.
  - rewrite !flat_map_app, output_lives, end_manifest_output, output_end, XP, <- (map_length written rs). cbn [app]. destruct pipes.
    + rewrite app_nil_r. exact (select_nth (fun o => [o]) (map written rs) 1 i (written r) N').
    + cbn [app]. etransitivity; [exact (select_nth (fun o => match o with [] => [] | y :: l => [y :: l] end) (map written rs) 1 i (written r) N')|]. destruct (written r); [congruence|reflexivity].
  - rewrite <- PP. split.
    + intros (o & I). destruct pipes; auto. exfalso. apply in_app_or in I as [I|I].
      * clear -I. revert I. generalize 1. induction rs as [|x rs IH]; intros id I; [destruct I|]. cbn [lives] in I. apply in_app_or in I as [I|I]; [destruct x; exact I|eauto].
      * apply in_app_or in I as [I|I]; [destruct (PoolModel.x_manifest_output (PoolModel.shutdown rs)) as [[j m]|]; cbn in I; [destruct (blank_bytes m)|]; cbn in I; intuition discriminate|].
        unfold end_outputs in I. apply in_flat_map in I as (e & _ & I). destruct (false || _); cbn in I; intuition discriminate.
    + intros ->. exists (written r). apply in_or_app. left. clear -N. change (S i) with (1 + i). revert N. generalize 1. revert i. induction rs as [|x rs IH]; intros i id; [destruct i; discriminate|]. destruct i as [|i]; cbn [nth_error lives].
      * intros [= ->]. apply in_or_app. left. rewrite Nat.add_0_r. destruct r as [c m f p y|e o y]; cbn [live negb written]; [apply in_or_app; right|]; now left.
      * intros H. apply in_or_app. right. replace (id + S i) with (S id + i) by lia. now apply IH.
Qed.

(* the output of listing the tests is not: it is shown twice where output is passed on, and
   with several runners not at all *)
Theorem C79_listing_once_refuted :
  (~ forall kinds (r : PoolModel.runner_exit nat) code o final process i, r = PoolModel.ROk code (Some o) final process i -> blank_bytes o = false ->
       flat_map listing (terminal kinds [r]) = [o]) /\
  (~ forall kinds (r r2 : PoolModel.runner_exit nat) code o final process i code2 final2 process2 i2,
       r = PoolModel.ROk code (Some o) final process i -> r2 = PoolModel.ROk code2 None final2 process2 i2 -> blank_bytes o = false ->
       In o (flat_map listing (terminal kinds [r; r2]))).
Proof.
  split.
  - intros H. specialize (H [] _ 0%Z [104] {| PoolModel.so_out := []; PoolModel.so_err := [] |} [105] None eq_refl eq_refl). vm_compute in H. discriminate.
  - intros H. specialize (H [] _ _ 0%Z [104] {| PoolModel.so_out := []; PoolModel.so_err := [] |} [105] None 0%Z {| PoolModel.so_out := []; PoolModel.so_err := [] |} [105] None eq_refl eq_refl eq_refl). vm_compute in H. exact H.
Qed.
(* with one runner and a reporter on the terminal it is shown once, unless it is blank *)
Theorem C79_listing_once_partial : forall info kinds code o final process (i : option info),
  (exists rep, In rep (build_reporters kinds 1) /\ on_terminal rep) ->
  flat_map listing (terminal kinds [PoolModel.ROk code (Some o) final process i]) = if blank_bytes o then [] else [o].
Proof.
  intros info kinds code o final process i H. apply built_terminal in H. unfold terminal, pipes_to_parent. cbn [length Nat.eqb]. rewrite H. cbn [andb negb lives live app].
  rewrite flat_map_app. cbn. destruct (blank_bytes o); destruct process; reflexivity.
Qed.
Example C79_native_output_example :
  terminal (info := nat) [RkLine] [PoolModel.ROk 0%Z (Some [104]) {| PoolModel.so_out := []; PoolModel.so_err := [] |} [105] None; PoolModel.RErr [1] {| PoolModel.so_out := [106]; PoolModel.so_err := [] |} None]
  = [EndManifest [104]; EndOutput 1 [105]; EndOutput 2 (PoolModel.combined {| PoolModel.so_out := [106]; PoolModel.so_err := [] |})] /\
  terminal (info := nat) [] [PoolModel.ROk 0%Z None {| PoolModel.so_out := []; PoolModel.so_err := [] |} [105] None] = [Live 1 [105]].
Proof. split; reflexivity. Qed.

Print Assumptions C79_each_has_its_reporter.
Print Assumptions C79_test_files.
Print Assumptions C79_test_failures_told.
Print Assumptions C79_test_reports_made.
Print Assumptions C79_terminal_told.
Print Assumptions C79_terminal_failures_told_refuted.
Print Assumptions C79_report_files.
Print Assumptions C79_report_ends.
Print Assumptions C79_report_files_refuted.
Print Assumptions C79_report_files_partial.
Print Assumptions C79_exit_told_apart_refuted.
Print Assumptions C79_junit_counts.
Print Assumptions C79_junit_agrees_refuted.
Print Assumptions C79_junit_agrees_partial.
Print Assumptions C79_line_shows_failures_refuted.
Print Assumptions C79_line_tells_status_partial.
Print Assumptions C79_native_output_once.
Print Assumptions C79_listing_once_refuted.
Print Assumptions C79_listing_once_partial.
