(* Model of the reporters of `abq test` and `abq report` taken together: which are made, what
   each of them is told, the files they leave, and what of the native runners' output gets to
   the terminal.
   crates/abq_cli/src/reporting.rs:156-345, crates/abq_cli/src/report.rs:118-228 and 313-362,
   crates/abq_cli/src/workers.rs:62-73, 132-216 and 249-266,
   crates/abq_cli/src/workers/reporting.rs, crates/reporters/{junit_xml,line}/src/lib.rs.
   A file is named by its path and two paths are the same file if they are the same text; the
   encoding as XML and JSON is left out: a file is what is encoded in it.  Colours are left
   out. *)
From Verif Require Import Base StatusModel TermModel ReportModel.
From Verif Require PoolModel.
From Coq Require Import ZArith NArith.
Open Scope nat_scope.

(* ---- results ---- *)

(* crates/abq_utils/src/net_protocol/runners.rs (TestRuntime); the floating point number of
   milliseconds is a fraction num / den *)
Inductive runtime := Milliseconds (num : Z) (den : positive) | Nanoseconds (n : Z).

(* runners.rs:656-740 (TestResultSpec): with what the reporters look at *)
Record full := { f_res : result; f_name : text; f_output : option text; f_stdout : option text; f_stderr : option text; f_runtime : runtime }.
Definition f_status (r : full) : rstatus := r_status (f_res r).
(* net_protocol.rs:563-572 (AssociatedTestResults) *)
Record fassoc := { fa_work : nat; fa_run : nat; fa_results : list full; fa_before : list nat; fa_after : option (list nat) }.
(* without the texts, for the tracker *)
Definition plain (a : fassoc) : assoc :=
  {| as_work := fa_work a; as_run := fa_run a; as_results := map f_res (fa_results a); as_before := fa_before a; as_after := fa_after a |}.

(* ---- junit_xml/src/lib.rs ---- *)

(* junit_report's TestCase: how it went *)
Inductive verdict := CSuccess | CSkipped | CFailure (type message : text) | CError (type message : text).
(* the time is in nanoseconds *)
Record case := { c_name : text; c_time : Z; c_verdict : verdict }.
(* lib.rs:6-8 *)
Record junit_suite := { j_name : text; j_cases : list case }.

(* a number converted to an i64 by `as`: from a float it is cut off and kept within the bounds, from a u64 it
   wraps around *)
Definition MAX64 : Z := 9223372036854775807.
Definition MIN64 : Z := -9223372036854775808.
Definition from_float (num : Z) (den : positive) : Z := Z.max MIN64 (Z.min MAX64 (Z.quot num (Zpos den))).
Definition from_u64 (n : Z) : Z := if Z.leb n MAX64 then n else (n - 18446744073709551616)%Z.

(* lib.rs:47-50 *)
Definition duration (t : runtime) : Z :=
  match t with Milliseconds n d => (from_float n d * 1000000)%Z | Nanoseconds n => from_u64 n end.

(* "failure" :72, "error" :84, "timed out" :92 *)
Definition t_failure : text := [102; 97; 105; 108; 117; 114; 101]%N.
Definition t_error : text := [101; 114; 114; 111; 114]%N.
Definition t_timed_out : text := [116; 105; 109; 101; 100; 32; 111; 117; 116]%N.
(* "suite", workers.rs:62 and report.rs:51 *)
Definition t_suite : text := [115; 117; 105; 116; 101]%N.

Section WithStrip.
(* strip_ansi_escapes::strip, lib.rs:56-65 *)
Variable strip : text -> text.

(* lib.rs:28-99 (push_result): the test case.  A skipped case has no duration (the expected
   output of the test at :203-211). *)
Definition junit_case (r : full) : case :=
  let cleaned := strip (match f_output r with Some o => o | None => [] end) in
  let mk v := {| c_name := f_name r; c_time := duration (f_runtime r); c_verdict := v |} in
  match f_status r with
  | Failure => mk (CFailure t_failure cleaned)
  | Success => mk CSuccess
  | Error | PrivateNativeRunnerError => mk (CError t_error cleaned)
  | Pending | Skipped | Todo => {| c_name := f_name r; c_time := 0; c_verdict := CSkipped |}
  | TimedOut => mk (CError t_timed_out cleaned)
  end.
Definition junit_push (s : junit_suite) (r : full) : junit_suite := {| j_name := j_name s; j_cases := j_cases s ++ [junit_case r] |}.

(* the attributes of the suite in the file, from the tests of lib.rs (:195, :248): tests,
   errors, failures, time *)
Definition is_failure (c : case) : bool := match c_verdict c with CFailure _ _ => true | _ => false end.
Definition is_error (c : case) : bool := match c_verdict c with CError _ _ => true | _ => false end.
Definition junit_tests (s : junit_suite) : nat := length (j_cases s).
Definition junit_errors (s : junit_suite) : nat := length (filter is_error (j_cases s)).
Definition junit_failures (s : junit_suite) : nat := length (filter is_failure (j_cases s)).
Definition junit_time (s : junit_suite) : Z := fold_right Z.add 0%Z (map c_time (j_cases s)).

(* ---- line/src/lib.rs ---- *)

(* abq_reporting/src/output.rs:478-490 (format_status) *)
Definition status_text (s : rstatus) : text :=
  match s with
  | Failure => [70; 65; 73; 76; 69; 68]                               (* FAILED *)
  | Success => [111; 107]                                             (* ok *)
  | Error | PrivateNativeRunnerError => [69; 82; 82; 79; 82; 69; 68]  (* ERRORED *)
  | TimedOut => [84; 73; 77; 69; 68; 32; 79; 85; 84]                  (* TIMED OUT *)
  | Pending => [112; 101; 110; 100; 105; 110; 103]                    (* pending *)
  | Todo => [116; 111; 100; 111]                                      (* todo *)
  | Skipped => [115; 107; 105; 112; 112; 101; 100]                    (* skipped *)
  end%N.
(* output.rs:21-26 (format_result_line): "name: status\n" *)
Definition result_line (r : full) : text := f_name r ++ [58; 32]%N ++ status_text (f_status r) ++ [nl].
(* line/src/lib.rs:30-55 (push_result): what is written; the summaries collected for failing
   tests are never written (finish, :61-67, only flushes) *)
Definition line_push (r : full) : text :=
  result_line r ++
  match f_status r with
  | PrivateNativeRunnerError => match f_output r with Some o => o | None => no_output end ++ [nl]
  | _ => []
  end.

(* ---- reporting.rs: the reporters ---- *)

Inductive stdout_kind := SDot | SLine | SProgress.
(* A reporter on the terminal keeps the results it was told, each with its attempt and
   whether it could be written; what the dot and progress reporters write is the subject of
   TermModel.v.  The JSON reporter keeps the results its collector was told (RwxModel.v). *)
Inductive reporter :=
| RStdout (k : stdout_kind) (told : list (nat * full * bool))
| RJUnit (path : text) (s : junit_suite)
| RJson (path : text) (told : list full).

(* reporting.rs:41-49; a number of runners is not zero *)
Definition outputs_to_stdout (num_runners : nat) (k : reporter_kind) : bool :=
  match k with
  | RkDefault => negb (Nat.eqb num_runners 1)
  | RkDot | RkLine | RkProgress => true
  | RkJUnitXml _ | RkRwxV1Json _ => false
  end.

(* reporting.rs:276-322 *)
Definition reporter_from_kind (any_stdout : bool) (k : reporter_kind) : option reporter :=
  match k with
  | RkDefault => if any_stdout then Some (RStdout SDot []) else None
  | RkDot => Some (RStdout SDot [])
  | RkLine => Some (RStdout SLine [])
  | RkProgress => Some (RStdout SProgress [])
  | RkJUnitXml p => Some (RJUnit p {| j_name := t_suite; j_cases := [] |})
  | RkRwxV1Json p => Some (RJson p [])
  end.

Fixpoint filter_map {A B} (f : A -> option B) (l : list A) : list B :=
  match l with [] => [] | a :: t => match f a with Some b => b :: filter_map f t | None => filter_map f t end end.

(* reporting.rs:324-345 *)
Definition build_reporters (kinds : list reporter_kind) (num_runners : nat) : list reporter :=
  filter_map (reporter_from_kind (existsb (outputs_to_stdout num_runners) kinds)) kinds.

(* Reporter::push_result: the reporters on the terminal fail if they cannot write ([ok] is
   whether they can this time), the others do not fail (reporting.rs:162-169, 200-207) *)
Definition push (ok : bool) (run_number : nat) (r : full) (rep : reporter) : reporter * bool :=
  match rep with
  | RStdout k told => (RStdout k (told ++ [(run_number, r, ok)]), ok)
  | RJUnit p s => (RJUnit p (junit_push s r), true)
  | RJson p told => (RJson p (told ++ [r]), true)
  end.

(* whether the reporter at a place of the list can write what it is told this time, from the
   number of things it was told before *)
Definition sink := nat -> nat -> bool.
Definition told_before (rep : reporter) : nat :=
  match rep with RStdout _ told => length told | RJUnit _ s => length (j_cases s) | RJson _ told => length told end.

(* ---- files ---- *)

Inductive content := JUnitFile (s : junit_suite) | JsonFile (rs : list full) (info : option nat) | Broken.
Definition files := text -> option content.
Definition write_file (fs : files) (p : text) (c : content) : files := fun q => if text_eqb q p then Some c else fs q.

(* how it goes with a reporter's finish: a directory cannot be made (reporting.rs:176-178,
   214-216), the file cannot be opened (:180-184), it cannot be written, in which case it was
   truncated (:186-188); for the terminal, that it cannot be flushed *)
Inductive ending := FinOk | FinNoDir | FinNoOpen | FinNoWrite.
Definition fine (e : ending) : bool := match e with FinOk => true | _ => false end.

(* Reporter::finish: reporting.rs:175-190, 213-236, line/src/lib.rs:61-67 and the like *)
Definition finish (e : ending) (info : option nat) (rep : reporter) (fs : files) : files * bool :=
  match rep with
  | RStdout _ _ => (fs, fine e)
  | RJUnit p s =>
      match e with
      | FinOk => (write_file fs p (JUnitFile s), true)
      | FinNoDir | FinNoOpen => (fs, false)
      | FinNoWrite => (write_file fs p Broken, false)
      end
  | RJson p told =>
      match e with
      | FinOk => (write_file fs p (JsonFile told info), true)
      | FinNoDir | FinNoOpen => (fs, false)
      | FinNoWrite => (write_file fs p Broken, false)
      end
  end.

(* ---- abq test: workers/reporting.rs ---- *)

(* :86-89: every reporter is told; that it fails is dropped *)
Fixpoint tell_all (w : sink) (i : nat) (run_number : nat) (r : full) (reps : list reporter) : list reporter :=
  match reps with
  | [] => []
  | rep :: t => fst (push (w i (told_before rep)) run_number r rep) :: tell_all w (S i) run_number r t
  end.

(* :51-91 (handle_associated_results); None is the panic of :60-63 *)
Definition handle_associated (w : sink) (reps : list reporter) (a : fassoc) : option (list reporter) :=
  match fa_results a with
  | [] => None
  | rs => Some (fold_left (fun reps r => tell_all w 0 (fa_run a) r reps) rs reps)
  end.
(* :35-40 (work_forever): the results as they come, batch by batch *)
Fixpoint handle_batch (w : sink) (reps : list reporter) (l : list fassoc) : option (list reporter) :=
  match l with [] => Some reps | a :: t => match handle_associated w reps a with Some reps' => handle_batch w reps' t | None => None end end.
Fixpoint work_forever (w : sink) (reps : list reporter) (batches : list (list fassoc)) : option (list reporter) :=
  match batches with [] => Some reps | b :: t => match handle_batch w reps b with Some reps' => work_forever w reps' t | None => None end end.

(* :96-110 (FinalizedReporters::finish): every reporter is finished; the errors, as places of
   reporters *)
Fixpoint finish_all (fin : nat -> ending) (i : nat) (info : option nat) (reps : list reporter) (fs : files) : files * list nat :=
  match reps with
  | [] => (fs, [])
  | rep :: t =>
      let '(fs1, ok) := finish (fin i) info rep fs in
      let '(fs2, errs) := finish_all fin (S i) info t fs1 in
      (fs2, if ok then errs else i :: errs)
  end.

(* workers.rs:62-73, 132-190: the reports of a worker; None is the panic of the reporting task, which
   join (:118-122) hands on *)
Record test_reports := { tr_files : files; tr_errors : list nat; tr_reporters : list reporter }.
Definition abq_test (w : sink) (fin : nat -> ending) (kinds : list reporter_kind) (num_runners : nat)
                    (batches : list (list fassoc)) (info : option nat) (fs : files) : option test_reports :=
  match work_forever w (build_reporters kinds num_runners) batches with
  | None => None
  | Some reps => let '(fs', errs) := finish_all fin 0 info reps fs in Some {| tr_files := fs'; tr_errors := errs; tr_reporters := reps |}
  end.

(* ---- abq report: report.rs ---- *)

(* :349-351: the first reporter that fails ends it; the reporters behind it are not told *)
Fixpoint tell_until (w : sink) (i : nat) (run_number : nat) (r : full) (reps : list reporter) : list reporter * bool :=
  match reps with
  | [] => ([], true)
  | rep :: t =>
      let '(rep', ok) := push (w i (told_before rep)) run_number r rep in
      if ok then let '(t', ok') := tell_until w (S i) run_number r t in (rep' :: t', ok') else (rep' :: t, false)
  end.
Fixpoint tell_results (w : sink) (run_number : nat) (rs : list full) (reps : list reporter) : list reporter * bool :=
  match rs with
  | [] => (reps, true)
  | r :: t => let '(reps', ok) := tell_until w 0 run_number r reps in if ok then tell_results w run_number t reps' else (reps', false)
  end.
(* :149-157 *)
Fixpoint tell_report (w : sink) (l : list fassoc) (reps : list reporter) : list reporter * bool :=
  match l with
  | [] => (reps, true)
  | a :: t => let '(reps', ok) := tell_results w (fa_run a) (fa_results a) reps in if ok then tell_report w t reps' else (reps', false)
  end.
(* :185-187 *)
Fixpoint finish_until (fin : nat -> ending) (i : nat) (info : option nat) (reps : list reporter) (fs : files) : files * bool :=
  match reps with
  | [] => (fs, true)
  | rep :: t => let '(fs1, ok) := finish (fin i) info rep fs in if ok then finish_until fin (S i) info t fs1 else (fs1, false)
  end.

(* the lines the queue sends, net_protocol.rs (results::ResultsLine) *)
Inductive fline := FResults (l : list fassoc) | FSummary (nonce info : nat).
Definition fline_results (l : fline) : list fassoc := match l with FResults rs => rs | FSummary _ _ => [] end.
Fixpoint flast_summary (ls : list fline) (d : option (nat * nat)) : option (nat * nat) :=
  match ls with [] => d | FResults _ :: t => flast_summary t d | FSummary n i :: t => flast_summary t (Some (n, i)) end.

(* the summary of a failing attempt, report.rs:205-221: blank lines between them *)
Inductive paragraph := PSummary (run_number : nat) (r : full) | PBlank.
Fixpoint print_failures (one_before : bool) (tracked : list (nat * full)) : list paragraph :=
  match tracked with
  | [] => []
  | (n, r) :: t =>
      match f_status r with
      | Failure | Error | PrivateNativeRunnerError | TimedOut =>
          (if one_before then [PBlank] else []) ++ PSummary n r :: print_failures true t
      | Success | Pending | Todo | Skipped => print_failures one_before t
      end
  end.

(* how the command ends: with the suite's exit code, or with an error, which main turns into
   exit code 1 (main.rs:54-57: the error is returned from main) *)
Inductive report_end := ReportExit (code : nat) | ReportError.
Definition process_exit (e : report_end) : nat := match e with ReportExit c => c | ReportError => 1 end.
Record report_run := { rr_end : report_end; rr_files : files; rr_printed : list paragraph; rr_reporters : list reporter }.

(* report.rs:118-228 (process_results, print_report).  [sort] is the order of
   OrderedAssociatedResults (ReportModel.v), [order] the order in which the tracker's map is
   walked through; writing the summaries is taken to succeed *)
Definition abq_report (w : sink) (fin : nat -> ending) (sort : list fassoc -> list fassoc) (order : tracker -> list tstatus)
                      (kinds : list reporter_kind) (ls : list fline) (fs : files) : report_run :=
  let reps := build_reporters kinds 1 in
  let ordered := sort (flat_map fline_results ls) in
  let tracked := flat_map (fun a => map (fun r => (fa_run a, r)) (fa_results a)) ordered in
  match tell_report w ordered reps with
  | (reps', false) => {| rr_end := ReportError; rr_files := fs; rr_printed := []; rr_reporters := reps' |}
  | (reps', true) =>
      let k := fold_left handle_account (map plain ordered) tracker_new in
      let suite := snd (suite_result k (order k) (order k)) in
      match flast_summary ls None with
      | None => {| rr_end := ReportError; rr_files := fs; rr_printed := []; rr_reporters := reps' |}
      | Some (nonce, info) =>
          if Nat.eqb nonce (length (nodup Nat.eq_dec (map fa_work ordered))) then
            match finish_until fin 0 (Some info) reps' fs with
            | (fs', false) => {| rr_end := ReportError; rr_files := fs'; rr_printed := []; rr_reporters := reps' |}
            | (fs', true) =>
                {| rr_end := ReportExit (s_exit suite); rr_files := fs'; rr_printed := print_failures false tracked; rr_reporters := reps' |}
            end
          else {| rr_end := ReportError; rr_files := fs; rr_printed := []; rr_reporters := reps' |}
      end
  end.
End WithStrip.

(* ---- what of the native runners' output gets to the terminal ---- *)

(* workers.rs:65-67 *)
Definition has_stdout_reporters (kinds : list reporter_kind) (num_runners : nat) : bool := existsb (outputs_to_stdout num_runners) kinds.
(* abq_workers/src/workers.rs:165 and 176, net_protocol.rs:153-155; abq_workers/src/workers.rs:471-472: the output is passed on
   while the processes run *)
Definition pipes_to_parent (kinds : list reporter_kind) (num_runners : nat) : bool :=
  Nat.eqb num_runners 1 && negb (has_stdout_reporters kinds num_runners).

(* what is written to the terminal: passed on while the runner runs (of the process that
   lists the tests, and of those that run them), or printed at the end *)
Inductive piece :=
| LiveManifest (runner : nat) (o : PoolModel.text)
| Live (runner : nat) (o : PoolModel.text)
| EndManifest (o : PoolModel.text)
| EndOutput (runner : nat) (o : PoolModel.text).

(* abq_utils/src/whitespace.rs:1-13 *)
Definition blank_bytes (o : PoolModel.text) : bool := TermModel.is_blank (map N.of_nat o).

(* capture_output/capture_pipes.rs:45-53, muxer.rs:36-54: what a runner's processes write is passed on as
   it is, if at all; of a runner that fails it is the output that its error carries *)
Definition live {info} (pipes : bool) (id : nat) (r : PoolModel.runner_exit info) : list piece :=
  if negb pipes then []
  else match r with
       | PoolModel.ROk _ manifest _ process _ =>
           match manifest with Some o => [LiveManifest id o] | None => [] end ++ [Live id process]
       | PoolModel.RErr _ output _ => [Live id (PoolModel.combined output)]
       end.
Fixpoint lives {info} (pipes : bool) (id : nat) (rs : list (PoolModel.runner_exit info)) : list piece :=
  match rs with [] => [] | r :: t => live pipes id r ++ lives pipes (S id) t end.

(* workers.rs:249-266 (print_manifest_generation_output) *)
Definition end_manifest (o : option (nat * PoolModel.text)) : list piece :=
  match o with Some (_, o) => if blank_bytes o then [] else [EndManifest o] | None => [] end.
(* workers.rs:159-168 *)
Definition end_outputs (pipes : bool) (os : list (nat * PoolModel.text)) : list piece :=
  flat_map (fun e => if pipes || match snd e with [] => true | _ => false end then [] else [EndOutput (fst e) (snd e)]) os.

(* workers.rs:132-168 *)
Definition terminal {info} (kinds : list reporter_kind) (rs : list (PoolModel.runner_exit info)) : list piece :=
  let pipes := pipes_to_parent kinds (length rs) in
  let x := PoolModel.shutdown rs in
  lives pipes 1 rs ++ end_manifest (PoolModel.x_manifest_output x) ++ end_outputs pipes (PoolModel.x_process x).
