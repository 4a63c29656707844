(* Model of the RWX JSON report as a file: crates/reporters/rwx_v1_json/src/lib.rs, from the results
   that a worker's or `abq report`'s reporters are given (CodecModel: test_result) to the bytes
   written, crates/abq_cli/src/reporting.rs:219-238.  RwxModel has the same functions on opaque
   values; here they are on the real ones, with the JSON forms of the report.

   Parameters: [lossy], String::from_utf8_lossy; [millis], the nanoseconds of an f64 of milliseconds,
   `(runtime * 1000000.0).round() as u64`.  Simplifications: the status `quarantined` is never made by
   the code and has no JSON form here; counters (u64) do not overflow: theorems ask for fewer than
   2^64 tests and errors; debug_assert!(false) of lib.rs:528 is nothing, as in release builds. *)
From Verif Require Import Base JsonModel JsonlModel RunStateModel CodecModel.
From Coq Require Import String NArith.
Local Open Scope list_scope.

(* ---- the JSON forms ---- *)

(* lib.rs:17-27 *)
Record framework := { fw_kind : bytes; fw_language : bytes; fw_provided_kind : option bytes; fw_provided_language : option bytes }.
Definition p_framework : part framework :=
  as_record (fun '(k, (l, (pk, pl))) => {| fw_kind := k; fw_language := l; fw_provided_kind := pk; fw_provided_language := pl |})
    (fun x => (fw_kind x, (fw_language x, (fw_provided_kind x, fw_provided_language x))))
    (req "kind" c_str +++ req "language" c_str +++ opt "providedKind" c_str +++ opt "providedLanguage" c_str).
Definition c_framework : codec framework := c_struct p_framework.

(* #[serde(tag = "kind")]: the tag and the fields of the variant *)
Definition kinded (name : string) (l : list slot) : json := obj (("kind"%string, Some (JStr (text name))) :: l).

(* lib.rs:63-74 *)
Inductive summary_status := SCanceled | SFailed | SSuccessful | STimedOut.
Definition summary_status_name (s : summary_status) : string :=
  match s with SCanceled => "canceled" | SFailed => "failed" | SSuccessful => "successful" | STimedOut => "timed_out" end.
Definition c_summary_status : codec summary_status :=
  {| c_enc := fun s => kinded (summary_status_name s) [];
     c_dec := fun j =>
       match j with
       | JObj ms =>
           match find_field "kind" ms with
           | One (JStr n) =>
               if bytes_eqb n (text "canceled") then Some SCanceled
               else if bytes_eqb n (text "failed") then Some SFailed
               else if bytes_eqb n (text "successful") then Some SSuccessful
               else if bytes_eqb n (text "timed_out") then Some STimedOut
               else None
           | _ => None
           end
       | _ => None
       end;
     c_ok := fun _ => True |}.

(* lib.rs:78-95 *)
Record summary := { su_status : summary_status; su_tests : N; su_other_errors : N; su_retries : N; su_canceled : N; su_failed : N;
                    su_pended : N; su_quarantined : N; su_skipped : N; su_successful : N; su_timed_out : N; su_todo : N }.
Definition p_summary : part summary :=
  as_record
    (fun '(st, (te, (ot, (re, (ca, (fa, (pe, (qu, (sk, (su, (ti, to_))))))))))) =>
       {| su_status := st; su_tests := te; su_other_errors := ot; su_retries := re; su_canceled := ca; su_failed := fa; su_pended := pe;
          su_quarantined := qu; su_skipped := sk; su_successful := su; su_timed_out := ti; su_todo := to_ |})
    (fun x => (su_status x, (su_tests x, (su_other_errors x, (su_retries x, (su_canceled x, (su_failed x, (su_pended x,
               (su_quarantined x, (su_skipped x, (su_successful x, (su_timed_out x, su_todo x))))))))))))
    (req "status" c_summary_status +++ req "tests" u64 +++ req "otherErrors" u64 +++ req "retries" u64 +++ req "canceled" u64 +++
     req "failed" u64 +++ req "pended" u64 +++ req "quarantined" u64 +++ req "skipped" u64 +++ req "successful" u64 +++
     req "timedOut" u64 +++ req "todo" u64).
Definition c_report_summary : codec summary := c_struct p_summary.

(* lib.rs:166-173 *)
Definition p_report_location : part location :=
  as_record (fun '(f, (l, c)) => {| l_file := f; l_line := l; l_column := c |}) (fun x => (l_file x, (l_line x, l_column x)))
    (req "file" c_str +++ opt "line" u64 +++ opt "column" u64).
Definition c_report_location : codec location := c_struct p_report_location.

(* lib.rs:185-224, without Quarantined *)
Inductive attempt_status :=
| ACanceled | AFailed (exception message : option bytes) (backtrace : option (list bytes)) | APended (message : option bytes)
| ASkipped (message : option bytes) | ASuccessful | ATimedOut | ATodo (message : option bytes).
Definition p_failed : part (option bytes * (option bytes * option (list bytes))) :=
  opt "exception" c_str +++ opt "message" c_str +++ opt "backtrace" (c_vec c_str).
Definition p_message : part (option bytes) := opt "message" c_str.
Definition c_attempt_status : codec attempt_status :=
  {| c_enc := fun s =>
       match s with
       | ACanceled => kinded "canceled" []
       | AFailed e m b => kinded "failed" (p_slots p_failed (e, (m, b)))
       | APended m => kinded "pended" (p_slots p_message m)
       | ASkipped m => kinded "skipped" (p_slots p_message m)
       | ASuccessful => kinded "successful" []
       | ATimedOut => kinded "timedOut" []
       | ATodo m => kinded "todo" (p_slots p_message m)
       end;
     c_dec := fun j =>
       match j with
       | JObj ms =>
           match find_field "kind" ms with
           | One (JStr n) =>
               if bytes_eqb n (text "canceled") then Some ACanceled
               else if bytes_eqb n (text "failed") then option_map (fun '(e, (m, b)) => AFailed e m b) (p_dec p_failed ms)
               else if bytes_eqb n (text "pended") then option_map APended (p_dec p_message ms)
               else if bytes_eqb n (text "skipped") then option_map ASkipped (p_dec p_message ms)
               else if bytes_eqb n (text "successful") then Some ASuccessful
               else if bytes_eqb n (text "timedOut") then Some ATimedOut
               else if bytes_eqb n (text "todo") then option_map ATodo (p_dec p_message ms)
               else None
           | _ => None
           end
       | _ => None
       end;
     c_ok := fun _ => True |}.

(* lib.rs:228-245 *)
Record attempt := { at_duration : N; at_meta : option metadata; at_status : attempt_status; at_stderr : option bytes;
                    at_stdout : option bytes; at_started : option bytes; at_finished : option bytes }.
Definition p_attempt : part attempt :=
  as_record
    (fun '(d, (m, (s, (e, (o, (st, fi)))))) =>
       {| at_duration := d; at_meta := m; at_status := s; at_stderr := e; at_stdout := o; at_started := st; at_finished := fi |})
    (fun x => (at_duration x, (at_meta x, (at_status x, (at_stderr x, (at_stdout x, (at_started x, at_finished x)))))))
    (req "durationInNanoseconds" u64 +++ opt "meta" c_meta +++ req "status" c_attempt_status +++ opt "stderr" c_str +++
     opt "stdout" c_str +++ opt "startedAt" c_str +++ opt "finishedAt" c_str).
Definition c_attempt : codec attempt := c_struct p_attempt.

(* lib.rs:375-388 *)
Record test := { te_id : option bytes; te_name : bytes; te_lineage : option (list bytes); te_location : option location;
                 te_attempt : attempt; te_past : option (list attempt) }.
Definition p_test : part test :=
  as_record
    (fun '(i, (n, (li, (lo, (a, p))))) =>
       {| te_id := i; te_name := n; te_lineage := li; te_location := lo; te_attempt := a; te_past := p |})
    (fun x => (te_id x, (te_name x, (te_lineage x, (te_location x, (te_attempt x, te_past x))))))
    (opt "id" c_str +++ req "name" c_str +++ opt "lineage" (c_vec c_str) +++ opt "location" c_report_location +++
     req "attempt" c_attempt +++ opt "pastAttempts" (c_vec c_attempt)).
Definition c_test : codec test := c_struct p_test.

(* lib.rs:436-447 *)
Record other_error := { er_location : option location; er_meta : option metadata; er_exception : option bytes; er_message : bytes;
                        er_backtrace : option (list bytes) }.
Definition p_other_error : part other_error :=
  as_record
    (fun '(l, (m, (e, (s, b)))) => {| er_location := l; er_meta := m; er_exception := e; er_message := s; er_backtrace := b |})
    (fun x => (er_location x, (er_meta x, (er_exception x, (er_message x, er_backtrace x)))))
    (opt "location" c_report_location +++ opt "meta" c_meta +++ opt "exception" c_str +++ req "message" c_str +++
     opt "backtrace" (c_vec c_str)).
Definition c_other_error : codec other_error := c_struct p_other_error.
(* lib.rs:449-459 *)
Definition from_message (m : bytes) : other_error :=
  {| er_location := None; er_meta := None; er_exception := None; er_message := m; er_backtrace := None |}.

(* lib.rs:464-474 *)
Record document := { d_schema : bytes; d_framework : framework; d_summary : summary; d_tests : list test; d_errors : list other_error }.
Definition p_document : part document :=
  as_record
    (fun '(s, (f, (u, (t, e)))) => {| d_schema := s; d_framework := f; d_summary := u; d_tests := t; d_errors := e |})
    (fun x => (d_schema x, (d_framework x, (d_summary x, (d_tests x, d_errors x)))))
    (req "$schema" c_str +++ req "framework" c_framework +++ req "summary" c_report_summary +++ req "tests" (c_vec c_test) +++
     req "otherErrors" (c_vec c_other_error)).
Definition c_document : codec document := c_struct p_document.

(* ---- collecting ---- *)

(* lib.rs:39-61; of the specification of a native runner (runners/v0_2.rs) the language and the framework *)
Definition framework_of (language test_framework : bytes) : framework :=
  if bytes_eqb language (text "ruby") && bytes_eqb test_framework (text "rspec") then
    {| fw_kind := text "RSpec"; fw_language := text "Ruby"; fw_provided_kind := None; fw_provided_language := None |}
  else if bytes_eqb language (text "javascript") && bytes_eqb test_framework (text "jest") then
    {| fw_kind := text "Jest"; fw_language := text "JavaScript"; fw_provided_kind := None; fw_provided_language := None |}
  else
    {| fw_kind := text "other"; fw_language := text "other"; fw_provided_kind := Some test_framework; fw_provided_language := Some language |}.
(* lib.rs:29-37 *)
Definition framework_other : framework :=
  {| fw_kind := text "other"; fw_language := text "other"; fw_provided_kind := None; fw_provided_language := None |}.

Section Report.
Context (lossy : list N -> bytes) (millis : bytes -> N).

(* lib.rs:247-256 *)
Inductive opt_attempt := Synthetic (error_message : bytes) | AnAttempt (a : attempt) (past : option (list attempt)) (errors : list bytes).

Definition opt_list {A} (o : option (list A)) : list A := match o with Some l => l | None => [] end.

(* lib.rs:274-305 *)
Definition conv_status (s : status) (output : option bytes) : attempt_status + bytes :=
  match s with
  | Success => inl ASuccessful
  | Failure t | Error t => inl (AFailed (tr_exception t) output (tr_backtrace t))
  | PrivateNativeRunnerError =>
      inr (match output with Some o => o | None => text "ABQ native runner error. No output was provided." end)
  | Pending => inl (APended output)
  | Skipped => inl (ASkipped output)
  | Todo => inl (ATodo output)
  | TimedOut => inl ATimedOut
  end.

(* lib.rs:307-310 *)
Definition conv_runtime (r : runtime) : N := match r with Milliseconds f => millis f | Nanoseconds n => n end.

(* lib.rs:319-329; a serde_json::Map keeps its keys in order *)
Definition with_source (runner : N * N) (m : metadata) : metadata :=
  insert_key (text "abq_metadata")
    (JObj (insert_key (text "runner") (JNum (nat_text (snd runner))) (insert_key (text "worker") (JNum (nat_text (fst runner))) []))) m.

(* lib.rs:354-362 *)
Definition this_attempt (runner : N * N) (s : attempt_status) (k : core) (r : rest) : attempt :=
  {| at_duration := conv_runtime (k_runtime k); at_meta := Some (with_source runner (k_meta k)); at_status := s;
     at_stderr := option_map lossy (k_stderr r); at_stdout := option_map lossy (k_stdout r);
     at_started := k_started k; at_finished := k_finished k |}.

(* lib.rs:258-371 (Attempt::from) *)
Fixpoint attempt_from (runner : N * N) (t : result_spec) : opt_attempt :=
  match t with
  | Res k past r =>
      match conv_status (k_status k) (k_output k) with
      | inr m => Synthetic m
      | inl s =>
          let go := (fix go (l : list result_spec) : list attempt * list bytes :=
            match l with
            | [] => ([], [])
            | x :: l' =>
                let '(atts, errs) := go l' in
                match attempt_from runner x with
                | Synthetic m => (atts, m :: errs)
                | AnAttempt a p e => (a :: opt_list p ++ atts, e ++ errs)
                end
            end) in
          match past with
          | None => AnAttempt (this_attempt runner s k r) None []
          | Some l => let '(atts, errs) := go l in AnAttempt (this_attempt runner s k r) (Some atts) errs
          end
      end
  end.

(* lib.rs:476-480; a HashMap as an association list *)
Record collector := { c_tests : list (bytes * test); c_errors : list bytes }.
Definition collector_new : collector := {| c_tests := []; c_errors := [] |}.
Fixpoint bget (k : bytes) (l : list (bytes * test)) : option test :=
  match l with [] => None | (k', v) :: l' => if bytes_eqb k k' then Some v else bget k l' end.
Fixpoint bput (k : bytes) (v : test) (l : list (bytes * test)) : list (bytes * test) :=
  match l with [] => [(k, v)] | (k', v') :: l' => if bytes_eqb k k' then (k, v) :: l' else (k', v') :: bput k v l' end.

Definition core_of (t : result_spec) : core := let '(Res k _ _) := t in k.

(* lib.rs:501-509 *)
Definition outside (name : bytes) (message : option bytes) : bytes :=
  text "'" ++ name ++ text "': " ++ match message with Some m => m | None => text "failed outside the test suite" end.

(* lib.rs:483-554 (push_result), with TestSketch::from (403-434) *)
Definition push_result (c : collector) (r : test_result) : collector :=
  let k := core_of (snd r) in
  let id := k_id k in
  match bget id (c_tests c) with
  | None =>
      match attempt_from (rm_runner (fst r)) (snd r) with
      | Synthetic m => {| c_tests := c_tests c; c_errors := c_errors c ++ [m] |}
      | AnAttempt a past errs =>
          let t := {| te_id := Some id; te_name := k_display_name k; te_lineage := k_lineage k; te_location := k_location k;
                      te_attempt := a; te_past := past |} in
          match te_location t, at_status a with
          | None, AFailed _ message _ =>
              {| c_tests := c_tests c; c_errors := c_errors c ++ errs ++ [outside (te_name t) message] |}
          | _, _ => {| c_tests := bput id t (c_tests c); c_errors := c_errors c ++ errs |}
          end
      end
  | Some t =>
      match attempt_from (rm_runner (fst r)) (snd r) with
      | Synthetic m => {| c_tests := c_tests c; c_errors := c_errors c ++ [m] |}
      | AnAttempt a past errs =>
          let t' := {| te_id := te_id t; te_name := te_name t; te_lineage := te_lineage t; te_location := te_location t;
                       te_attempt := a; te_past := Some (opt_list (te_past t) ++ [te_attempt t] ++ opt_list past) |} in
          {| c_tests := bput id t' (c_tests c); c_errors := c_errors c ++ errs |}
      end
  end.

(* lib.rs:97-114 *)
Definition summary_new : summary :=
  {| su_status := SSuccessful; su_tests := 0; su_other_errors := 0; su_retries := 0; su_canceled := 0; su_failed := 0; su_pended := 0;
     su_quarantined := 0; su_skipped := 0; su_successful := 0; su_timed_out := 0; su_todo := 0 |}.

(* lib.rs:117-157 *)
Definition account (s : summary) (t : test) : summary :=
  let retries := match opt_list (te_past t) with [] => su_retries s | _ :: _ => N.succ (su_retries s) end in
  let mk st ca fa pe sk su ti to_ :=
    {| su_status := st; su_tests := N.succ (su_tests s); su_other_errors := su_other_errors s; su_retries := retries;
       su_canceled := ca; su_failed := fa; su_pended := pe; su_quarantined := su_quarantined s; su_skipped := sk;
       su_successful := su; su_timed_out := ti; su_todo := to_ |} in
  let ca := su_canceled s in let fa := su_failed s in let pe := su_pended s in
  let sk := su_skipped s in let su := su_successful s in let ti := su_timed_out s in let to_ := su_todo s in
  match at_status (te_attempt t) with
  | ACanceled => mk SFailed (N.succ ca) fa pe sk su ti to_
  | AFailed _ _ _ => mk SFailed ca (N.succ fa) pe sk su ti to_
  | APended _ => mk (su_status s) ca fa (N.succ pe) sk su ti to_
  | ASkipped _ => mk (su_status s) ca fa pe (N.succ sk) su ti to_
  | ASuccessful => mk (su_status s) ca fa pe sk (N.succ su) ti to_
  | ATimedOut => mk SFailed ca fa pe sk su (N.succ ti) to_
  | ATodo _ => mk (su_status s) ca fa pe sk su ti (N.succ to_)
  end.

(* lib.rs:159-164 *)
Definition account_errors (s : summary) (n : N) : summary :=
  {| su_status := if N.ltb 0 n then SFailed else su_status s; su_tests := su_tests s;
     su_other_errors := su_other_errors s + n; su_retries := su_retries s; su_canceled := su_canceled s;
     su_failed := su_failed s; su_pended := su_pended s; su_quarantined := su_quarantined s;
     su_skipped := su_skipped s; su_successful := su_successful s; su_timed_out := su_timed_out s; su_todo := su_todo s |}.

Definition schema : bytes := text "https://raw.githubusercontent.com/rwx-research/test-results-schema/main/v1.json".

(* lib.rs:574-608; [vals] are the values of the HashMap in the order of its iteration; of the
   specification, if there is one, the language and the framework *)
Definition test_results (vals : list test) (errors : list bytes) (spec : option (bytes * bytes)) : document :=
  {| d_schema := schema;
     d_framework := match spec with Some (l, f) => framework_of l f | None => framework_other end;
     d_summary := account_errors (fold_left account vals summary_new) (N.of_nat (List.length errors));
     d_tests := vals; d_errors := map from_message errors |}.

(* lib.rs:556-563 (write_json): the bytes written to the file, which was truncated before
   (reporting.rs:219-238); if writing fails the file has a beginning of them. *)
Definition report_bytes (vals : list test) (errors : list bytes) (spec : option (bytes * bytes)) : bytes :=
  to_text c_document (test_results vals errors spec).

(* [f] is what is written after the results were pushed. *)
Definition written_file (rs : list test_result) (spec : option (bytes * bytes)) (f : bytes) : Prop :=
  exists vals, let c := fold_left push_result rs collector_new in
    Permutation (map snd (c_tests c)) vals /\ f = report_bytes vals (c_errors c) spec.
End Report.
