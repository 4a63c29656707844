(* Model of the JSON report: crates/reporters/rwx_v1_json/src/lib.rs.
   Ids, names, locations and texts are opaque numbers; a result's runtime,
   timestamps, captured output and metadata are one opaque payload P that is
   carried over (the conversions to nanoseconds and to UTF-8 text, lib.rs:307-329,
   are left out, and so is the serialization).  debug_assert!(false) of lib.rs:528
   is as in release builds: nothing. *)
From Verif Require Import Base StatusModel ReportModel.

Section Rwx.
Context {P : Type}.

(* crates/abq_utils/src/net_protocol/runners.rs:656-740 (TestResultSpec): id,
   display name, location, status with its exception and backtrace, output, the
   rest, past attempts. *)
Inductive spec := Spec (id name : nat) (loc : option nat) (status : rstatus) (exc bt output : option nat)
                       (rest : P) (past : option (list spec)).
Definition sp_id (s : spec) := let '(Spec i _ _ _ _ _ _ _ _) := s in i.
Definition sp_name (s : spec) := let '(Spec _ n _ _ _ _ _ _ _) := s in n.
Definition sp_loc (s : spec) := let '(Spec _ _ l _ _ _ _ _ _) := s in l.
Definition sp_status (s : spec) := let '(Spec _ _ _ x _ _ _ _ _) := s in x.
Definition sp_exc (s : spec) := let '(Spec _ _ _ _ e _ _ _ _) := s in e.
Definition sp_bt (s : spec) := let '(Spec _ _ _ _ _ b _ _ _) := s in b.
Definition sp_output (s : spec) := let '(Spec _ _ _ _ _ _ o _ _) := s in o.
Definition sp_rest (s : spec) := let '(Spec _ _ _ _ _ _ _ r _) := s in r.
Definition sp_past (s : spec) := let '(Spec _ _ _ _ _ _ _ _ p) := s in p.

(* TestResult: a spec with the runner it comes from *)
Record tresult := { tr_src : nat * nat; tr_spec : spec }.

(* the texts of lib.rs:290-292 and 503-509 *)
Inductive message := MOutput (o : nat) | MNoOutput | MOutside (name : nat) (o : option nat).

(* lib.rs:188-224 *)
Inductive attempt_status :=
| ACanceled | AFailed (exc msg bt : option nat) | APended (msg : option nat) | ASkipped (msg : option nat)
| ASuccessful | ATimedOut | ATodo (msg : option nat) | AQuarantined (original : attempt_status).

(* lib.rs:229-245 *)
Record attempt := { at_status : attempt_status; at_rest : P; at_src : nat * nat }.

(* lib.rs:247-256 *)
Inductive opt_attempt :=
| OSynthetic (m : message)
| OAttempt (a : attempt) (past : option (list attempt)) (errs : list message).

Definition opt_list {A} (o : option (list A)) : list A := match o with Some l => l | None => [] end.

(* lib.rs:274-305 *)
Definition conv_status (s : rstatus) (exc bt output : option nat) : attempt_status + message :=
  match s with
  | Success => inl ASuccessful
  | Failure | Error => inl (AFailed exc output bt)
  | PrivateNativeRunnerError => inr (match output with Some o => MOutput o | None => MNoOutput end)
  | Pending => inl (APended output)
  | Skipped => inl (ASkipped output)
  | Todo => inl (ATodo output)
  | TimedOut => inl ATimedOut
  end.

(* lib.rs:258-372 (Attempt::from) *)
Fixpoint attempt_from (src : nat * nat) (s : spec) : opt_attempt :=
  match s with
  | Spec _ _ _ status exc bt output rest past =>
      match conv_status status exc bt output with
      | inr m => OSynthetic m
      | inl st =>
          let go := (fix go (l : list spec) : list attempt * list message :=
            match l with
            | [] => ([], [])
            | x :: t =>
                let '(atts, errs) := go t in
                match attempt_from src x with
                | OSynthetic m => (atts, m :: errs)
                | OAttempt a p e => (a :: opt_list p ++ atts, e ++ errs)
                end
            end) in
          let this := {| at_status := st; at_rest := rest; at_src := src |} in
          match past with
          | None => OAttempt this None []
          | Some l => let '(atts, errs) := go l in OAttempt this (Some atts) errs
          end
      end
  end.

(* lib.rs:376-388 *)
Record test := { te_id : nat; te_name : nat; te_loc : option nat; te_attempt : attempt; te_past : option (list attempt) }.

(* lib.rs:476-479; the HashMap is an association list *)
Record collector := { c_tests : list (nat * test); c_errors : list message }.
Definition cnew : collector := {| c_tests := []; c_errors := [] |}.

(* lib.rs:483-554 (push_result), with TestSketch::from (403-434) *)
Definition push_result (c : collector) (r : tresult) : collector :=
  let s := tr_spec r in
  match mget (sp_id s) (c_tests c) with
  | None =>
      match attempt_from (tr_src r) s with
      | OSynthetic m => {| c_tests := c_tests c; c_errors := c_errors c ++ [m] |}
      | OAttempt a past errs =>
          let t := {| te_id := sp_id s; te_name := sp_name s; te_loc := sp_loc s; te_attempt := a; te_past := past |} in
          let errors := c_errors c ++ errs in
          match te_loc t with
          | None =>
              match at_status (te_attempt t) with
              | AFailed _ msg _ => {| c_tests := c_tests c; c_errors := errors ++ [MOutside (te_name t) msg] |}
              | _ => {| c_tests := mput (sp_id s) t (c_tests c); c_errors := errors |}
              end
          | Some _ => {| c_tests := mput (sp_id s) t (c_tests c); c_errors := errors |}
          end
      end
  | Some t =>
      match attempt_from (tr_src r) s with
      | OSynthetic m => {| c_tests := c_tests c; c_errors := c_errors c ++ [m] |}
      | OAttempt a past errs =>
          let past' := opt_list (te_past t) ++ [te_attempt t] ++ opt_list past in
          let t' := {| te_id := te_id t; te_name := te_name t; te_loc := te_loc t; te_attempt := a; te_past := Some past' |} in
          {| c_tests := mput (sp_id s) t' (c_tests c); c_errors := c_errors c ++ errs |}
      end
  end.

(* lib.rs:66-95 *)
Inductive summary_status := SSFailed | SSSuccessful.
Record summary := { su_status : summary_status; su_tests : nat; su_other_errors : nat; su_retries : nat;
                    su_canceled : nat; su_failed : nat; su_pended : nat; su_quarantined : nat; su_skipped : nat;
                    su_successful : nat; su_timed_out : nat; su_todo : nat }.
(* lib.rs:97-114 *)
Definition summary0 : summary :=
  {| su_status := SSSuccessful; su_tests := 0; su_other_errors := 0; su_retries := 0; su_canceled := 0; su_failed := 0;
     su_pended := 0; su_quarantined := 0; su_skipped := 0; su_successful := 0; su_timed_out := 0; su_todo := 0 |}.

(* lib.rs:117-157 *)
Definition account (s : summary) (t : test) : summary :=
  let retries := if Nat.eqb (length (opt_list (te_past t))) 0 then su_retries s else S (su_retries s) in
  let mk st ca fa pe qu sk su ti to :=
    {| su_status := st; su_tests := S (su_tests s); su_other_errors := su_other_errors s; su_retries := retries;
       su_canceled := ca; su_failed := fa; su_pended := pe; su_quarantined := qu; su_skipped := sk;
       su_successful := su; su_timed_out := ti; su_todo := to |} in
  let ca := su_canceled s in let fa := su_failed s in let pe := su_pended s in let qu := su_quarantined s in
  let sk := su_skipped s in let su := su_successful s in let ti := su_timed_out s in let to := su_todo s in
  match at_status (te_attempt t) with
  | ACanceled => mk SSFailed (S ca) fa pe qu sk su ti to
  | AFailed _ _ _ => mk SSFailed ca (S fa) pe qu sk su ti to
  | APended _ => mk (su_status s) ca fa (S pe) qu sk su ti to
  | ASkipped _ => mk (su_status s) ca fa pe qu (S sk) su ti to
  | ASuccessful => mk (su_status s) ca fa pe qu sk (S su) ti to
  | ATimedOut => mk SSFailed ca fa pe qu sk su (S ti) to
  | ATodo _ => mk (su_status s) ca fa pe qu sk su ti (S to)
  | AQuarantined _ => mk (su_status s) ca fa pe (S qu) sk su ti to
  end.

(* lib.rs:159-164 *)
Definition account_errors (s : summary) (n : nat) : summary :=
  {| su_status := if Nat.ltb 0 n then SSFailed else su_status s; su_tests := su_tests s;
     su_other_errors := su_other_errors s + n; su_retries := su_retries s; su_canceled := su_canceled s;
     su_failed := su_failed s; su_pended := su_pended s; su_quarantined := su_quarantined s;
     su_skipped := su_skipped s; su_successful := su_successful s; su_timed_out := su_timed_out s; su_todo := su_todo s |}.

(* lib.rs:465-473, without schema and framework *)
Record report := { rp_summary : summary; rp_tests : list test; rp_errors : list message }.

(* lib.rs:574-608.  vals is the HashMap's values, in the (arbitrary) order of its
   iteration. *)
Definition test_results (vals : list test) (errors : list message) : report :=
  {| rp_summary := account_errors (fold_left account vals summary0) (length errors);
     rp_tests := vals; rp_errors := errors |}.

(* rep is a report of the collector after the results were pushed to it *)
Definition reports (rs : list tresult) (rep : report) : Prop :=
  exists vals, let c := fold_left push_result rs cnew in
    Permutation (map snd (c_tests c)) vals /\ rep = test_results vals (c_errors c).
End Rwx.
Arguments spec : clear implicits.
Arguments tresult : clear implicits.
Arguments attempt : clear implicits.
Arguments opt_attempt : clear implicits.
Arguments test : clear implicits.
Arguments collector : clear implicits.
Arguments report : clear implicits.
