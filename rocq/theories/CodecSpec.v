(* What is said by a native runner and what is understood: the vocabulary of C74. *)
From Verif Require Import Base JsonModel JsonProofs JsonlModel RunStateModel CodecModel.
From Coq Require Import String.

(* The statuses of the protocol and those of ABQ. *)
Inductive means : v2_status -> status -> Prop :=
| means_failure t : means (VFailure t) (Failure t)
| means_error t : means (VError t) (Error t)
| means_success : means VSuccess Success
| means_pending : means VPending Pending
| means_skipped : means VSkipped Skipped
| means_todo : means VTodo Todo
| means_timed_out : means VTimedOut TimedOut.

Record same_fields (v : v2_core) (k : core) : Prop := {
  same_status : means (v_status v) (k_status k);
  same_id : k_id k = v_id v;
  same_name : k_display_name k = v_display_name v;
  same_output : k_output k = v_output v;
  same_runtime : k_runtime k = Nanoseconds (v_runtime v);
  same_meta : k_meta k = v_meta v;
  same_location : k_location k = v_location v;
  same_start : k_started k = v_started v;
  same_finish : k_finished k = v_finished v;
  same_lineage : k_lineage k = v_lineage v }.

(* [says now out r k]: [k] is the result [r] that was read at [now], with the output [out] beside it;
   its earlier attempts are those of [r], in order. *)
Inductive says (now : N) : option (list N * list N) -> v2_result -> result_spec -> Prop :=
| says_alone out v k errors : same_fields v k ->
    says now out (Res v None errors)
      (Res k None {| k_errors := errors; k_stderr := option_map fst out; k_stdout := option_map snd out; k_timestamp := now |})
| says_after out v k errors past past' : same_fields v k -> Forall2 (says now None) past past' ->
    says now out (Res v (Some past) errors)
      (Res k (Some past') {| k_errors := errors; k_stderr := option_map fst out; k_stdout := option_map snd out; k_timestamp := now |}).

(* The messages with which a runner can answer for one unit of work, with the results in them and the
   message that each is in. *)
Definition is (m : said) (x : result_message) : Prop := from_text c_result_message (s_text m) = Some x.
Inductive steps : list said -> list (v2_result * said) -> option (list N * list N) -> Prop :=
| step_last m more r : is m (IncrementalDone (Some r)) -> steps (m :: more) [(r, m)] None
| step_end m more : is m (IncrementalDone None) -> steps (m :: more) [] (Some (s_captured m))
| step_next m more r l after : is m (IncrementalOne r) -> steps more l after -> steps (m :: more) ((r, m) :: l) after.
Inductive answers : list said -> list (v2_result * said) -> option (list N * list N) -> Prop :=
| answer_single m more r : is m (Single r) -> answers (m :: more) [(r, m)] None
| answer_multiple m more rs : is m (Multiple rs) -> answers (m :: more) (map (fun r => (r, m)) rs) None
| answer_steps words l after : steps words l after -> answers words l after.

(* The members of a result in the protocol. *)
Definition result_fields : list string :=
  ["status"; "id"; "display_name"; "output"; "runtime"; "meta"; "location"; "started_at"; "finished_at"; "lineage";
   "past_attempts"; "other_errors"]%string.

(* Values that the types of the code have. *)
Definition octets (l : list N) : Prop := Forall (fun b => (b < 256)%N) l.
Definition a_uuid (l : list N) : Prop := octets l /\ List.length l = 16.
Definition a_source (s : runner_meta) : Prop := (fst (rm_runner s) < 2 ^ 32)%N /\ (snd (rm_runner s) < 2 ^ 32)%N.
Definition a_pair (o : list N * list N) : Prop := octets (fst o) /\ octets (snd o).
Definition a_message (m : said) : Prop := (s_now m < 2 ^ 128)%N /\ a_pair (s_captured m).
Definition an_entity (e : list N * tag) : Prop :=
  a_uuid (fst e) /\ match snd e with Runner r => (fst r < 2 ^ 32)%N /\ (snd r < 2 ^ 32)%N | _ => True end.
Definition shallow (d : nat) (m : said) : Prop := forall j, read_json (s_text m) = Some j -> nesting j <= d.

(* A line of the results file: results that a request brought, or a summary. *)
Definition brought (x : results_line) : Prop :=
  exists request entity run rs, from_text c_request request = Some (entity, (run, rs)) /\ x = Results rs.

(* [heard d a]: results that a worker takes from messages of a runner nested at most [d] deep. *)
Definition heard (d : nat) (a : associated) : Prop :=
  exists source work n before words,
    wait_for_results source work n before words = Some a /\
    a_source source /\ a_uuid work /\ (n < 2 ^ 32)%N /\ a_pair before /\ Forall a_message words /\ Forall (shallow d) words.
