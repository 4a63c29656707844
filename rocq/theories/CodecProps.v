(* Property theorems about the words of a native runner and what is made of them (C74). *)
From Verif Require Import Base JsonModel JsonProofs JsonlModel RunStateModel StoreProps CodecModel CodecSpec CodecProofs.
From Coq Require Import String Permutation Sorted.

(* A worker takes an answer exactly when the messages are one, and then it has the results that the
   runner told, in order, each with all its fields, its earlier attempts and the output beside it. *)
Theorem C74_worker_understands source work n before words a :
  wait_for_results source work n before words = Some a <->
  exists told, answers words told (a_after a) /\
    a_work_id a = work /\ a_run_number a = n /\ a_before a = before /\
    Forall2 (fun '(r, m) t => fst t = source /\ says (s_now m) (Some (s_captured m)) r (snd t)) told (a_results a).
Proof.
  split.
  - intro H. destruct (wait_sound _ _ _ _ _ _ H) as (l & after & A & ->). exists l. cbn [a_after a_work_id a_run_number a_before a_results].
    split; [exact A|]. split; [reflexivity|]. split; [reflexivity|]. split; [reflexivity|].
    clear. induction l as [|(r, m) l IH]; constructor; [|exact IH]. split; [reflexivity|]. apply normal_says.
  - intros (l & A & <- & <- & <- & F). rewrite (wait_complete _ _ _ _ _ _ _ A). destruct a as [w k rs b after]. cbn in *. do 2 f_equal.
    clear -F. induction F as [|(r, m) (s, t) l rs (F1 & F2) _ IH]; [reflexivity|]. cbn [map]. f_equal; [|exact IH].
    cbn in F1, F2. rewrite F1, (says_only _ _ _ _ F2). reflexivity.
Qed.

(* Every message of the protocol that is nested less than 128 deep is read as it was meant. *)
Theorem C74_protocol_messages_are_read m : c_ok c_result_message m -> nesting (c_enc c_result_message m) < 128 ->
  from_text c_result_message (to_text c_result_message m) = Some m.
Proof. intros H N. apply text_round; [apply lawful_result_message|exact H|exact N]. Qed.

(* A runner may order the members of a result as it likes, and add others. *)
Theorem C74_order_and_other_members ms others ms' :
  (forall k v, In (k, v) others -> forall f, In f result_fields -> k <> text f) -> Permutation (ms ++ others) ms' ->
  c_dec c_v2_result (JObj ms') = c_dec c_v2_result (JObj ms).
Proof.
  intros O P. apply v2_result_fields. intros f F. rewrite <- (find_permutation f _ _ P). apply find_extra.
  intros k v I'. apply (O k v I' f F).
Qed.

(* What a worker makes of messages nested at most 120 deep, the queue reads as the worker sent it. *)
Theorem C74_queue_reads_what_was_sent_partial entity run l : an_entity entity -> Forall (heard 120) l ->
  from_text c_request (to_text c_request (entity, (run, l))) = Some (entity, (run, l)).
Proof.
  intros E H. destruct (heard_request entity run l E H) as (O & N). apply text_round; [apply lawful_request|exact O|exact N].
Qed.

(* Results that the queue could read, and summaries, are read back from the results file as they
   are. *)
Theorem C74_results_file ls : Forall (fun x => brought x \/ exists s, x = Summary s /\ c_ok c_summary s) ls ->
  exists raw, read_results_lines (flat_map (packed_line (c_enc c_results_line)) ls) = Some raw /\
              decode (c_dec c_results_line) raw = Some ls.
Proof.
  intro H. apply C20_round_trip. eapply Forall_impl; [|exact H]. clear. intros x H.
  assert (X : c_ok c_results_line x /\ nesting (c_enc c_results_line x) < 128).
  { destruct H as [(request & e & run & rs & R & ->)|(s & -> & S1)].
    - destruct (text_sound _ _ _ lawful_request R) as (j & _ & OK & N1 & N2). split.
      + apply OK.
      + pose proof (line_deep e run rs). lia.
    - split; [exact S1|]. pose proof (summary_deep s). lia. }
  destruct X as (OK & N). destruct (written _ lawful_results_line x OK) as (W1 & W2 & _). split; [exact W1|]. split; [exact N|exact W2].
Qed.

(* From end to end: what runners tell in messages nested at most 120 deep is what a reader of the
   results file gets. *)
Theorem C74_from_runner_to_reader_partial requests : Forall (fun '(entity, _, l) => an_entity entity /\ Forall (heard 120) l) requests ->
  exists stored raw,
    Forall2 (fun '(entity, run, l) x => from_text c_request (to_text c_request (entity, (run, l))) = Some (entity, (run, x))) requests stored /\
    read_results_lines (flat_map (packed_line (c_enc c_results_line)) (map Results stored)) = Some raw /\
    decode (c_dec c_results_line) raw = Some (map (fun '(_, _, l) => Results l) requests).
Proof.
  intro H. exists (map (fun '(_, _, l) => l) requests).
  assert (B : Forall (fun x => brought x \/ exists s, x = Summary s /\ c_ok c_summary s) (map Results (map (fun '(_, _, l) => l) requests))).
  { rewrite map_map. apply Forall_forall. intros x X. apply in_map_iff in X. destruct X as (((e, run), l) & <- & R). left.
    rewrite Forall_forall in H. destruct (H _ R) as (H1 & H2). exists (to_text c_request (e, (run, l))), e, run, l.
    split; [apply C74_queue_reads_what_was_sent_partial; assumption|reflexivity]. }
  destruct (C74_results_file _ B) as (raw & R1 & R2). exists raw. split; [|split; [exact R1|]].
  - induction H as [|((e, run), l) requests (H1 & H2) H3 IH]; [constructor|]. cbn [map] in *. constructor.
    + apply C74_queue_reads_what_was_sent_partial; assumption.
    + clear IH. rename H3 into F. clear -F. induction F as [|((e, run), l) requests (H1 & H2) _ IH]; [constructor|].
      cbn [map]. constructor; [apply C74_queue_reads_what_was_sent_partial; assumption|exact IH].
  - rewrite R2. f_equal. rewrite map_map. apply map_ext. intros ((e, run), l). reflexivity.
Qed.

(* ---- examples ---- *)

(* Messages as a runner writes them. *)
Definition first_words : bytes := text
  "{""type"":""incremental_result"",""one_test_result"":{""id"":""a"",""display_name"":""A"",""runtime"":12,""status"":{""type"":""failure"",""exception"":""E""},""meta"":{""k"":[1,{""z"":null}]},""unknown"":0}}".
Definition last_words : bytes := text
  "{""last_test_result"":{""status"":{""type"":""success""},""id"":""b"",""display_name"":""B"",""output"":""ok"",""runtime"":7,""meta"":{},""past_attempts"":[{""status"":{""type"":""timed_out""},""id"":""b"",""display_name"":""B"",""runtime"":99,""meta"":{}}]},""type"":""incremental_result_done""}".
Definition the_source : runner_meta := {| rm_runner := (1, 2)%N; rm_singleton := false; rm_stdout_reporters := true |}.
Definition the_uuid : list N := repeat 7%N 16.
Definition the_words : list said :=
  [{| s_text := first_words; s_now := 1000; s_captured := ([1; 2], [3]) |}; {| s_text := last_words; s_now := 2000; s_captured := ([], [255]) |}]%N.
Definition answer : option associated := wait_for_results the_source the_uuid 1 ([], [])%N the_words.

Example the_answer : option_map (fun a => (List.map (fun t => match snd t with Res k past e => (k_id k, k_status k, List.length (match past with Some l => l | None => [] end), k_stdout e, k_timestamp e) end) (a_results a), a_after a)) answer =
  Some ([(text "a", Failure {| tr_exception := Some (text "E"); tr_backtrace := None |}, 0, Some [3]%N, 1000%N);
         (text "b", Success, 1, Some [255]%N, 2000%N)], None).
Proof. vm_compute. reflexivity. Qed.

(* [shallow], by computation *)
Definition nested_at_most (d : nat) (b : bytes) : bool := match read_json b with Some j => Nat.leb (nesting j) d | None => true end.
Lemma shallow_computed d m : nested_at_most d (s_text m) = true -> shallow d m.
Proof.
  unfold shallow, nested_at_most. generalize (read_json (s_text m)). intros o H j J. rewrite J in H. apply PeanoNat.Nat.leb_le, H.
Qed.

Lemma example_valid : a_source the_source /\ a_uuid the_uuid /\ a_pair ([], [])%N /\ Forall a_message the_words.
Proof.
  split; [split; reflexivity|]. split; [split; [repeat constructor|reflexivity]|]. split; [split; constructor|].
  repeat constructor.
Qed.

Example the_answer_is_heard : exists a, answer = Some a /\ heard 120 a.
Proof.
  destruct example_valid as (V1 & V2 & V3 & V4). unfold answer.
  assert (E : exists a, wait_for_results the_source the_uuid 1 ([], [])%N the_words = Some a).
  { vm_compute. eexists. reflexivity. }
  destruct E as (a & E). exists a. split; [exact E|]. exists the_source, the_uuid, 1%N, ([], [])%N, the_words.
  split; [exact E|]. split; [exact V1|]. split; [exact V2|]. split; [reflexivity|]. split; [exact V3|]. split; [exact V4|].
  constructor; [|constructor; [|constructor]]; apply shallow_computed; vm_compute; reflexivity.
Qed.

(* Its way through the queue and the file, computed. *)
Example the_answer_is_read_back :
  match answer with
  | Some a =>
      match from_text c_request (to_text c_request ((the_uuid, Runner (1, 2)%N), (text "run", [a]))) with
      | Some (_, (_, l)) => match read_results_lines (packed_line (c_enc c_results_line) (Results l)) with
                            | Some raw => decode (c_dec c_results_line) raw = Some [Results [a]]
                            | None => False
                            end
      | None => False
      end
  | None => False
  end.
Proof. vm_compute. reflexivity. Qed.

(* A member given twice, or a missing one, is refused. *)
Example twice_is_refused :
  from_text c_result_message (text "{""test_result"":{""id"":""a"",""id"":""b"",""display_name"":""A"",""runtime"":1,""status"":{""type"":""todo""},""meta"":{}}}") = None /\
  from_text c_result_message (text "{""test_result"":{""display_name"":""A"",""runtime"":1,""status"":{""type"":""todo""},""meta"":{}}}") = None /\
  from_text c_result_message (text "{""test_result"":{""id"":""a"",""display_name"":""A"",""runtime"":1,""status"":{""type"":""todo""},""meta"":{}}}") <> None.
Proof. vm_compute. split; [reflexivity|]. split; [reflexivity|discriminate]. Qed.

(* In metadata, keys are put in order and of members with equal keys the last stays, at every depth. *)
Theorem C74_metadata_keys l : exists m, c_dec c_meta (JObj l) = Some m /\ canon (JObj l) = JObj m /\
  StronglySorted (fun x y => bytes_ltb (fst x) (fst y) = true) m /\
  forall k v, In (k, v) m <-> exists a v0 b, l = a ++ (k, v0) :: b /\ ~ In k (map fst b) /\ v = canon v0.
Proof.
  eexists. split; [unfold c_meta; cbn [c_dec]; rewrite canon_obj; reflexivity|]. split; [apply canon_obj|].
  split; [apply merge_sorted; constructor|]. intros k v. rewrite merge_exact. split.
  - intros (a & b & E & N). apply map_eq_app in E. destruct E as (a0 & r & -> & <- & E).
    destruct r as [|(k0, v0) b0]; [discriminate|]. cbn in E. injection E as -> <- <-. exists a0, v0, b0.
    split; [reflexivity|]. split; [|reflexivity]. rewrite map_map in N. cbn in N. exact N.
  - intros (a & v0 & b & -> & N & ->). rewrite map_app. cbn [map fst snd].
    eexists _, _. split; [reflexivity|]. rewrite map_map. cbn. exact N.
Qed.
Example metadata_keys : c_dec c_meta (JObj [(text "b", JNum (text "1")); (text "a", JNull); (text "b", JNum (text "2"))]) =
  Some [(text "a", JNull); (text "b", JNum (text "2"))].
Proof. vm_compute. reflexivity. Qed.

(* ---- the bound is needed ---- *)

(* A failure with a failure as earlier attempt, and so on, 60 results in all. *)
Definition plain_core (id : bytes) : v2_core :=
  {| v_status := VFailure {| tr_exception := None; tr_backtrace := None |}; v_id := id; v_display_name := id; v_output := None; v_runtime := 1;
     v_meta := []; v_location := None; v_started := None; v_finished := None; v_lineage := None |}.
Definition deep_result : v2_result :=
  Nat.iter 59 (fun r => Res (plain_core (text "t")) (Some [r]) None) (Res (plain_core (text "t")) None None).
Definition deep_words : list said := [{| s_text := to_text c_result_message (Single deep_result); s_now := 0; s_captured := ([], []) |}].
Definition deep_answer : option associated := wait_for_results the_source the_uuid 1 ([], [])%N deep_words.

(* One level more, and a result that a worker takes cannot be read by the queue. *)
Theorem C74_queue_reads_what_was_sent_refuted : exists entity run l, an_entity entity /\ Forall (heard 121) l /\
  from_text c_request (to_text c_request (entity, (run, l))) = None.
Proof.
  destruct example_valid as (V1 & V2 & V3 & _).
  assert (E : exists a, deep_answer = Some a).
  { unfold deep_answer. vm_compute. eexists. reflexivity. }
  destruct E as (a & E). exists (the_uuid, LocalClient), (text "run"), [a]. split; [split; [exact V2|exact I]|]. split.
  - constructor; [|constructor]. exists the_source, the_uuid, 1%N, ([], [])%N, deep_words.
    split; [exact E|]. split; [exact V1|]. split; [exact V2|]. split; [reflexivity|]. split; [exact V3|].
    split; [repeat constructor|]. constructor; [|constructor]. apply shallow_computed. vm_compute. reflexivity.
  - assert (D : match deep_answer with Some a => from_text c_request (to_text c_request ((the_uuid, LocalClient), (text "run", [a]))) | None => None end = None)
      by (vm_compute; reflexivity).
    rewrite E in D. exact D.
Qed.

Print Assumptions C74_worker_understands.
Print Assumptions C74_protocol_messages_are_read.
Print Assumptions C74_order_and_other_members.
Print Assumptions C74_metadata_keys.
Print Assumptions C74_queue_reads_what_was_sent_partial.
Print Assumptions C74_results_file.
Print Assumptions C74_from_runner_to_reader_partial.
Print Assumptions C74_queue_reads_what_was_sent_refuted.
