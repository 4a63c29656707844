(* Property theorems about the manifest of a native runner and the tests that runners are given (C75). *)
From Verif Require Import Base JsonModel JsonProofs JsonlModel RunStateModel CodecModel CodecSpec CodecProofs FlattenModel FlattenProps ManifestCodecModel ManifestCodecSpec ManifestCodecProofs.
From Coq Require Import String Permutation.
Opaque read_json.

(* Every manifest message of the protocol that is nested less than 128 deep is read as it was meant. *)
Theorem C75_protocol_messages_are_read m : c_ok c_manifest_message m -> nesting (c_enc c_manifest_message m) < 128 ->
  arrives c_manifest_message m.
Proof. intros H N. apply text_round; [apply lawful_manifest_message|exact H|exact N]. Qed.

(* A runner may order the members of a test or group as it likes, and add others. *)
Theorem C75_order_and_other_members ms others ms' :
  (forall k v, In (k, v) others -> forall f, In f node_fields -> k <> text f) -> Permutation (ms ++ others) ms' ->
  c_dec c_node (JObj ms') = c_dec c_node (JObj ms).
Proof.
  intros O P. apply node_reads_fields. intros f F. rewrite <- (find_permutation f _ _ P). apply find_extra.
  intros k v I'. apply (O k v I' f F).
Qed.

(* A manifest that is read has the tests that the message tells, in its order, with their ids and
   metadata. *)
Theorem C75_manifests_are_understood b m es : from_text c_manifest_message b = Some (ManifestSuccess m es) ->
  (exists told init, message_tells b told init) /\
  forall told init, message_tells b told init ->
    Forall2 (fun '(id, meta) t => t_id t = id /\ same meta (JObj (t_meta t))) told (flat_map tests_of (m_members m)) /\
    same init (JObj (m_init_meta m)).
Proof.
  intro H. split; [eapply message_describes, H|]. intros told init T. destruct (message_told _ _ _ _ _ H T) as (F & E). split.
  - clear -F. induction F as [|(i, v) t told ts (F1 & F2) _ IH]; constructor; [|exact IH]. cbn [fst snd] in F1, F2.
    split; [exact F1|]. exact (eq_ind _ (same v) (canon_same v) _ F2).
  - exact (eq_ind _ (same init) (canon_same init) _ E).
Qed.

Lemma report_manifest failed version spec output b r : report failed version spec output b = Some (TheManifest r) ->
  exists m es, from_text c_manifest_message b = Some (ManifestSuccess m es) /\
    r = {| r_manifest := m; r_protocol := version; r_specification := spec |}.
Proof.
  unfold report. generalize (from_text c_manifest_message b). intros [[m es|e es]|] H; try discriminate.
  exists m, es. split; [reflexivity|]. congruence.
Qed.

Transparent u32 u64 u8.
Lemma entity_ok e : an_entity e -> c_ok c_entity e.
Proof. destruct e as (i, t). intros (H1 & H2). split; [exact H1|]. destruct t; exact H2. Qed.
Lemma version_ok v : a_version v -> c_ok c_version v.
Proof. intro H. exact H. Qed.
Lemma spec_ok s : c_ok c_specification s.
Proof. repeat split. Qed.
Lemma pair_ok o : a_pair o -> c_ok c_stdio o.
Proof. intro H. exact H. Qed.
Opaque u32 u64 u8.

(* A runner's failure to make a manifest reaches the queue. *)
Theorem C75_failures_reach_the_queue failed version spec output b e o entity run :
  report failed version spec output b = Some (TestRunnerError e o) -> a_pair output -> an_entity entity ->
  o = output /\ arrives c_manifest_request (entity, (run, TestRunnerError e o)).
Proof.
  intros R P E.
  assert (O : o = output).
  { revert R. unfold report. generalize (from_text c_manifest_message b). intros [[m es|e' es]|] H; congruence. }
  subst o. split; [reflexivity|]. apply text_round; [apply lawful_manifest_request| |].
  - split; [apply entity_ok, E|]. split; [exact I|]. split; [exact I|apply pair_ok, P].
  - pose proof (told_deep entity run (TestRunnerError e output)). pose proof (runner_error_deep e output). lia.
Qed.

(* A manifest from a message nested at most 123 deep is read by the queue as the worker sent it. *)
Theorem C75_queue_reads_the_manifest_partial failed version spec output b r entity run :
  report failed version spec output b = Some (TheManifest r) -> a_version version -> an_entity entity -> depth_at_most 123 b ->
  arrives c_manifest_request (entity, (run, TheManifest r)).
Proof.
  intros R V E D. destruct (report_manifest _ _ _ _ _ _ R) as (m & es & T & ->).
  destruct (text_sound _ _ _ lawful_manifest_message T) as (j & J & OK & N & _). specialize (D j J).
  pose proof (success_above m es). apply text_round; [apply lawful_manifest_request| |].
  - split; [apply entity_ok, E|]. split; [exact I|]. split; [exact (proj1 OK)|]. split; [apply version_ok, V|apply spec_ok].
  - pose proof (told_deep entity run (TheManifest {| r_manifest := m; r_protocol := version; r_specification := spec |})) as A.
    pose proof (reported_deep {| r_manifest := m; r_protocol := version; r_specification := spec |}) as B. cbn [r_manifest] in B.
    pose proof (manifest_pos m). lia.
Qed.

(* Once the queue could read a manifest, whatever it makes of it can be read by those that get it: batches of
   its tests, answers to a worker that is retried, the manifest file and the metadata for the start of
   runners, however deeply nested. *)
Theorem C75_tests_of_a_read_manifest_arrive b entity run r fuel l init ids :
  from_text c_manifest_request b = Some (entity, (run, TheManifest r)) -> (forall n, a_uuid (ids n)) ->
  sizes (m_members (r_manifest r)) < fuel -> handle_manifest fuel (r_manifest r) = Some (StartRun l init) ->
  forall work, incl work (map (fun x => queued ids (fst x)) l) ->
    (forall eow, arrives c_next_tests (work, eow) /\ arrives c_retry_response (RetryManifest (work, eow))) /\
    (forall tags, Forall a_tag tags -> arrives c_view {| vw_items := work; vw_assigned := tags |}) /\
    arrives c_init_response (InitContext init).
Proof.
  intros B U S' H work W. destruct (text_sound _ _ _ lawful_manifest_request B) as (j & _ & OK & N1 & N2).
  pose proof (request_above entity run r) as A.
  assert (O : c_ok c_manifest (r_manifest r)) by exact (proj1 (proj2 (proj2 OK))).
  destruct (queued_tests ids (r_manifest r) fuel S' U O ltac:(lia)) as (l' & F & Q).
  unfold handle_manifest in H. rewrite F in H. destruct l' as [|x l']; [discriminate|].
  assert (l = x :: l') as -> by congruence. assert (init = m_init_meta (r_manifest r)) as -> by congruence.
  assert (G : Forall (fine 119) work).
  { apply Forall_forall. intros w Ww. apply W in Ww. clear -Q Ww.
    induction Q as [|t w' ts ws (_ & _ & Q) _ IH]; [destruct Ww|]. destruct Ww as [->|Ww]; auto. }
  split; [|split].
  - intro eow. split; [apply (bundle_arrives 119)|apply (retry_arrives 119)]; try exact G; lia.
  - intros tags T. apply (view_arrives 119); try assumption; lia.
  - apply init_arrives; [exact (proj2 O)|]. pose proof (init_above (r_manifest r)). lia.
Qed.

(* From end to end: for the tests that a runner tells in a message nested at most 123 deep, runners are
   sent messages with the same ids and metadata, in the order of the source; any batch of them arrives at
   its worker as the queue sent it, and every runner is started with the metadata of the message. *)
Theorem C75_runners_get_what_was_described_partial failed version spec output b r entity run fuel ids told init :
  report failed version spec output b = Some (TheManifest r) -> message_tells b told init -> depth_at_most 123 b ->
  a_version version -> an_entity entity -> (forall n, a_uuid (ids n)) -> sizes (m_members (r_manifest r)) < fuel ->
  from_text c_manifest_request (to_text c_manifest_request (entity, (run, TheManifest r))) = Some (entity, (run, TheManifest r)) /\
  (told = [] /\ handle_manifest fuel (r_manifest r) = Some EmptyManifest \/
   exists l meta,
     handle_manifest fuel (r_manifest r) = Some (StartRun l meta) /\
     let tests := map (fun x => queued ids (fst x)) l in
     Forall2 (fun '(id, described) w => exists received,
         same described received /\
         read_json (to_text c_case_message (wt_case w)) = Some (plain_case id received) /\
         (forall focus, read_json (to_text c_case_message {| tc_id := tc_id (wt_case w); tc_meta := tc_meta (wt_case w); tc_focus := Some focus |}) =
                        Some (focused_case id received focus)))
       told tests /\
     (forall work eow, incl work tests -> from_text c_next_tests (to_text c_next_tests (work, eow)) = Some (work, eow)) /\
     from_text c_init_response (to_text c_init_response (InitContext meta)) = Some (InitContext meta) /\
     exists received, same init received /\
       forall fast_exit, read_json (to_text c_init_message (meta, fast_exit)) = Some (init_object received fast_exit)).
Proof.
  intros R T D V E U S'. pose proof (C75_queue_reads_the_manifest_partial _ _ _ _ _ _ entity run R V E D) as A. split; [exact A|].
  destruct (text_sound _ _ _ lawful_manifest_request A) as (j & _ & OK & N1 & N2).
  pose proof (request_above entity run r) as B.
  assert (O : c_ok c_manifest (r_manifest r)) by exact (proj1 (proj2 (proj2 OK))).
  destruct (report_manifest _ _ _ _ _ _ R) as (m & es & T' & Er).
  assert (Em : r_manifest r = m) by (rewrite Er; reflexivity). clear Er.
  destruct (message_told _ _ _ _ _ T' T) as (F & Ei). rewrite <- Em in F, Ei.
  destruct (queued_tests ids (r_manifest r) fuel S' U O ltac:(lia)) as (l & Fl & Q).
  pose proof (init_above (r_manifest r)) as IA.
  destruct l as [|x l].
  - left. unfold handle_manifest. rewrite Fl. split; [|reflexivity]. inversion Q as [E0|]. rewrite <- E0 in F. inversion F. reflexivity.
  - right. exists (x :: l), (m_init_meta (r_manifest r)).
    assert (HM : handle_manifest fuel (r_manifest r) = Some (StartRun (x :: l) (m_init_meta (r_manifest r)))) by (unfold handle_manifest; rewrite Fl; reflexivity).
    split; [exact HM|]. cbv zeta.
    split; [|split; [|split]].
    + clear -F Q. revert Q. generalize (map (fun x => queued ids (fst x)) (x :: l)). intros ws Q. revert ws Q.
      induction F as [|(i, v) t told ts (F1 & F2) _ IH]; intros ws Q; inversion Q as [|? w ? ws' (Q1 & Q2 & Q3) Q4]; subst; constructor; [|apply IH, Q4].
      cbn [fst snd] in F1, F2. exists (canon v). split; [apply canon_same|]. destruct w as [wid [ti tm tf] n]. destruct Q3 as (_ & G1 & G2 & G3 & _).
      cbn [wt_case tc_id tc_meta tc_focus] in *. subst. rewrite F2.
      split; [apply (case_text _ _ None); [exact G1|lia]|]. intro focus. apply (case_text _ _ (Some focus)); [exact G1|lia].
    + intros work eow W. apply (C75_tests_of_a_read_manifest_arrive _ _ _ _ fuel _ _ ids A U S' HM work W).
    + apply (C75_tests_of_a_read_manifest_arrive _ _ _ _ fuel _ _ ids A U S' HM [] ltac:(intros ? [])).
    + exists (canon init). split; [apply canon_same|]. intro f. rewrite Ei. apply init_text; [exact (proj2 O)|lia].
Qed.

(* ---- examples ---- *)

Definition the_manifest_text : bytes := text
  "{""manifest"":{""init_meta"":{""seed"":7},""members"":[{""type"":""test"",""id"":""a"",""tags"":[""slow""],""meta"":{""z"":1,""k"":[null],""z"":2}},{""members"":[{""meta"":{},""id"":""b"",""type"":""test"",""tags"":[],""line"":3},{""type"":""group"",""name"":""h"",""members"":[],""tags"":[],""meta"":{}}],""type"":""group"",""name"":""g"",""tags"":[],""meta"":{}}]}}".
Definition the_spec : specification :=
  {| sp_name := text "r"; sp_version := text "1"; sp_framework := []; sp_framework_version := []; sp_language := []; sp_language_version := []; sp_host := [] |}.
Definition example_uuid : list N := repeat 7%N 16.
Lemma example_uuid_ok : a_uuid example_uuid.
Proof. split; [repeat constructor|reflexivity]. Qed.
Definition the_report : option manifest_result := report (fun _ => []) (0, 2)%N the_spec ([], [])%N the_manifest_text.

Definition nested_within (d : nat) (b : bytes) : bool := match read_json b with Some j => Nat.leb (nesting j) d | None => true end.
Lemma depth_computed d b : nested_within d b = true -> depth_at_most d b.
Proof.
  unfold depth_at_most, nested_within. generalize (read_json b). intros o H j J. rewrite J in H. apply PeanoNat.Nat.leb_le, H.
Qed.

(* The hypotheses of the last theorem hold for this message, and this is what runners are sent. *)
Example the_manifest_is_shallow : depth_at_most 123 the_manifest_text.
Proof. apply depth_computed. vm_compute. reflexivity. Qed.
Example the_manifest_is_reported : exists r, the_report = Some (TheManifest r) /\ sizes (m_members (r_manifest r)) < 20.
Proof. unfold the_report. vm_compute. eexists. split; [reflexivity|]. vm_compute. lia. Qed.
Example the_manifest_tells : message_tells the_manifest_text
  [(text "a", JObj [(text "z", JNum (text "1")); (text "k", JArr [JNull]); (text "z", JNum (text "2"))]); (text "b", JObj [])]
  (JObj [(text "seed", JNum (text "7"))]).
Proof.
  assert (J : exists j, read_json the_manifest_text = Some (JObj j)) by (vm_compute; eexists; reflexivity).
  destruct J as (message & J). pose proof J as J'. vm_compute in J'. injection J' as J'.
  rewrite <- J' in J. unfold message_tells. do 4 eexists. split; [exact J|].
  split; [left; reflexivity|]. split; [right; left; reflexivity|]. split; [left; reflexivity|]. split.
  - constructor; [|constructor; [|constructor]].
    + apply tells_test; [left; reflexivity|right; left; reflexivity|do 3 right; left; reflexivity].
    + eapply tells_group; [right; left; reflexivity|left; reflexivity|]. constructor; [|constructor; [|constructor]].
      * apply tells_test; [right; right; left; reflexivity|right; left; reflexivity|left; reflexivity].
      * eapply tells_group; [left; reflexivity|right; right; left; reflexivity|constructor].
  - reflexivity.
Qed.
Example the_tests :
  match the_report with
  | Some (TheManifest r) =>
      match handle_manifest 20 (r_manifest r) with
      | Some (StartRun l init) =>
          map (fun x => to_text c_case_message (wt_case (queued (fun _ => example_uuid) (fst x)))) l =
            [text "{""test_case"":{""id"":""a"",""meta"":{""k"":[null],""z"":2}}}"; text "{""test_case"":{""id"":""b"",""meta"":{}}}"] /\
          to_text c_init_message (init, true) = text "{""init_meta"":{""seed"":7},""fast_exit"":true}"
      | _ => False
      end
  | _ => False
  end.
Proof. vm_compute. split; reflexivity. Qed.
(* A failure, and a message that is neither. *)
Example a_failure : report oe_message (0, 2)%N the_spec ([1], [2])%N (text "{""type"":""manifest_failure"",""error"":{""message"":""no""}}") =
  Some (TestRunnerError (text "no") ([1], [2])%N).
Proof. vm_compute. reflexivity. Qed.
Example neither : report oe_message (0, 2)%N the_spec ([1], [2])%N (text "{""type"":""manifest_success""}") = None.
Proof. vm_compute. reflexivity. Qed.
(* Metadata of the same keys says the same only if the values do. *)
Example not_same : ~ same (JObj [(text "k", JNull); (text "k", JBool true)]) (JObj [(text "k", JNull)]).
Proof.
  intro H. inversion H as [j A|?|? ? H1 _]; subst. destruct (H1 (text "k") (JBool true) eq_refl) as (v & E & S').
  vm_compute in E. injection E as <-. inversion S'.
Qed.

(* ---- the bound is needed ---- *)

(* Groups in groups, with one test inside. *)
Definition one_test : a_node := Test {| t_id := text "t"; t_tags := []; t_meta := [(text "k", JObj [])] |}.
Definition deep_manifest : a_manifest :=
  {| m_members := [Nat.iter 59 (fun n => Group (text "g") [n] [] []) one_test]; m_init_meta := [] |}.
Definition deep_text : bytes := to_text c_manifest_message (ManifestSuccess deep_manifest None).

(* One level more, and a manifest that a worker takes cannot be read by the queue. *)
Theorem C75_queue_reads_the_manifest_refuted : exists failed version spec output b r entity run,
  report failed version spec output b = Some (TheManifest r) /\ a_version version /\ an_entity entity /\ depth_at_most 124 b /\ from_text c_manifest_request (to_text c_manifest_request (entity, (run, TheManifest r))) = None.
Proof.
  assert (E : exists r, report (fun _ => []) (0, 2)%N the_spec ([], [])%N deep_text = Some (TheManifest r)).
  { vm_compute. eexists. reflexivity. }
  destruct E as (r & E). exists (fun _ => []), (0, 2)%N, the_spec, ([], [])%N, deep_text, r, (example_uuid, LocalClient), (text "run").
  split; [exact E|]. split; [split; reflexivity|]. split; [split; [apply example_uuid_ok|exact I]|]. split.
  - apply depth_computed. vm_compute. reflexivity.
  - assert (D : match report (fun _ => []) (0, 2)%N the_spec ([], [])%N deep_text with
                | Some (TheManifest r) => from_text c_manifest_request (to_text c_manifest_request ((example_uuid, LocalClient), (text "run", TheManifest r)))
                | _ => None
                end = None) by (vm_compute; reflexivity).
    rewrite E in D. exact D.
Qed.

Print Assumptions C75_protocol_messages_are_read.
Print Assumptions C75_order_and_other_members.
Print Assumptions C75_manifests_are_understood.
Print Assumptions C75_failures_reach_the_queue.
Print Assumptions C75_queue_reads_the_manifest_partial.
Print Assumptions C75_tests_of_a_read_manifest_arrive.
Print Assumptions C75_runners_get_what_was_described_partial.
Print Assumptions C75_queue_reads_the_manifest_refuted.
