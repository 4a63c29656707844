(* C88: the messages of ABQ's processes. *)
From Coq Require Import String NArith ZArith.
From Verif Require Import Base JsonModel JsonProofs JsonlModel AuthModel AuthSpec WireModel WireSpec CodecModel CodecSpec CodecProofs
  ManifestCodecModel ManifestCodecProofs HealthModel HealthSpec HealthProofs ProtocolModel ProtocolSpec ProtocolProofs.
Local Open Scope list_scope.

Section P.
Context (gz_encode : bytes -> bytes) (gz_decode : bytes -> option bytes).
Hypothesis GZ : gz_ok gz_encode gz_decode.
Notation understood := (understood gz_encode gz_decode).
Notation heard_as_said := (heard_as_said gz_encode gz_decode).
Notation short := (short gz_encode).

(* Every request to the queue arrives as it was sent. *)
Theorem C88_to_queue e m : an_entity e -> queue_fits m -> queue_deep 123 m -> short c_to_queue (e, m) -> understood c_to_queue (e, m).
Proof.
  intros E F D SH. apply understands; auto.
  - apply lawful_to, lawful_queue_message.
  - split; [now apply entity_writable|now apply queue_writable].
  - pose proof (queue_message_deep 123 m D). pose proof (to_deep c_queue_message e m 126 ltac:(lia) ltac:(lia)). unfold c_to_queue. lia.
Qed.

(* Every request to the work server. *)
Theorem C88_to_work_server e m : an_entity e -> work_fits m -> short c_to_work_server (e, m) -> understood c_to_work_server (e, m).
Proof.
  intros E F SH. apply understands; auto.
  - apply lawful_to, lawful_work_message.
  - split; [now apply entity_writable|now apply work_writable].
  - pose proof (work_message_deep m). pose proof (to_deep c_work_message e m 126 ltac:(lia) ltac:(lia)). unfold c_to_work_server. lia.
Qed.

(* Every request to the negotiator. *)
Theorem C88_to_negotiator e m : an_entity e -> negotiator_fits m -> short c_to_negotiator (e, m) -> understood c_to_negotiator (e, m).
Proof.
  intros E F SH. apply understands; auto.
  - apply lawful_to, lawful_negotiator_message.
  - split; [now apply entity_writable|now apply negotiator_writable].
  - pose proof (negotiator_message_deep m). pose proof (to_deep c_negotiator_message e m 126 ltac:(lia) ltac:(lia)). unfold c_to_negotiator. lia.
Qed.

(* A client that is not admitted is not heard, whatever it says in less than 800 MB and whoever it says it to. *)
Theorem C88_not_admitted {A B} (said : codec A) (server : codec B) a auth token es x :
  server_ok auth -> client_ok token -> ~ admits auth token ->
  (Z.of_nat (List.length (says gz_encode said token a)) < 800000000)%Z ->
  serves gz_decode server auth (says gz_encode said token a) es <> Takes x.
Proof. apply not_taken. exact GZ. Qed.

(* Whatever bytes a server is sent, however they come: what it takes, if anything, is a request with values of the
   types of the code, and a server with tokens was shown one of them. *)
Theorem C88_taken auth sent es e :
  (forall m, serves gz_decode c_to_queue auth sent es = Takes (e, m) -> an_entity e /\ queue_fits m /\ showed auth sent) /\
  (forall m, serves gz_decode c_to_work_server auth sent es = Takes (e, m) -> an_entity e /\ work_fits m /\ showed auth sent) /\
  (forall m, serves gz_decode c_to_negotiator auth sent es = Takes (e, m) -> an_entity e /\ negotiator_fits m /\ showed auth sent).
Proof.
  split; [|split]; intros m H.
  - destruct (serves_sound gz_decode _ auth sent es _ (lawful_to _ lawful_queue_message) H) as ((E & M) & S).
    split; [now apply entity_read|]. split; [now apply queue_read|exact S].
  - destruct (serves_sound gz_decode _ auth sent es _ (lawful_to _ lawful_work_message) H) as ((E & M) & S).
    split; [now apply entity_read|]. split; [now apply work_read|exact S].
  - destruct (serves_sound gz_decode _ auth sent es _ (lawful_to _ lawful_negotiator_message) H) as ((E & M) & S).
    split; [now apply entity_read|]. split; [now apply negotiator_read|exact S].
Qed.

(* The queue's answers. *)
Theorem C88_answers_of_queue :
  (forall n, a_u64 n -> short c_active_runs n -> heard_as_said c_active_runs n) /\
  (forall x, match x with RunManifestDone n => a_u64 n | _ => True end -> short c_run_status x -> heard_as_said c_run_status x) /\
  (forall x, match x with RunInProgress l => Forall a_runner_tag l | _ => True end -> short c_results_response x -> heard_as_said c_results_response x) /\
  (forall c, In c [c_ack_manifest; c_ack_results; c_ack_ran_all; c_ack_cancellation] -> short c tt -> heard_as_said c tt) /\
  (forall V (show6 : V -> bytes) parse6 a version, addr6_ok show6 parse6 -> an_address a ->
     short (c_negotiator_info show6 parse6) (a, version) -> heard_as_said (c_negotiator_info show6 parse6) (a, version)).
Proof.
  split; [|split; [|split; [|split]]].
  - intros n H SH. apply hears_it; auto; [apply lawful_active_runs|simpl; lia].
  - intros x H SH. apply hears_it; auto; [apply lawful_run_status|destruct x; exact H|]. pose proof (run_status_deep x). lia.
  - intros x H SH. apply hears_it; auto; [apply lawful_results_response| |pose proof (results_response_deep x); lia].
    destruct x; try exact I. exact H.
  - intros c I SH. repeat destruct I as [<-|I]; try contradiction; apply hears_it; auto; try apply lawful_ack; try exact Logic.I; simpl; lia.
  - intros V show6 parse6 a v V6 H SH. apply hears_it; auto; [now apply lawful_negotiator_info| |simpl; lia].
    split; [|exact I]. destruct a; exact H.
Qed.

(* The work server's. *)
Theorem C88_answers_of_work_server :
  (forall x, c_ok c_init_response x -> nesting (c_enc c_init_response x) < 128 -> short c_init_response x -> heard_as_said c_init_response x) /\
  (forall x, c_ok c_next_tests x -> nesting (c_enc c_next_tests x) < 128 -> short c_next_tests x -> heard_as_said c_next_tests x) /\
  (forall x, c_ok c_retry_response x -> nesting (c_enc c_retry_response x) < 128 -> short c_retry_response x -> heard_as_said c_retry_response x).
Proof.
  split; [|split]; intros x O N SH; apply hears_it; auto; [apply lawful_init_response|apply lawful_next_tests|apply lawful_retry_response].
Qed.

(* The negotiator's: what a worker attaches to. *)
Theorem C88_answers_of_negotiator V (show6 : V -> bytes) parse6 x : addr6_ok show6 parse6 -> attach_fits x ->
  short (c_attach_response show6 parse6) x -> heard_as_said (c_attach_response show6 parse6) x.
Proof.
  intros V6 H SH. apply hears_it; auto; [now apply lawful_attach| |pose proof (attach_deep show6 parse6 x); lia].
  destruct x as [z|r|(a & b & k & d)| |e]; cbn [attach_fits] in H.
  - unfold an_exit_code in H. cbn. lia.
  - destruct r; exact I.
  - destruct H as (A & B). split; [destruct a; exact A|]. split; [destruct b; exact B|]. split; [destruct k; exact I|exact I].
  - exact I.
  - exact I.
Qed.
End P.

(* A JSON value that two different servers both read is the question whether they are healthy. *)
Theorem C88_no_mistaking j :
  (forall e m e' m', c_dec c_to_queue j = Some (e, m) -> c_dec c_to_work_server j = Some (e', m') -> m = QHealthCheck /\ m' = WHealthCheck) /\
  (forall e m e' m', c_dec c_to_queue j = Some (e, m) -> c_dec c_to_negotiator j = Some (e', m') -> m = QHealthCheck /\ m' = NHealthCheck) /\
  (forall e m e' m', c_dec c_to_work_server j = Some (e, m) -> c_dec c_to_negotiator j = Some (e', m') -> m = WHealthCheck /\ m' = NHealthCheck).
Proof.
  split; [|split]; intros e m e' m' H H'; apply to_read in H as (ms & v & -> & F & D); apply to_read in H' as (ms' & v' & [= <-] & F' & D');
    assert (v' = v) as -> by congruence; clear F F' ms;
    unfold c_queue_message, c_work_message, c_negotiator_message in D, D';
    (match type of D with c_dec (c_enum ?la) _ = _ => match type of D' with c_dec (c_enum ?lb) _ = _ =>
       destruct (enums_apart la lb v m m') as (k & -> & I & I'); [intros k; cbn; intuition (subst; discriminate)|exact D|exact D'|] end end);
    cbn in I, I'; repeat destruct I as [<-|I]; try contradiction; repeat destruct I' as [I'|I']; try discriminate; try contradiction;
    vm_compute in D, D'; split; congruence.
Qed.

(* Acknowledgements and requests for the next tests are not told from other things: any JSON object is read as one. *)
Theorem C88_acknowledgements ms c :
  In c [c_ack_manifest; c_ack_results; c_ack_ran_all; c_ack_cancellation; c_next_test_request] -> c_dec c (JObj ms) = Some tt.
Proof. intros I. repeat destruct I as [<-|I]; try contradiction; reflexivity. Qed.

(* Hypotheses that are met, and conversations. *)
Definition toy_encode (b : bytes) : bytes := 31 :: b.
Definition toy_decode (b : bytes) : option bytes := match b with 31 :: b' => Some b' | _ => None end.
Definition a_runner : list N * CodecModel.tag := (repeat 7%N 16, Runner (3%N, 2%N)).
Definition tok : bytes := repeat 97 30.
Definition adm : bytes := repeat 65 30.
Definition an_invoke : invoke_work :=
  {| iw_run := text "run 1"; iw_batch_size := 7; iw_strategy := ByTopLevelGroup; iw_command_hash := repeat 200%N 32 |}.
(* a toy for IPv6: one byte as it is *)
Definition toy6 (n : nat) : bytes := [91; n].
Definition of_toy6 (b : bytes) : option nat := match b with [91; n] => Some n | _ => None end.
Definition a_context : attach_response :=
  ExecutionContext (V4 127 0 0 1 8001, (V6 17, (Fresh true, false))).
Definition steadily : list event := Call :: repeat (Bytes 9) 400.

Example ex_c88_hyp : gz_ok toy_encode toy_decode /\ addr6_ok toy6 of_toy6 /\ an_entity a_runner /\
  negotiator_fits (NWantsToAttach an_invoke) /\ short toy_encode c_to_negotiator (a_runner, NWantsToAttach an_invoke) /\
  attach_fits a_context /\ short toy_encode (c_attach_response toy6 of_toy6) a_context /\
  client_ok (CToken adm) /\ admits (STokens tok adm) (CToken adm) /\ ~ admits (STokens tok adm) CNoAuth /\
  reads_on (List.length (frame toy_encode true (c_enc c_to_negotiator (a_runner, NWantsToAttach an_invoke)))) steadily.
Proof.
  assert (R : forall n x, (x < 256)%N -> octets (repeat x n)) by (intros n x H; apply Forall_forall; intros y I; apply repeat_spec in I; now subst).
  split. { split; [reflexivity|discriminate]. }
  split. { split; [reflexivity|]. intros v. now exists [v]. }
  split. { split; [split; [now apply R|reflexivity]|]. cbn. lia. }
  split. { split; [cbn; lia|]. split; [unfold a_u64; cbn [iw_batch_size an_invoke]; lia|]. split; [now apply R|reflexivity]. }
  split. { unfold short. vm_compute. reflexivity. }
  split. { cbn. repeat split; lia. }
  split. { unfold short. vm_compute. reflexivity. }
  split. { split; [reflexivity|]. apply Forall_forall. intros x H. apply repeat_spec in H. subst. unfold is_alnum. lia. }
  split. { right. reflexivity. }
  split. { intros []. }
  split.
  - intros e [<-|I]; [repeat split; discriminate|]. apply repeat_spec in I. subst. repeat split; discriminate.
  - exists (repeat (Bytes 9) 400). split; [reflexivity|]. apply Nat.leb_le. vm_compute. reflexivity.
Qed.

Example ex_c88_attach :
  serves toy_decode c_to_negotiator (STokens tok adm) (says toy_encode c_to_negotiator (CToken adm) (a_runner, NWantsToAttach an_invoke)) steadily
    = Takes (a_runner, NWantsToAttach an_invoke) /\
  serves toy_decode c_to_negotiator (STokens tok adm) (says toy_encode c_to_negotiator CNoAuth (a_runner, NWantsToAttach an_invoke)) steadily
    = GivesUp /\
  serves toy_decode c_to_queue (STokens tok adm) (says toy_encode c_to_negotiator (CToken adm) (a_runner, NWantsToAttach an_invoke)) steadily
    = GivesUp /\
  serves toy_decode c_to_queue (STokens tok adm) (says toy_encode c_to_negotiator (CToken adm) (a_runner, NHealthCheck)) steadily
    = Takes (a_runner, QHealthCheck) /\
  hears toy_decode (c_attach_response toy6 of_toy6) (frame toy_encode true (c_enc (c_attach_response toy6 of_toy6) a_context)) steadily
    = Takes a_context.
Proof. vm_compute. repeat split. Qed.

(* a batch size of zero is not taken, nor is an octet above 255 *)
Example ex_c88_refused :
  c_dec nonzero_u64 (JNum [48]) = None /\ parse4 (V := nat) (text "127.0.0.256:80") = None /\
  parse4 (V := nat) (text "127.0.0.1:65536") = None /\ parse4 (V := nat) (text "127.0.0.01:80") = None.
Proof. vm_compute. repeat split. Qed.

Print Assumptions C88_to_queue.
Print Assumptions C88_to_work_server.
Print Assumptions C88_to_negotiator.
Print Assumptions C88_not_admitted.
Print Assumptions C88_taken.
Print Assumptions C88_answers_of_queue.
Print Assumptions C88_answers_of_work_server.
Print Assumptions C88_answers_of_negotiator.
Print Assumptions C88_no_mistaking.
Print Assumptions C88_acknowledgements.
