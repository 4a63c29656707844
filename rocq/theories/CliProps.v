(* C73: the queue that `abq test` and `abq report` work with. *)
From Verif Require Import Base CliModel CliSpec CliProofs.

Section CliProps.
Context {Addr Token Access Bytes Id Text : Type}.
Notation options := (options Addr Token Access Bytes Id Text).
Notation environment := (environment Id).
Notation api_config := (api_config Addr Token Bytes Text).
Notation started := (started Addr Token Bytes Id Text).
Implicit Types (e : environment) (o : options) (stored : option Access) (api : Access -> Id -> option api_config) (s : started).

(* The run is the one named by the option or by CI, and a fresh one if none is named. *)
Theorem C73_run_id e stored api unique o calls s :
  test_command e stored api unique o = (calls, inl s) ->
  (forall r, names_the_run e o r -> s_run_id s = r) /\ (names_no_run e o -> s_run_id s = unique).
Proof.
  intro H. apply started_how in H.
  assert (U : forall r r', names_the_run e o r -> names_the_run e o r' -> r = r').
  { intros r r' A B. apply external_some in A, B. congruence. }
  assert (Q : names_the_run e o (s_run_id s) \/ (names_no_run e o /\ s_run_id s = unique)).
  { inversion H; subst; cbn; intuition. }
  destruct Q as [Q|(Q & ->)]; split.
  - intros r R. exact (U _ _ Q R).
  - intro N. destruct (N _ Q).
  - intros r R. destruct (Q _ R).
  - reflexivity.
Qed.

(* Workers that name a run share a queue: unless told to stay local, a command for a named run never
   starts a queue of its own. *)
Theorem C73_named_run_never_private e stored api unique o calls s r :
  test_command e stored api unique o = (calls, inl s) ->
  o_local o = false -> names_the_run e o r -> exists a, s_queue s = TheQueueAt a.
Proof.
  intros H L R. apply started_how in H.
  inversion H as [t r' q tok c k cmd args|calls' r' a cmd args|calls' r' tls cmd args]; subst; cbn.
  - eexists; reflexivity.
  - eexists; reflexivity.
  - match goal with K : o_local o = true \/ names_no_run e o |- _ => destruct K as [K|K]; [congruence|destruct (K _ R)] end.
Qed.

(* --local: nothing is asked of the API, whatever tokens there are, and the command starts, on a private
   queue, whether or not CI names a run; but not with a certificate without its key. *)
Theorem C73_local_stays_local e stored api unique o :
  accepted o = true -> o_local o = true ->
  (o_tls_key o = None -> o_tls_cert o = None) ->
  exists s auth tls, test_command e stored api unique o = ([], inl s) /\
    s_queue s = OwnQueue auth tls /\ s_telemetry s = false /\ sends_results s.
Proof.
  intros A L C.
  assert (Q : o_queue_addr o = None).
  { destruct (o_queue_addr o) as [a|] eqn:Q; [|reflexivity].
    unfold accepted in A. rewrite Q, L in A. cbn in A. rewrite !andb_false_r in A. discriminate. }
  assert (G : exists cmd args, o_args o = cmd :: args).
  { destruct (o_args o) as [|cmd args] eqn:G; [|eauto].
    unfold accepted in A. rewrite G in A. cbn in A. rewrite andb_false_r in A. discriminate. }
  assert (K : o_tls_key o <> None -> o_tls_cert o <> None).
  { intros K N. unfold accepted in A. rewrite N in A. destruct (o_tls_key o) as [k|]; [|congruence].
    cbn in A. rewrite !andb_false_r in A. discriminate. }
  destruct G as (cmd & args & G).
  unfold test_command, ask_api. rewrite L, G. cbn [negb]. rewrite andb_false_r.
  cbn [resolve_config]. unfold resolve_from_cli. cbn [r_where r_token r_cert r_kind]. rewrite Q.
  cbn [validate_queue_location is_remote andb negb find_or_create].
  destruct (o_tls_cert o) as [c|], (o_tls_key o) as [k|].
  - do 3 eexists. split; [reflexivity|]. repeat split.
  - discriminate (C eq_refl).
  - destruct K; congruence.
  - do 3 eexists. split; [reflexivity|]. repeat split.
Qed.

(* A certificate without its key: nothing is started, and the refusal says that both are needed. *)
Theorem C73_certificate_without_key e stored api unique o c :
  accepted o = true -> o_local o = true -> o_tls_cert o = Some c -> o_tls_key o = None ->
  test_command e stored api unique o = ([], inr OneOfCertAndKey).
Proof.
  intros A L C K.
  assert (Q : o_queue_addr o = None).
  { destruct (o_queue_addr o) as [a|] eqn:Q; [|reflexivity].
    unfold accepted in A. rewrite Q, L in A. cbn in A. rewrite !andb_false_r in A. discriminate. }
  destruct (o_args o) as [|cmd args] eqn:G.
  { unfold accepted in A. rewrite G in A. cbn in A. rewrite andb_false_r in A. discriminate. }
  unfold test_command, ask_api. rewrite L, G. cbn [negb]. rewrite andb_false_r.
  cbn [resolve_config]. unfold resolve_from_cli. cbn [r_where r_token r_cert r_kind]. rewrite Q, C, K. reflexivity.
Qed.

Theorem C73_local_asks_nothing e stored api unique o :
  o_local o = true -> fst (test_command e stored api unique o) = [].
Proof. intro L. unfold test_command, ask_api. rewrite L. reflexivity. Qed.

(* The queue the API names is used with the token and the certificate the API gives, and never with
   those of the command line; a personal token does not send results. *)
Theorem C73_hosted e stored api unique o t r q tok c k :
  accepted o = true -> o_local o = false -> has_access stored o t ->
  names_the_run e o r \/ (names_no_run e o /\ r = unique /\ k = Organization) ->
  api t r = Some (Success q tok c k) ->
  exists s, test_command e stored api unique o = ([(t, r)], inl s) /\
    s_run_id s = r /\ s_queue s = TheQueueAt q /\ s_token s = Some tok /\ s_cert s = c /\
    (sends_results s <-> k = Organization).
Proof.
  intros A L T R X. unfold test_command, ask_api. rewrite L.
  apply access_some in T. rewrite T.
  destruct (o_args o) as [|cmd args] eqn:G.
  { unfold accepted in A. rewrite G in A. cbn in A. rewrite andb_false_r in A. discriminate. }
  destruct R as [R|(N & -> & ->)].
  - apply external_some in R. rewrite R. cbn [given andb negb]. rewrite X. unfold resolve_config.
    rewrite orb_true_r. cbn [resolve_with_api r_where r_token r_cert r_kind validate_queue_location is_remote negb andb find_or_create].
    eexists. split; [reflexivity|]. unfold sends_results. cbn. repeat split; destruct k; cbn; congruence.
  - apply external_none in N. rewrite N. cbn [given andb negb]. rewrite X. unfold resolve_config.
    cbn [kind_of is_personal negb orb resolve_with_api r_where r_token r_cert r_kind validate_queue_location is_remote andb find_or_create].
    eexists. split; [reflexivity|]. unfold sends_results. cbn. repeat split; congruence.
Qed.

(* When the API has no queue for the token, the command is refused: it does not fall back to a queue
   of its own. *)
Theorem C73_no_fallback e stored api unique o t r u k :
  o_local o = false -> has_access stored o t ->
  names_the_run e o r \/ (names_no_run e o /\ r = unique /\ k = Organization) ->
  api t r = Some (Unsupported u k) ->
  test_command e stored api unique o = ([(t, r)], inr (NoQueueToRunAgainst u)).
Proof.
  intros L T R X. unfold test_command, ask_api. rewrite L.
  apply access_some in T. rewrite T.
  destruct R as [R|(N & -> & ->)].
  - apply external_some in R. rewrite R. cbn [given andb negb]. rewrite X. unfold resolve_config.
    rewrite orb_true_r. reflexivity.
  - apply external_none in N. rewrite N. cbn [given andb negb]. rewrite X. reflexivity.
Qed.

(* A worker keeps its results to itself exactly when it works for a named run on a queue that the API
   gave for a personal token. *)
Theorem C73_keeps_results e stored api unique o calls s :
  test_command e stored api unique o = (calls, inl s) ->
  (~ sends_results s <->
   o_local o = false /\ names_the_run e o (s_run_id s) /\
   exists t q tok c, has_access stored o t /\ api t (s_run_id s) = Some (Success q tok c Personal)).
Proof.
  intro H. apply started_how in H. unfold sends_results.
  assert (UA : forall t t', has_access stored o t -> has_access stored o t' -> t = t').
  { intros x y A B. apply access_some in A, B. congruence. }
  inversion H as [t r q tok c k cmd args L T X R|calls' r a cmd args Q G R C|calls' r tls cmd args Q G LN R E1 E2 C]; subst; cbn.
  - destruct k.
    + split; [intros _|congruence]. split; [exact L|]. destruct R as [R|(_ & _ & R)]; [|discriminate].
      split; [exact R|]. exists t, q, tok, c. auto.
    + split; [congruence|]. intros (_ & _ & t' & q' & tok' & c' & T' & X').
      rewrite (UA _ _ T' T) in X'. congruence.
  - split; [congruence|]. intros (L & N & t' & q' & tok' & c' & T' & X').
    destruct C as [(_ & [C|(C1 & C2)])|(t & x & _ & T & X & K & _ & C)]; [congruence| |destruct (C _ N)].
    destruct T' as [T'|(_ & T')]; congruence.
  - split; [congruence|]. intros (L & N & _). destruct LN as [LN|LN]; [congruence|destruct (LN _ N)].
Qed.

(* In the full: "a queue given by --queue-addr is the queue used".  Proved when `abq login` has
   stored no token, and when the stored token is a personal one and no run is named; then the token
   and the certificate are those of the command line as well. *)
Theorem C73_given_queue_partial e stored api unique o a calls s :
  accepted o = true -> o_queue_addr o = Some a ->
  stored = None \/ (names_no_run e o /\ forall t x, stored = Some t -> api t unique = Some x -> kind_of x = Personal) ->
  test_command e stored api unique o = (calls, inl s) ->
  s_queue s = TheQueueAt a /\ s_token s = o_token o /\ s_cert s = o_tls_cert o /\ sends_results s.
Proof.
  intros A Q P H. apply started_how in H.
  assert (NA : o_access_token o = None).
  { unfold accepted in A. rewrite Q in A. destruct (o_access_token o); [discriminate|reflexivity]. }
  inversion H as [t r q tok c k cmd args L T X R|calls' r a' cmd args Q' G R C|calls' r tls cmd args Q' G LN R E1 E2 C]; subst; cbn.
  - exfalso. destruct T as [T|(_ & T)]; [congruence|].
    destruct P as [P|(N & P)]; [congruence|].
    destruct R as [R|(_ & -> & ->)]; [destruct (N _ R)|].
    specialize (P _ _ T X). discriminate.
  - rewrite Q in Q'. injection Q' as <-. repeat split.
  - congruence.
Qed.

(* A queue of one's own has TLS exactly if the client of the same command uses it, with the same
   certificate, and asks for the same token. *)
Theorem C73_own_queue_is_reachable e stored api unique o calls s auth tls :
  test_command e stored api unique o = (calls, inl s) -> s_queue s = OwnQueue auth tls ->
  auth = s_token s /\ option_map fst tls = s_cert s.
Proof.
  intros H E. apply started_how in H.
  inversion H as [t r q tok c k cmd args L T X R|calls' r a' cmd args Q' G R C|calls' r tls' cmd args Q' G LN R E1 E2 C]; subst; cbn in *;
    try discriminate.
  injection E as <- <-. split; [reflexivity|].
  destruct (o_tls_cert o), (o_tls_key o); try discriminate; reflexivity.
Qed.

(* With nothing configured, tests run: on a queue of one's own, without asking anybody. *)
Theorem C73_nothing_configured e stored api unique o :
  accepted o = true -> no_access stored o -> o_queue_addr o = None -> names_no_run e o ->
  (o_tls_cert o = None <-> o_tls_key o = None) ->
  exists s auth tls, test_command e stored api unique o = ([], inl s) /\ s_queue s = OwnQueue auth tls /\ s_run_id s = unique.
Proof.
  intros A T Q N C. unfold test_command, ask_api.
  apply access_none in T. rewrite T. apply external_none in N. rewrite N.
  destruct (o_args o) as [|cmd args] eqn:G.
  { unfold accepted in A. rewrite G in A. cbn in A. rewrite andb_false_r in A. discriminate. }
  replace (if o_local o then ([], inl None) else ([], inl None)) with (@nil (Access * Id), @inl (option api_config) (@refusal Text) None)
    by (destruct (o_local o); reflexivity).
  cbn [resolve_config]. unfold resolve_from_cli. cbn [r_where r_token r_cert r_kind]. rewrite Q.
  cbn [validate_queue_location is_remote given andb negb find_or_create].
  destruct (o_tls_cert o) as [c|], (o_tls_key o) as [k|].
  - do 3 eexists. split; [reflexivity|]. split; reflexivity.
  - destruct C as (_ & C). discriminate C. reflexivity.
  - destruct C as (C & _). discriminate C. reflexivity.
  - do 3 eexists. split; [reflexivity|]. split; reflexivity.
Qed.

(* `abq report` never starts a queue, and with the options that the workers of a run were given it
   asks the queue they used, with the same token and certificate. *)
Theorem C73_report_asks_a_queue e stored api o calls r q tok c :
  report_command e stored api o = (calls, inl (r, q, tok, c)) ->
  names_the_run e o r /\ exists a, q = TheQueueAt a.
Proof.
  unfold report_command.
  destruct (or_else (o_run_id o) (inferred_run_id e)) as [r'|] eqn:E; [|discriminate].
  apply external_some in E.
  destruct (ask_api false (o_access_token o) stored api r') as (cs, [a|no]); [|discriminate].
  destruct (r_where (resolve_config o a true)) as [x|k|w] eqn:W; cbn [validate_queue_location is_remote andb negb find_or_create];
    intro H; try discriminate H.
  apply both in H. destruct H as (_ & H). injection H as <- <- _ _. split; [exact E|]. exists x. reflexivity.
Qed.

Theorem C73_report_asks_the_same_queue e stored api unique o calls s r :
  o_local o = false -> names_the_run e o r ->
  test_command e stored api unique o = (calls, inl s) ->
  report_command e stored api o = (calls, inl (r, s_queue s, s_token s, s_cert s)).
Proof.
  intros L R. apply external_some in R. unfold test_command, report_command. rewrite R, L.
  cbn [given andb negb].
  destruct (ask_api false (o_access_token o) stored api r) as (cs, [a|no]); [|discriminate].
  destruct (validate_queue_location (r_where (resolve_config o a true)) true); [discriminate|].
  destruct (o_args o) as [|cmd args]; [discriminate|].
  destruct (find_or_create (r_where (resolve_config o a true)) (r_token (resolve_config o a true)) (r_cert (resolve_config o a true))); [|discriminate].
  intro H. apply both in H. destruct H as (<- & H). injection H as <-. reflexivity.
Qed.

(* "A test will be attempted up to 1 + retries times": so it is, but for the largest number of
   retries (see C73_attempts_refuted). *)
Theorem C73_attempts_partial e stored api unique o calls s :
  (o_retries o < 2 ^ 32 - 1)%N -> test_command e stored api unique o = (calls, inl s) ->
  s_max_run_number s = (1 + o_retries o)%N.
Proof.
  intros B H. apply started_how in H.
  assert (M : ((1 + o_retries o) mod 2 ^ 32 = 1 + o_retries o)%N) by (apply N.mod_small; lia).
  inversion H; subst; cbn [s_max_run_number]; exact M.
Qed.

End CliProps.

(* Concrete commands.  Addresses, tokens, certificates and run ids are numbers. *)
Definition quiet : environment nat :=
  {| e_abq_run_id := None; e_ci := false; e_buildkite := None; e_circle := None; e_github := None; e_mint := None |}.
Definition on_github : environment nat :=
  {| e_abq_run_id := None; e_ci := true; e_buildkite := None; e_circle := None; e_github := Some 77; e_mint := Some 78 |}.
Definition plain : options nat nat nat nat nat nat :=
  {| o_run_id := None; o_access_token := None; o_local := false; o_queue_addr := None; o_token := None;
     o_tls_cert := None; o_tls_key := None; o_retries := 2; o_args := [5; 6] |}.
Definition at_queue : options nat nat nat nat nat nat :=
  {| o_run_id := None; o_access_token := None; o_local := false; o_queue_addr := Some 40; o_token := Some 41;
     o_tls_cert := Some 42; o_tls_key := None; o_retries := 2; o_args := [5; 6] |}.
(* Token 1 is an organization's, token 2 a person's; other tokens are not known. *)
Definition the_api (t r : nat) : option (api_config nat nat nat nat) :=
  match t with
  | 1 => Some (Success 90 91 (Some 92) Organization)
  | 2 => Some (Success 90 93 None Personal)
  | 3 => Some (Unsupported 94 Organization)
  | _ => None
  end.

(* The user gives an address, a token and a certificate; `abq login` once stored an organization's
   token; the tests run on the hosted queue. *)
Theorem C73_given_queue_refuted :
  accepted at_queue = true /\ names_no_run quiet at_queue /\
  exists s, test_command quiet (Some 1) the_api 9 at_queue = ([(1, 9)], inl s) /\
            o_queue_addr at_queue = Some 40 /\ s_queue s = TheQueueAt 90 /\ s_token s = Some 91.
Proof.
  split; [reflexivity|]. split.
  - intros r [H|(_ & _ & H & _)]; discriminate.
  - eexists. repeat split.
Qed.

(* --retries 4294967295 asks for 2^32 attempts and gets a limit of none (in a build without overflow
   checks; with them the command panics). *)
Theorem C73_attempts_refuted : exists (o : options nat nat nat nat nat nat) s,
  accepted o = true /\ test_command quiet None the_api 9 o = ([], inl s) /\
  o_retries o = 4294967295%N /\ s_max_run_number s = 0%N.
Proof.
  exists {| o_run_id := None; o_access_token := None; o_local := false; o_queue_addr := None; o_token := None;
     o_tls_cert := None; o_tls_key := None; o_retries := 4294967295; o_args := [5] |}.
  eexists. repeat split.
Qed.

Example C73_ci_names_the_run : names_the_run on_github plain 77.
Proof.
  right. split; [reflexivity|]. split; [reflexivity|]. split; [reflexivity|].
  exists [None; None], [Some 78]. split; [reflexivity|repeat constructor].
Qed.
Example C73_on_ci_with_a_token : exists s,
  accepted plain = true /\ test_command on_github (Some 1) the_api 9 plain = ([(1, 77)], inl s) /\
  s_queue s = TheQueueAt 90 /\ sends_results s /\ s_max_run_number s = 3%N /\
  report_command on_github (Some 1) the_api plain = ([(1, 77)], inl (77, TheQueueAt 90, Some 91, Some 92)).
Proof. eexists. repeat split. Qed.
Example C73_on_ci_with_a_personal_token : exists s,
  test_command on_github (Some 2) the_api 9 plain = ([(2, 77)], inl s) /\ s_queue s = TheQueueAt 90 /\ ~ sends_results s.
Proof. eexists. repeat split. discriminate. Qed.
Example C73_on_ci_without_a_token : test_command on_github None the_api 9 plain = ([], inr RunIdButEphemeral).
Proof. reflexivity. Qed.
Example C73_personal_token_at_home : exists s,
  test_command quiet (Some 2) the_api 9 plain = ([(2, 9)], inl s) /\ s_queue s = OwnQueue None None /\ s_run_id s = 9.
Proof. eexists. repeat split. Qed.
Example C73_personal_token_and_address : exists s,
  test_command quiet (Some 2) the_api 9 at_queue = ([(2, 9)], inl s) /\ s_queue s = TheQueueAt 40 /\ s_cert s = Some 42.
Proof. eexists. repeat split. Qed.
Example C73_no_queue_for_the_token : test_command on_github (Some 3) the_api 9 plain = ([(3, 77)], inr (NoQueueToRunAgainst 94)).
Proof. reflexivity. Qed.
Example C73_local_example :
  let o := {| o_run_id := Some 30; o_access_token := None; o_local := true; o_queue_addr := None; o_token := Some 31;
              o_tls_cert := Some 32; o_tls_key := Some 33; o_retries := 0; o_args := [5] |} in
  accepted o = true /\
  exists s, test_command on_github (Some 1) the_api 9 o = ([], inl s) /\ s_queue s = OwnQueue (Some 31) (Some (32, 33)).
Proof. split; [reflexivity|]. eexists. split; reflexivity. Qed.

Example C73_certificate_only :
  let o := {| o_run_id := Some 30; o_access_token := None; o_local := true; o_queue_addr := None; o_token := Some 31;
              o_tls_cert := Some 32; o_tls_key := None; o_retries := 0; o_args := [5] |} in
  accepted o = true /\ test_command on_github (Some 1) the_api 9 o = ([], inr OneOfCertAndKey).
Proof. split; reflexivity. Qed.

Print Assumptions C73_certificate_without_key.
Print Assumptions C73_run_id.
Print Assumptions C73_named_run_never_private.
Print Assumptions C73_local_stays_local.
Print Assumptions C73_local_asks_nothing.
Print Assumptions C73_hosted.
Print Assumptions C73_no_fallback.
Print Assumptions C73_keeps_results.
Print Assumptions C73_given_queue_partial.
Print Assumptions C73_own_queue_is_reachable.
Print Assumptions C73_nothing_configured.
Print Assumptions C73_report_asks_a_queue.
Print Assumptions C73_report_asks_the_same_queue.
Print Assumptions C73_attempts_partial.
Print Assumptions C73_given_queue_refuted.
Print Assumptions C73_attempts_refuted.
