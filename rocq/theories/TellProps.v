(* C90: what abq asks and tells the hosted service, and how the end of `abq test` depends on it. *)
From Coq Require Import String Ascii.
From Verif Require Import Base JsonModel CliModel PoolModel WorkerModel TellModel TellSpec TellProofs.
Import ListNotations.
Local Open Scope list_scope.

(* The request for the queue of a run: to <base>/queue, with the token, and with the run id - whatever bytes it has -
   as the service will read it, besides what the query of the base has. *)
Theorem C90_asked_for_the_run parse version api_url token run_id u q :
  parse api_url = Some u -> (exists t, u_path u = 47 :: t) -> is_bytes run_id ->
  ask parse version api_url token run_id = Some (Some q) ->
  q_method q = GET /\ u_start (q_url q) = u_start u /\ segments (u_path (q_url q)) = segments (u_path u) ++ [lit "queue"] /\
  pairs_of (u_query (q_url q)) = pairs_of (u_query u) ++ [(lit "run_id", run_id)] /\
  header "authorization" q = Some (lit "Bearer " ++ token) /\ header "user-agent" q = Some (lit "abq/" ++ version) /\
  q_body q = None.
Proof.
  intros P S B. unfold ask. rewrite P. unfold with_header, plain.
  destruct (header_ok (bearer token)); [|discriminate]. destruct (header_ok (user_agent version)); [|discriminate].
  cbn [q_url q_method q_headers q_body app]. intros E. injection E as <-. cbn [q_url q_method q_headers q_body].
  split; [reflexivity|]. split; [reflexivity|]. split.
  { unfold add_pair, push. cbn [u_path]. apply segments_push; [exact S|discriminate|]. vm_compute. intuition discriminate. }
  split; [|repeat split; reflexivity].
  rewrite pairs_add; [reflexivity| |exact B]. unfold is_bytes. vm_compute. repeat constructor.
Qed.
Print Assumptions C90_asked_for_the_run.

(* The request is made exactly if the token and the version can be sent; a token with a line end in it, say, is not
   sent and lets nobody write a header of their own. *)
Theorem C90_asked_iff parse version api_url token run_id u :
  parse api_url = Some u ->
  ((exists q, ask parse version api_url token run_id = Some (Some q)) <-> can_be_sent token /\ can_be_sent version).
Proof.
  intros P. setoid_rewrite <- header_ok_sent. unfold ask. rewrite P. unfold with_header, plain. rewrite header_ok_bearer.
  assert (X : header_ok (user_agent version) = header_ok version) by (unfold header_ok, user_agent; rewrite forallb_app; reflexivity).
  destruct (header_ok token); [|split; [intros (q & Q); discriminate|intros [? _]; discriminate]].
  rewrite X. destruct (header_ok version); [split; eauto|split; [intros (q & Q); discriminate|intros [_ ?]; discriminate]].
Qed.
Print Assumptions C90_asked_iff.

(* The service is told exactly if it should be, a token is known, some runner got to know its native runner, and the
   request can be made. *)
Theorem C90_told_iff parse version m b r rs p service :
  fst (end_of_worker parse version m (Pool b r) rs p service) <> [] <->
  m_record m = true /\ (exists t, m_access m = Some t /\ can_be_sent t) /\ can_be_sent version /\
  first_known rs <> None /\ parse (m_api_url m) <> None.
Proof.
  setoid_rewrite <- header_ok_sent.
  unfold end_of_worker, finish. cbn [workers_exit]. rewrite shutdown_info.
  destruct (m_record m); [|cbn; intuition congruence].
  destruct (m_access m) as [t|]; [|cbn; split; [congruence|intros (_ & (? & ? & _) & _); discriminate]].
  destruct (first_known rs) as [s|]; [|cbn; intuition congruence].
  unfold record_metadata. destruct (parse (m_api_url m)) as [u|]; [|cbn; intuition congruence].
  rewrite try_two, build_tell_eq. destruct (header_ok t) eqn:T; cbn [andb].
  2:{ cbn. split; [congruence|]. intros (_ & (? & [= <-] & ?) & _). congruence. }
  destruct (header_ok version) eqn:V; [|cbn; intuition congruence].
  split; [intros _; repeat split; try congruence; eauto|]. intros _.
  destruct (service 1) as [st| |]; [destruct (is_success st)| |]; discriminate.
Qed.
Print Assumptions C90_told_iff.

(* A worker that ran nothing tells nothing. *)
Theorem C90_nothing_to_tell parse version m n rs p service :
  (forall b r, n <> Pool b r) -> fst (end_of_worker parse version m n rs p service) = [].
Proof.
  intros H. destruct n; [| |exfalso; eapply H; reflexivity]; unfold end_of_worker, finish; cbn; destruct (m_record m); [destruct (m_access m)| |destruct (m_access m)|]; reflexivity.
Qed.
Print Assumptions C90_nothing_to_tell.

(* What is told: the run id and the name, version and host of the native runner, with the token; nothing else. *)
Theorem C90_what_is_told parse version m n rs p service q u :
  parse (m_api_url m) = Some u -> (exists t, u_path u = 47 :: t) ->
  In q (fst (end_of_worker parse version m n rs p service)) ->
  exists t s, m_access m = Some t /\ first_known rs = Some s /\
    q_method q = POST /\ u_start (q_url q) = u_start u /\
    segments (u_path (q_url q)) = segments (u_path u) ++ [lit "record_test_run"] /\ u_query (q_url q) = u_query u /\
    header "authorization" q = Some (lit "Bearer " ++ t) /\ header "user-agent" q = Some (lit "abq/" ++ version) /\
    header "content-type" q = Some (lit "application/json") /\ List.length (q_headers q) = 3 /\
    says q = Some (m_run_id m, (n_name s, n_version s, n_host s)).
Proof.
  intros P S I.
  assert (X : exists t s, m_access m = Some t /\ x_info (workers_exit n rs) = Some s /\ q = the_request version u t (m_run_id m) s).
  { unfold end_of_worker, finish in I. destruct (m_record m); [|destruct I]. destruct (m_access m) as [t|]; [|destruct I].
    destruct (x_info (workers_exit n rs)) as [s|]; [|destruct I]. exists t, s. split; [reflexivity|]. split; [reflexivity|].
    unfold record_metadata in I. rewrite P, try_two, build_tell_eq in I. destruct (header_ok t && header_ok version); [|destruct I].
    destruct (service 1) as [st| |]; [destruct (is_success st)| |]; cbn [fst In] in I; intuition congruence. }
  destruct X as (t & s & T & K & ->). exists t, s. split; [exact T|]. split.
  { destruct n; cbn [workers_exit x_info] in K; try discriminate. now rewrite shutdown_info in K. }
  split; [reflexivity|]. split; [reflexivity|]. split.
  { unfold the_request, push. cbn [q_url u_path]. apply segments_push; [exact S|discriminate|]. vm_compute. intuition discriminate. }
  repeat (split; [reflexivity|]). apply says_request.
Qed.
Print Assumptions C90_what_is_told.

(* It is told once, and once more, in the same words, exactly if it answered with a failure. *)
Theorem C90_told_at_most_twice parse version m n rs p service q qs :
  fst (end_of_worker parse version m n rs p service) = q :: qs ->
  qs = match service 1 with
       | Answer st => if Nat.leb 200 st && Nat.leb st 299 then [] else [q]
       | NoAnswer | Silent => []
       end.
Proof.
  unfold end_of_worker, finish. destruct (m_record m); [|discriminate]. destruct (m_access m) as [t|]; [|discriminate].
  destruct (x_info (workers_exit n rs)) as [s|]; [|discriminate].
  unfold record_metadata. destruct (parse (m_api_url m)) as [u|]; [|discriminate]. rewrite try_two.
  destruct (build_tell version u t (m_run_id m) s) as [r|]; [|discriminate].
  destruct (service 1) as [st| |]; cbn [fst]; [|congruence|congruence].
  assert (Y : is_success st = Nat.leb 200 st && Nat.leb st 299).
  { unfold is_success. destruct (Nat.leb_spec 200 st), (Nat.ltb_spec st 300), (Nat.leb_spec st 299); cbn; try reflexivity; lia. }
  rewrite Y. destruct (_ && _); cbn [fst]; congruence.
Qed.
Print Assumptions C90_told_at_most_twice.

(* Whether the service is told, and what it answers, does not change the exit code of a worker: it is the one of the
   model of the worker, which knows nothing of the service.  Partial: the service must answer or fail ([Silent] is
   neither), and the token must be one that can be sent. *)
Theorem C90_exit_code_is_the_workers_partial parse version m g w n rs p service :
  (forall i, service i <> Silent) -> (forall t, m_access m = Some t -> can_be_sent t) -> can_be_sent version ->
  exists code, snd (end_of_worker parse version m n rs p service) = Exits code /\
               w_phase (do_shutdown g w n (Ended (map forget rs) (Some p))) = Exited code.
Proof.
  setoid_rewrite <- header_ok_sent.
  intros Sv T V. exists (worker_exit_code (x_status (workers_exit n rs)) (Z.of_nat (p_suite p))). split.
  2:{ cbn [do_shutdown]. unfold go. cbn [w_phase]. now rewrite status_forget. }
  unfold end_of_worker, finish. destruct (m_record m); [|reflexivity]. destruct (m_access m) as [t|]; [|reflexivity].
  destruct (x_info (workers_exit n rs)) as [s|]; [|reflexivity].
  unfold record_metadata. destruct (parse (m_api_url m)) as [u|]; [|reflexivity].
  rewrite try_two, build_tell_eq, (T t eq_refl), V. cbn [andb].
  assert (S1 := Sv 1). assert (S2 := Sv 2).
  destruct (service 1) as [st| |]; [destruct (is_success st)| |]; try reflexivity; try congruence.
  destruct (service 2); try reflexivity; congruence.
Qed.
Print Assumptions C90_exit_code_is_the_workers_partial.

(* Exactly when a worker that is done never exits. *)
Theorem C90_never_exits_iff parse version m n rs p service :
  snd (end_of_worker parse version m n rs p service) = NeverExits <->
  fst (end_of_worker parse version m n rs p service) <> [] /\
  (service 1 = Silent \/ (exists st, service 1 = Answer st /\ ~ (200 <= st <= 299) /\ service 2 = Silent)).
Proof.
  unfold end_of_worker, finish. destruct (m_record m); [|cbn; split; [discriminate|tauto]].
  destruct (m_access m) as [t|]; [|cbn; split; [discriminate|tauto]].
  destruct (x_info (workers_exit n rs)) as [s|]; [|cbn; split; [discriminate|tauto]].
  unfold record_metadata. destruct (parse (m_api_url m)) as [u|]; [|cbn; split; [discriminate|tauto]].
  rewrite try_two. destruct (build_tell version u t (m_run_id m) s) as [r|]; [|cbn; split; [discriminate|tauto]].
  destruct (service 1) as [st| |] eqn:E; cbn [fst snd].
  - assert (Y : is_success st = true <-> 200 <= st <= 299).
    { unfold is_success. rewrite andb_true_iff, Nat.leb_le, Nat.ltb_lt. lia. }
    destruct (is_success st) eqn:F; cbn [fst snd].
    + split; [discriminate|]. intros (_ & [?|(st' & [= <-] & N & _)]); [discriminate|tauto].
    + destruct (service 2) eqn:E2; (split; [try discriminate|]).
      * intros (_ & [?|(? & _ & _ & ?)]); discriminate.
      * intros (_ & [?|(? & _ & _ & ?)]); discriminate.
      * intros _. split; [discriminate|]. right. exists st. split; [reflexivity|]. split; [|reflexivity].
        intros N. apply Y in N. discriminate.
      * reflexivity.
  - split; [discriminate|]. intros (_ & [?|(? & ? & _)]); discriminate.
  - split; [|reflexivity]. intros _. split; [discriminate|now left].
Qed.
Print Assumptions C90_never_exits_iff.

(* ---- `abq test` ---- *)
Section Abq_test.
Context {Addr Token Bytes Text : Type}.
Implicit Types (o : options Addr Token (list nat) Bytes (list nat) Text) (s : started Addr Token Bytes (list nat) Text).

(* From the command line on: a service that is told has been asked about this very run with the same token before, the
   run is on a queue at an address and not local, and the process ends with the worker's exit code or not at all.
   [unsendable]: no answer comes to a request that cannot be made. *)
Theorem C90_abq_test_tells_whom_it_asked parse version v e stored api unique o calls s g w n rs p service :
  forall (unsendable : forall t r, (forall q, ask parse version (api_base v) t r <> Some (Some q)) -> api t r = None),
  test_command e stored api unique o = (calls, inl s) ->
  let m := metadata_of v stored o s in
  (forall q, In q (fst (end_of_worker parse version m n rs p service)) ->
     exists t a, calls = [(t, s_run_id s)] /\ s_queue s = TheQueueAt a /\ o_local o = false /\
       header "authorization" q = Some (lit "Bearer " ++ t) /\ exists k, says q = Some (s_run_id s, k)) /\
  (snd (end_of_worker parse version m n rs p service) = NeverExits \/
   exists code, snd (end_of_worker parse version m n rs p service) = Exits code /\
                w_phase (do_shutdown g w n (Ended (map forget rs) (Some p))) = Exited code).
Proof.
  intros H C m.
  set (r0 := match or_else (o_run_id o) (inferred_run_id e) with Some r => r | None => unique end).
  assert (A : s_run_id s = r0 /\ (s_telemetry s = true -> exists a, s_queue s = TheQueueAt a) /\
              (forall t, m_access m = Some t -> calls = [(t, r0)] /\ o_local o = false /\ api t r0 <> None)).
  { unfold test_command in C. fold r0 in C. unfold m, metadata_of. cbn [m_access].
    destruct (ask_api (o_local o) (o_access_token o) stored api r0) as [cs ans] eqn:K.
    injection C as C1 C2. subst cs.
    destruct ans as [a|]; [|discriminate].
    destruct (validate_queue_location _ _); [discriminate|]. destruct (o_args o) as [|cmd args]; [discriminate|].
    destruct (r_where (resolve_config o a _)) eqn:W; cbn [find_or_create] in C2.
    - injection C2 as <-. cbn. split; [reflexivity|]. split; [intros _; eauto|].
      intros t T. unfold ask_api in K. destruct (o_local o); [discriminate|]. rewrite T in K.
      destruct (api t r0); [|discriminate]. injection K as <- _. repeat split; congruence.
    - destruct (r_cert _) as [c|], key as [k|]; try discriminate; injection C2 as <-; cbn; (split; [reflexivity|]; split; [discriminate|]);
        intros t T; unfold ask_api in K; destruct (o_local o); try discriminate; rewrite T in K;
        (destruct (api t r0); [|discriminate]); injection K as <- _; repeat split; congruence.
    - discriminate. }
  destruct A as (Ar & At & Aa).
  assert (Hdr : forall t, m_access m = Some t -> header_ok t = true /\ header_ok version = true /\ parse (m_api_url m) <> None).
  { intros t T. destruct (Aa t T) as (_ & _ & Y). change (m_api_url m) with (api_base v).
    assert (Z : exists q, ask parse version (api_base v) t r0 = Some (Some q)).
    { destruct (ask parse version (api_base v) t r0) as [[q|]|] eqn:K; [eauto| |]; exfalso; apply Y, H; intros q; rewrite K; discriminate. }
    destruct Z as (q & Z). unfold ask, with_header, plain in Z. destruct (parse (api_base v)) as [u|]; [|discriminate].
    rewrite header_ok_bearer in Z. destruct (header_ok t); [|discriminate].
    assert (X : header_ok (user_agent version) = header_ok version) by (unfold header_ok, user_agent; rewrite forallb_app; reflexivity).
    rewrite X in Z. destruct (header_ok version); [|discriminate]. repeat split; discriminate. }
  split.
  - intros q I. unfold end_of_worker, finish in I.
    destruct (m_record m) eqn:M; [|destruct I]. destruct (m_access m) as [t|]; [|destruct I].
    destruct (x_info (workers_exit n rs)) as [k|]; [|destruct I]. destruct (Aa t eq_refl) as (C1 & L & _).
    destruct (At M) as (a & Q). exists t, a. rewrite Ar. repeat (split; [assumption|]).
    unfold record_metadata in I. destruct (parse (m_api_url m)) as [u|]; [|destruct I]. rewrite try_two, build_tell_eq in I.
    destruct (header_ok t && header_ok version); [|destruct I].
    assert (q = the_request version u t (m_run_id m) k) as ->
      by (destruct (service 1) as [st| |]; [destruct (is_success st)| |]; cbn [fst In] in I; intuition congruence).
    split; [reflexivity|]. rewrite says_request. change (m_run_id m) with (s_run_id s). rewrite Ar. eauto.
  - destruct (snd (end_of_worker parse version m n rs p service)) as [code|] eqn:K; [right|now left].
    exists code. split; [reflexivity|]. cbn [do_shutdown]. unfold go. cbn [w_phase]. rewrite <- status_forget. f_equal.
    unfold end_of_worker, finish in K. destruct (m_record m); [|cbn in K; congruence].
    destruct (m_access m) as [t|]; [|cbn in K; congruence]. destruct (Hdr t eq_refl) as (H1 & H2 & _).
    destruct (x_info (workers_exit n rs)) as [k|]; [|cbn in K; congruence].
    unfold record_metadata in K. destruct (parse (m_api_url m)) as [u|]; [|cbn in K; congruence].
    rewrite try_two, build_tell_eq, H1, H2 in K. cbn [andb] in K.
    destruct (service 1) as [st| |]; [destruct (is_success st)| |]; cbn [snd] in K; try congruence.
    destruct (service 2); congruence.
Qed.
End Abq_test.
Print Assumptions C90_abq_test_tells_whom_it_asked.

(* ---- a concrete case ---- *)
Definition ex_url : url := {| u_start := lit "https://cloud.rwx.com"; u_path := lit "/abq/api"; u_query := None; u_fragment := None |}.
Definition ex_parse (t : list nat) : option url := if same_text t DEFAULT_API then Some ex_url else None.
Definition ex_version : list nat := lit "1.3.2".
Definition ex_spec : spec := {| n_name := lit "abq-jest"; n_version := lit "1.0"; n_framework := lit "jest"; n_framework_version := lit "29";
  n_language := lit "javascript"; n_language_version := lit "es2020"; n_host := lit "node \ 18" |}.
Definition ex_meta : metadata := {| m_api_url := DEFAULT_API; m_access := Some (lit "tok"); m_run_id := lit "my run"; m_record := true |}.
Definition no_io : stdio := {| so_out := []; so_err := [] |}.
Definition ex_runners : list (runner_exit spec) := [ROk 0%Z None no_io [] None; ROk 0%Z None no_io [] (Some ex_spec)].
Definition ex_report : report := {| p_suite := 1; p_count := 3; p_errors := [] |}.

Example C90_ask_example : exists q, ask ex_parse ex_version DEFAULT_API (lit "tok") (lit "a&b=c d") = Some (Some q) /\
  u_query (q_url q) = Some (lit "run_id=a%26b%3Dc+d") /\ u_path (q_url q) = lit "/abq/api/queue".
Proof. eexists. vm_compute. repeat split. Qed.

(* The service fails once, then accepts. *)
Example C90_told_example : exists q,
  end_of_worker ex_parse ex_version ex_meta (Pool true false) ex_runners ex_report (fun i => if i =? 1 then Answer 500 else Answer 200) = ([q; q], Exits 1) /\
  says q = Some (lit "my run", (lit "abq-jest", lit "1.0", lit "node \ 18")) /\ u_path (q_url q) = lit "/abq/api/record_test_run".
Proof.
  exists (the_request ex_version ex_url (lit "tok") (lit "my run") ex_spec). split; [vm_compute; reflexivity|].
  split; [apply says_request|vm_compute; reflexivity].
Qed.

(* `abq test --access-token tok --run-id 'my run' -- jest`; the API knows the token. *)
Definition ex_options : options nat nat (list nat) nat (list nat) nat :=
  {| o_run_id := Some (lit "my run"); o_access_token := Some (lit "tok"); o_local := false; o_queue_addr := None; o_token := None;
     o_tls_cert := None; o_tls_key := None; o_retries := 0; o_args := [7] |}.
Definition ex_api (t r : list nat) : option (api_config nat nat nat nat) :=
  match ask ex_parse ex_version (api_base None) t r with Some (Some _) => Some (Success 80 5 None Organization) | _ => None end.
Definition ex_env : environment (list nat) :=
  {| e_abq_run_id := None; e_ci := false; e_buildkite := None; e_circle := None; e_github := None; e_mint := None |}.
Example C90_abq_test_example :
  (forall t r, (forall q, ask ex_parse ex_version (api_base None) t r <> Some (Some q)) -> ex_api t r = None) /\
  exists s, test_command ex_env None ex_api (lit "fresh") ex_options = ([(lit "tok", lit "my run")], inl s) /\ metadata_of None None ex_options s = ex_meta.
Proof.
  split.
  - intros t r H. unfold ex_api. destruct (ask _ _ _ t r) as [[q|]|]; [exfalso; eapply H; reflexivity|reflexivity|reflexivity].
  - eexists. split; vm_compute; reflexivity.
Qed.

(* A service that accepts the request and never answers it keeps a worker whose run is over from exiting. *)
Theorem C90_worker_ends_refuted : exists m rs service,
  (forall i, service i = Silent) /\ m_record m = true /\ rs = ex_runners /\
  snd (end_of_worker ex_parse ex_version m (Pool true false) rs ex_report service) = NeverExits /\
  exists g w, w_phase (do_shutdown g w (Pool true false) (Ended (map forget rs) (Some ex_report))) = Exited 1%Z.
Proof.
  exists ex_meta, ex_runners, (fun _ => Silent). split; [intros i; reflexivity|]. split; [reflexivity|]. split; [reflexivity|].
  split; [vm_compute; reflexivity|].
  exists {| g_piped := false; g_write := true; g_remote := true |}, {| w_phase := Waiting (Pool true false) None; w_signal := false; w_log := [] |}.
  vm_compute. reflexivity.
Qed.
Print Assumptions C90_worker_ends_refuted.
