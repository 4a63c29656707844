(* C89: a queue is what its options say, and whoever has its address, its token and its certificate finds the way to
   its servers. *)
From Verif Require Import Base OffloadModel PersisterModel AuthModel AuthSpec AuthProofs AuthProps StartModel StartSpec StartProofs.
From Coq Require Import String.
Local Open Scope list_scope.

Section C89.
Context {Ip Cron Tls Cert : Type} (secures : option Tls -> option Cert -> bool).
Notation options := (options Ip Cron). Notation host := (host Ip Cron Tls). Notation live := (live Ip Cron Tls).
Notation client := (client Ip Cert).

(* If there is no queue, the reason that is given is so; there are no other reasons. *)
Theorem C89_no_queue_for_a_reason : forall (h : host) (o : options) f, accepted o = true ->
  abq_start h o = inr f -> is_so h o f.
Proof. intros h o f A E. pose proof (abq_start_good h o A) as G. now rewrite E in G. Qed.

(* None of its servers hears anyone who does not show one of the tokens, if tokens were given. *)
Theorem C89_only_with_token : forall (h : host) (o : options) (l : live) (k : client) message a s, accepted o = true ->
  abq_start h o = inl l -> reaches secures (l_queue l) k message a = Some s ->
  lets_in o (send_header (k_auth k) ++ message).
Proof.
  intros h o l k m a s A E R. pose proof (abq_start_good h o A) as G. rewrite E in G.
  apply reaches_inv in R as (_ & _ & _ & r & R). rewrite (g_auth _ _ _ G) in R.
  unfold lets_in. destruct (o_user_token o) as [u|]; [|exact I]. destruct (o_admin_token o) as [ad|]; [|exact I].
  apply C48_role_needs_token in R as [R _]. exists m. destruct (is_admin r); auto.
Qed.

(* Each of them speaks with the certificate and the key in the files that were named, and without TLS if none were. *)
Theorem C89_tls_as_asked : forall (h : host) (o : options) (l : live), accepted o = true -> abq_start h o = inl l ->
  exists t, tls_asked h o t /\
    forall (k : client) message a s, reaches secures (l_queue l) k message a = Some s -> secures t (k_cert k) = true.
Proof.
  intros h o l A E. pose proof (abq_start_good h o A) as G. rewrite E in G.
  destruct (g_tls _ _ _ G) as (t & T & TA). exists t. split; [exact TA|].
  intros k m a s R. apply reaches_inv in R as (_ & _ & R & _). now rewrite T in R.
Qed.

(* Its servers are bound to the address and the ports that were asked for, each to one of its own, and what is printed
   is where the queue and its files are: the address to connect to has the public IP and the port of the queue. *)
Theorem C89_where_asked : forall (h : host) (o : options) (l : live), accepted o = true -> binds_honestly (h_bind h) -> abq_start h o = inl l ->
  exists s n w, at_port (l_queue l) s = Some TheQueue /\ at_port (l_queue l) n = Some TheNegotiator /\ at_port (l_queue l) w = Some TheWorkServer /\
    port_asked (o_port o) s /\ port_asked (o_negotiator_port o) n /\ port_asked (o_work_port o) w /\
    q_server (l_queue l) = (o_bind o, s) /\ q_negotiator (l_queue l) = (o_bind o, n) /\ q_work (l_queue l) = (o_bind o, w) /\
    l_lines l = [LiveOn (o_bind o, s); ManifestsAt (q_manifests (l_queue l)); ResultsAt (q_results (l_queue l)); TestWith (public_ip o, s)].
Proof.
  intros h o l A B E. pose proof (abq_start_good h o A) as G. rewrite E in G.
  destruct (g_ports _ _ _ G) as (s & n & w & B1 & B2 & B3 & Q1 & Q2 & Q3 & _ & _ & _ & L).
  destruct (B _ _ _ _ B1) as [_ P1], (B _ _ _ _ B2) as [D2 P2], (B _ _ _ _ B3) as [D3 P3]. cbn in D2, D3.
  exists s, n, w. unfold at_port, port_asked. rewrite Q1, Q2, Q3. cbn [snd]. rewrite !N.eqb_refl.
  rewrite (proj2 (N.eqb_neq n s)), (proj2 (N.eqb_neq w s)), (proj2 (N.eqb_neq w n)) by (intros ->; tauto).
  repeat (split; [first [reflexivity|match goal with |- ?p = 0%N \/ _ => destruct (N.eq_dec p 0); auto end]|]).
  exact L.
Qed.

(* It keeps manifests and results in the directories that were configured, or else in temporary ones that are there
   while it serves; and remotely where it was told to. *)
Theorem C89_kept_where_asked : forall (h : host) (o : options) (l : live), accepted o = true -> abq_start h o = inl l ->
  dir_asked (o_manifests_dir o) (l_temporary l) (q_manifests (l_queue l)) /\
  dir_asked (o_results_dir o) (l_temporary l) (q_results (l_queue l)) /\
  resolve (h_s3 h) (o_remote o) = inl (q_remote (l_queue l)).
Proof.
  intros h o l A E. pose proof (abq_start_good h o A) as G. rewrite E in G.
  exact (conj (g_manifests _ _ _ G) (conj (g_results _ _ _ G) (g_remote _ _ _ G))).
Qed.

(* There is a job for manifests and one for results exactly if schedules were given for them, on that schedule; and what
   they move away is what was not read for the hours that were given, neither more nor less. *)
Theorem C89_jobs_as_asked : forall (h : host) (o : options) (l : live), accepted o = true -> abq_start h o = inl l ->
  job_asked (o_stale_hours o) (o_manifests_cron o) (j_manifests (l_jobs l)) /\
  job_asked (o_stale_hours o) (o_results_cron o) (j_results (l_jobs l)).
Proof.
  intros h o l A E. pose proof (abq_start_good h o A) as G. rewrite E in G.
  rewrite (g_jobs _ _ _ G). cbn. unfold job_asked.
  pose proof (offloads_hours (o_stale_hours o)) as X.
  destruct (o_manifests_cron o), (o_results_cron o); cbn [option_map]; auto.
Qed.

(* A worker whose host the public IP leads to the queue from, with one of the tokens, a certificate that goes with the queue's and the
   same version, is led from the address that was printed to the server that hands out work and the one that takes results. *)
Theorem C89_printed_address_leads_to_work_partial : forall version (h : host) (o : options) (l : live) (k : client) m1 m2 m3 printed,
  accepted o = true -> binds_honestly (h_bind h) -> abq_start h o = inl l -> In (TestWith printed) (l_lines l) ->
  k_leads k (public_ip o) = true -> shows_token (o_user_token o) (o_admin_token o) k -> k_version k = version ->
  (forall t, tls_asked h o t -> secures t (k_cert k) = true) ->
  exists work results, find_way secures version (l_queue l) k m1 m2 printed = inl (work, results) /\
    reaches secures (l_queue l) k m3 work = Some TheWorkServer /\ reaches secures (l_queue l) k m3 results = Some TheQueue.
Proof.
  intros version h o l k m1 m2 m3 printed A B E P L T V S. pose proof (abq_start_good h o A) as G. rewrite E in G.
  destruct (g_ports _ _ _ G) as (s & n & w & B1 & B2 & B3 & Q1 & Q2 & Q3 & A1 & A2 & A3 & Ln).
  destruct (B _ _ _ _ B2) as [D2 _], (B _ _ _ _ B3) as [D3 _]. cbn in D2, D3.
  destruct (g_tls _ _ _ G) as (t & Ta & TA). apply S in TA.
  assert (printed = (public_ip o, s)) as -> by (rewrite Ln in P; cbn in P; destruct P as [P|[P|[P|[P|[]]]]]; try discriminate; injection P as <-; reflexivity).
  assert (R : forall m p sv, at_port (l_queue l) p = Some sv -> reaches secures (l_queue l) k m (public_ip o, p) = Some sv).
  { intros m p sv Ep. apply reaches_inv. cbn [fst snd]. rewrite (g_auth _ _ _ G), Ta. repeat split; auto. now apply shown_is_heard. }
  assert (X : at_port (l_queue l) s = Some TheQueue /\ at_port (l_queue l) n = Some TheNegotiator /\ at_port (l_queue l) w = Some TheWorkServer).
  { unfold at_port. rewrite Q1, Q2, Q3. cbn [snd]. rewrite !N.eqb_refl.
    rewrite (proj2 (N.eqb_neq n s)), (proj2 (N.eqb_neq w s)), (proj2 (N.eqb_neq w n)) by (intros ->; tauto). auto. }
  destruct X as (X1 & X2 & X3).
  exists (public_ip o, w), (public_ip o, s). unfold find_way, ask_queue, attach.
  rewrite (R m1 s _ X1), V, Nat.eqb_refl, A1, (R m2 n _ X2), A2, A3. auto.
Qed.

(* One that reaches the queue by another address than the public one finds work only if the public one leads there too. *)
Theorem C89_other_addresses_need_the_public_one : forall version (h : host) (o : options) (l : live) (k : client) m1 m2 a way,
  accepted o = true -> abq_start h o = inl l -> find_way secures version (l_queue l) k m1 m2 a = inl way ->
  k_leads k (public_ip o) = true /\ k_version k = version /\ fst (fst way) = public_ip o /\ fst (snd way) = public_ip o.
Proof.
  intros version h o l k m1 m2 a way A E F. pose proof (abq_start_good h o A) as G. rewrite E in G.
  destruct (g_ports _ _ _ G) as (s & n & w & _ & _ & _ & _ & _ & _ & A1 & A2 & A3 & _).
  unfold find_way, ask_queue, attach in F.
  destruct (reaches secures (l_queue l) k m1 a) as [[]|]; try discriminate.
  destruct (Nat.eqb_spec version (k_version k)); [|discriminate].
  destruct (reaches secures (l_queue l) k m2 (q_public_negotiator (l_queue l))) as [[]|] eqn:R; try discriminate.
  injection F as <-. apply reaches_inv in R as (R & _). rewrite A1 in R. rewrite A2, A3. cbn in *. auto.
Qed.

(* The queue of a local run: its own worker finds the servers, and nobody without a token does if the run was given one. *)
Theorem C89_local_queue : forall (h : host) ip user admin tls (l : live) (k : client) m2 m3,
  binds_honestly (h_bind h) -> new_ephemeral h ip user admin tls = inl l ->
  k_leads k ip = true -> shows_token user (Some admin) k -> secures tls (k_cert k) = true ->
  exists work results, attach secures (l_queue l) k m2 (negotiator_handle (l_queue l)) = inl (work, results) /\
    reaches secures (l_queue l) k m3 work = Some TheWorkServer /\ reaches secures (l_queue l) k m3 results = Some TheQueue.
Proof.
  intros h ip user admin tls l k m2 m3 B E L T S. unfold new_ephemeral in E.
  destruct (h_temp1 h) as [t1|]; [|discriminate]. destruct (h_temp2 h) as [t2|]; [|discriminate].
  match type of E with context [start_queue ?b ?c] => pose proof (start_queue_made b c) as Q; destruct (start_queue b c) as [q|] end; [|discriminate].
  injection E as <-. destruct Q as (s & n & w & B1 & B2 & B3 & Q1 & Q2 & Q3 & Q4 & Q5 & A1 & A2 & A3 & _). cbn in *.
  destruct (B _ _ _ _ B2) as [D2 _], (B _ _ _ _ B3) as [D3 _]. cbn in D2, D3.
  assert (R : forall m p sv, at_port q p = Some sv -> reaches secures q k m (ip, p) = Some sv).
  { intros m p sv Ep. apply reaches_inv. cbn [fst snd]. rewrite Q4, Q5. repeat split; auto.
    destruct (shown_is_heard user (Some admin) k m T) as [r R]. exists r. destruct user; exact R. }
  assert (X : at_port q s = Some TheQueue /\ at_port q n = Some TheNegotiator /\ at_port q w = Some TheWorkServer).
  { unfold at_port. rewrite Q1, Q2, Q3. cbn [snd]. rewrite !N.eqb_refl.
    rewrite (proj2 (N.eqb_neq n s)), (proj2 (N.eqb_neq w s)), (proj2 (N.eqb_neq w n)) by (intros ->; tauto). auto. }
  destruct X as (X1 & X2 & X3).
  exists (ip, w), (ip, s). unfold attach, negotiator_handle. rewrite Q2, (R m2 n _ X2), A2, A3. auto.
Qed.

Theorem C89_local_queue_closed : forall (h : host) ip u admin tls (l : live) (k : client) message a s,
  new_ephemeral h ip (Some u) admin tls = inl l -> reaches secures (l_queue l) k message a = Some s ->
  (exists rest, send_header (k_auth k) ++ message = u ++ rest \/ send_header (k_auth k) ++ message = admin ++ rest) /\
  secures tls (k_cert k) = true /\ q_remote (l_queue l) = PNoop.
Proof.
  intros h ip u admin tls l k m a s E R. unfold new_ephemeral in E.
  destruct (h_temp1 h) as [t1|]; [|discriminate]. destruct (h_temp2 h) as [t2|]; [|discriminate].
  match type of E with context [start_queue ?b ?c] => pose proof (start_queue_made b c) as Q; destruct (start_queue b c) as [q|] end; [|discriminate].
  injection E as <-. destruct Q as (sp & n & w & _ & _ & _ & _ & _ & _ & Q4 & Q5 & _ & _ & _ & _ & _ & Q6). cbn in *.
  apply reaches_inv in R as (_ & _ & S & r & R). rewrite Q4 in R. rewrite Q5 in S.
  apply C48_role_needs_token in R as [R _]. split; [|auto]. exists m. destruct (is_admin r); auto.
Qed.
(* Which options are taken: both tokens or none, a certificate with a key, ports below 65536, less than 4294967296 hours. *)
Theorem C89_accepted : forall (o : options), accepted o = true <->
  (o_user_token o = None <-> o_admin_token o = None) /\ (o_tls_cert o = None <-> o_tls_key o = None) /\
  (o_port o <= 65535)%N /\ (o_work_port o <= 65535)%N /\ (o_negotiator_port o <= 65535)%N /\ (o_stale_hours o <= 4294967295)%N.
Proof.
  intros o. unfold accepted. rewrite !andb_true_iff, !N.ltb_lt, !Bool.eqb_true_iff. change (2 ^ 16)%N with 65536%N. change (2 ^ 32)%N with 4294967296%N.
  assert (G : forall A B (x : option A) (y : option B), given x = given y <-> (x = None <-> y = None)).
  { intros A B [x|] [y|]; cbn; split; intros H; try tauto; try discriminate; try (split; discriminate);
      destruct H as [H1 H2]; first [discriminate (H1 eq_refl)|discriminate (H2 eq_refl)]. }
  rewrite !G. split; intros H; repeat split; try tauto; try (apply H); lia.
Qed.

(* There is no queue of a local run only if there is no temporary directory or a port cannot be had. *)
Theorem C89_local_queue_for_a_reason : forall (h : host) ip user admin tls f,
  new_ephemeral h ip user admin tls = inr f ->
  (f = NoTemporaryDirectory /\ (h_temp1 h = None \/ h_temp2 h = None)) \/
  (f = CannotBind (ip, 0%N) /\ exists used, h_bind h used ip 0%N = None).
Proof.
  intros h ip user admin tls f E. unfold new_ephemeral in E.
  destruct (h_temp1 h) as [t1|] eqn:T1; [|injection E as <-; auto]. destruct (h_temp2 h) as [t2|] eqn:T2; [|injection E as <-; auto].
  match type of E with context [start_queue ?b ?c] => pose proof (start_queue_made b c) as Q; destruct (start_queue b c) as [q|] end; [discriminate|].
  injection E as <-. destruct Q as (used & p & I & -> & B). cbn in I. assert (p = 0%N) as -> by (clear - I; intuition congruence). right. split; [reflexivity|]. eauto.
Qed.
End C89.

(* ---- cases ---- *)


Definition ex_user : list nat := repeat 97 30.
Definition ex_admin : list nat := repeat 98 30.
Definition ex_host : host nat nat nat :=
  {| h_read := fun p => if String.eqb p "cert.pem" then Some [1] else if String.eqb p "key.pem" then Some [2] else None;
     h_tls := fun c k => Some (List.length c + List.length k); h_temp1 := Some "/tmp/a"%string; h_temp2 := Some "/tmp/b"%string; h_s3 := true; h_schedules := fun _ => true;
     h_bind := fun used ip p => if N.eqb p 0 then Some (fold_left N.add used 1000)%N else if existsb (N.eqb p) used then None else Some p |}.
Definition ex_options : options nat nat :=
  {| o_bind := 0; o_public_ip := Some 7; o_port := 4000; o_work_port := 0; o_negotiator_port := 0;
     o_user_token := Some ex_user; o_admin_token := Some ex_admin; o_tls_cert := Some "cert.pem"%string; o_tls_key := Some "key.pem"%string;
     o_manifests_dir := Some "/data"%string; o_results_dir := None;
     o_remote := {| c_strategy := Some SS3; c_command := None; c_bucket := Some "b"%string; c_prefix := Some "p"%string |};
     o_manifests_cron := None; o_results_cron := Some 5; o_stale_hours := 6 |}.
Definition ex_secures (t c : option nat) : bool := match t, c with Some a, Some b => Nat.eqb a b | None, None => true | _, _ => false end.
Definition ex_worker : client nat nat :=
  {| k_leads := Nat.eqb 7; k_auth := CToken ex_user; k_cert := Some 2; k_version := 1 |}.

Lemma sum_ge used z : (z <= fold_left N.add used z)%N /\ forall x, In x used -> (x <= fold_left N.add used z)%N.
Proof.
  revert z; induction used as [|y used IH]; intros z; cbn; [split; [lia|tauto]|].
  destruct (IH (z + y)%N) as [I1 I2]. split; [lia|]. intros x [->|H]; [lia|auto].
Qed.
Lemma sum_gt used z : (0 < z)%N -> ~ In (fold_left N.add used z) used.
Proof.
  revert z; induction used as [|y used IH]; intros z Z; cbn; [tauto|].
  intros [H|H]; [pose proof (proj1 (sum_ge used (z + y)%N)); lia|]. apply (IH (z + y)%N); [lia|exact H].
Qed.

(* the hypotheses are met, and the worker finds its way; without its token it does not get anywhere *)
Example ex_c89 : accepted ex_options = true /\ binds_honestly (h_bind ex_host) /\
  (forall t, tls_asked ex_host ex_options t -> ex_secures t (k_cert ex_worker) = true) /\
  shows_token (o_user_token ex_options) (o_admin_token ex_options) ex_worker /\
  match abq_start ex_host ex_options with
  | inl l => In (TestWith (7, 4000%N)) (l_lines l) /\ In (ManifestsAt "/data"%string) (l_lines l) /\ In (ResultsAt "/tmp/a"%string) (l_lines l) /\
      find_way ex_secures 1 (l_queue l) ex_worker [1] [2] (7, 4000%N) = inl ((7, 10000%N), (7, 4000%N)) /\
      find_way ex_secures 1 (l_queue l) {| k_leads := Nat.eqb 7; k_auth := CNoAuth; k_cert := Some 2; k_version := 1 |} [1] [2] (7, 4000%N) = inr CouldNotConnect /\
      find_way ex_secures 2 (l_queue l) ex_worker [1] [2] (7, 4000%N) = inr (IncompatibleVersion 2)
  | inr _ => False
  end.
Proof.
  split; [vm_compute; reflexivity|]. split.
  { intros used ip p p'. cbn. destruct (N.eqb_spec p 0) as [->|Hp].
    - intros E. injection E as <-. split; [apply sum_gt; lia|tauto].
    - destruct (existsb (N.eqb p) used) eqn:X; [discriminate|]. intros E. injection E as <-. split; [|auto].
      intros H. assert (existsb (N.eqb p) used = true) by (apply existsb_exists; exists p; split; [exact H|apply N.eqb_refl]). congruence. }
  split. { cbn. intros t (c & k & E1 & E2 & -> & _). vm_compute in E1, E2. injection E1 as <-. injection E2 as <-. reflexivity. }
  split. { assert (X : token ex_user) by (split; [reflexivity|apply Forall_forall; intros x H; apply repeat_spec in H as ->; unfold is_alnum; lia]).
           assert (Y : token ex_admin) by (split; [reflexivity|apply Forall_forall; intros x H; apply repeat_spec in H as ->; unfold is_alnum; lia]).
           exact (conj X (conj Y (or_introl eq_refl))). }
  vm_compute. repeat split; auto 10.
Qed.

Example ex_c89_local : exists l, new_ephemeral ex_host 0 (Some ex_user) ex_admin None = inl l /\
  attach ex_secures (l_queue l) {| k_leads := Nat.eqb 0; k_auth := CToken ex_user; k_cert := None; k_version := 1 |} [2] (negotiator_handle (l_queue l))
  = inl ((0, 4000%N), (0, 1000%N)).
Proof. eexists. vm_compute. split; reflexivity. Qed.

(* ---- what the code does not keep to ---- *)

(* Without --public-ip and --bind the queue is known by 0.0.0.0.  A worker on another host that is given the queue's real
   address reaches the queue, has its token and its version, and yet finds no work: 0.0.0.0 is its own host. *)
Definition ex_default : options nat nat :=
  {| o_bind := 0; o_public_ip := None; o_port := 4000; o_work_port := 0; o_negotiator_port := 0; o_user_token := None; o_admin_token := None;
     o_tls_cert := None; o_tls_key := None; o_manifests_dir := None; o_results_dir := None;
     o_remote := {| c_strategy := None; c_command := None; c_bucket := None; c_prefix := None |};
     o_manifests_cron := None; o_results_cron := None; o_stale_hours := 6 |}.
Theorem C89_printed_address_leads_to_work_refuted : exists (l : live nat nat nat) (k : client nat nat) a,
  accepted ex_default = true /\ abq_start ex_host ex_default = inl l /\
  reaches ex_secures (l_queue l) k [1] a = Some TheQueue /\ find_way ex_secures 1 (l_queue l) k [1] [2] a = inr NoAnswer.
Proof.
  eexists _, {| k_leads := Nat.eqb 7; k_auth := CNoAuth; k_cert := None; k_version := 1 |}, (7, 4000%N). vm_compute. repeat split.
Qed.

(* The directories of the queue of a local run are gone before it serves. *)
Theorem C89_local_directories_refuted : exists l : live nat nat nat, new_ephemeral ex_host 0 None ex_admin None = inl l /\
  ~ dir_asked None (l_temporary l) (q_manifests (l_queue l)) /\ ~ dir_asked None (l_temporary l) (q_results (l_queue l)).
Proof. eexists. vm_compute. repeat split; auto. Qed.

Print Assumptions C89_no_queue_for_a_reason.
Print Assumptions C89_only_with_token.
Print Assumptions C89_tls_as_asked.
Print Assumptions C89_where_asked.
Print Assumptions C89_kept_where_asked.
Print Assumptions C89_jobs_as_asked.
Print Assumptions C89_printed_address_leads_to_work_partial.
Print Assumptions C89_other_addresses_need_the_public_one.
Print Assumptions C89_local_queue.
Print Assumptions C89_local_queue_closed.
Print Assumptions C89_printed_address_leads_to_work_refuted.
Print Assumptions C89_local_directories_refuted.
Print Assumptions C89_accepted.
Print Assumptions C89_local_queue_for_a_reason.
