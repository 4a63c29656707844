From Verif Require Import Base OffloadModel PersisterModel AuthModel AuthSpec AuthProofs AuthProps StartModel StartSpec.
From Coq Require Import String.
Local Open Scope list_scope.

Section Proofs.
Context {Ip Cron Tls Cert : Type}.
Notation options := (options Ip Cron). Notation host := (host Ip Cron Tls). Notation live := (live Ip Cron Tls).

(* What a queue is like that start_queue made of a configuration *)
Definition made_of (bind : list N -> Ip -> N -> option N) (c : queue_config) (q : queue Ip Tls) : Prop :=
  exists s n w, bind [] (c_bind_ip c) (c_server_port c) = Some s /\
    bind [s] (c_bind_ip c) (c_negotiator_port c) = Some n /\ bind [n; s] (c_bind_ip c) (c_work_port c) = Some w /\
    q_server q = (c_bind_ip c, s) /\ q_negotiator q = (c_bind_ip c, n) /\ q_work q = (c_bind_ip c, w) /\
    (forall sv, q_auth q sv = c_auth c) /\ (forall sv, q_tls q sv = c_tls c) /\
    q_public_negotiator q = (c_public_ip c, n) /\ q_advertised_work q = (c_public_ip c, w) /\
    q_advertised_results q = (c_public_ip c, s) /\
    q_manifests q = c_manifests c /\ q_results q = c_results c /\ q_remote q = c_remote c.

Lemma start_queue_made (bind : list N -> Ip -> N -> option N) (c : queue_config (Tls := Tls)) :
  match start_queue bind c with
  | inl q => made_of bind c q
  | inr f => exists used p, In p [c_server_port c; c_negotiator_port c; c_work_port c] /\
               f = CannotBind (c_bind_ip c, p) /\ bind used (c_bind_ip c) p = None
  end.
Proof.
  unfold start_queue.
  destruct (bind [] _ _) as [s|] eqn:S1; [|exists [], (c_server_port c); cbn; auto].
  destruct (bind [s] _ _) as [n|] eqn:S2; [|exists [s], (c_negotiator_port c); cbn; auto].
  destruct (bind [n; s] _ _) as [w|] eqn:S3; [|exists [n; s], (c_work_port c); cbn; auto].
  exists s, n, w. cbn. repeat (split; [first [assumption|reflexivity|now intros []]|]). auto.
Qed.

(* What a live queue is like that was made of options *)
Record good (h : host) (o : options) (l : live) : Prop := {
  g_auth : forall sv, q_auth (l_queue l) sv = match o_user_token o, o_admin_token o with Some u, Some a => STokens u a | _, _ => SNoAuth end;
  g_tls : exists t, (forall sv, q_tls (l_queue l) sv = t) /\ tls_asked h o t;
  g_ports : exists s n w, h_bind h [] (o_bind o) (o_port o) = Some s /\ h_bind h [s] (o_bind o) (o_negotiator_port o) = Some n /\
    h_bind h [n; s] (o_bind o) (o_work_port o) = Some w /\
    q_server (l_queue l) = (o_bind o, s) /\ q_negotiator (l_queue l) = (o_bind o, n) /\ q_work (l_queue l) = (o_bind o, w) /\
    q_public_negotiator (l_queue l) = (public_ip o, n) /\ q_advertised_work (l_queue l) = (public_ip o, w) /\
    q_advertised_results (l_queue l) = (public_ip o, s) /\
    l_lines l = [LiveOn (o_bind o, s); ManifestsAt (q_manifests (l_queue l)); ResultsAt (q_results (l_queue l)); TestWith (public_ip o, s)];
  g_manifests : dir_asked (o_manifests_dir o) (l_temporary l) (q_manifests (l_queue l));
  g_results : dir_asked (o_results_dir o) (l_temporary l) (q_results (l_queue l));
  g_remote : resolve (h_s3 h) (o_remote o) = inl (q_remote (l_queue l));
  g_jobs : l_jobs l = {| j_manifests := option_map (fun s => (s, After (Z.of_N (o_stale_hours o * 60 * 60)))) (o_manifests_cron o);
                         j_results := option_map (fun s => (s, After (Z.of_N (o_stale_hours o * 60 * 60)))) (o_results_cron o) |}
}.

Lemma persisted_dir_good (c t : option string) :
  match persisted_dir (Ip := Ip) c t with
  | inl (d, made) => dir_asked c made d /\ (c = None -> t = Some d) /\ (made = [] <-> c <> None)
  | inr f => f = NoTemporaryDirectory /\ c = None /\ t = None
  end.
Proof.
  unfold persisted_dir. destruct c as [c|]; [cbn; repeat split; congruence|].
  destruct t as [t|]; cbn; repeat split; auto; congruence.
Qed.

Lemma forever_good h (o : options) auth tls :
  match start_abq_forever h o auth tls (o_stale_hours o * 60 * 60) with
  | inl l => (forall sv, q_auth (l_queue l) sv = auth) -> auth = match o_user_token o, o_admin_token o with Some u, Some a => STokens u a | _, _ => SNoAuth end ->
             tls_asked h o tls -> good h o l
  | inr f => is_so h o f
  end.
Proof.
  unfold start_abq_forever.
  pose proof (persisted_dir_good (o_manifests_dir o) (h_temp1 h)) as P1.
  destruct (persisted_dir (o_manifests_dir o) (h_temp1 h)) as [[m made1]|f]; [|destruct P1 as (-> & E1 & E2); cbn; auto].
  destruct P1 as (D1 & T1 & N1).
  set (t2 := match made1 with [] => h_temp1 h | _ => h_temp2 h end).
  pose proof (persisted_dir_good (o_results_dir o) t2) as P2.
  destruct (persisted_dir (o_results_dir o) t2) as [[r made2]|f].
  2:{ destruct P2 as (-> & E1 & E2). cbn. split; [auto|]. unfold t2 in E2. destruct made1; auto. }
  destruct P2 as (D2 & T2 & N2).
  destruct (resolve (h_s3 h) (o_remote o)) as [remote|why] eqn:R; [|exact R].
  unfold build_scheduled_jobs.
  assert (J : forall x : option Cron, (match x with Some s => negb (h_schedules h s) | None => false end) = true -> exists s, x = Some s /\ h_schedules h s = false).
  { intros [s|]; [|discriminate]. destruct (h_schedules h s) eqn:E; [discriminate|]. exists s; auto. }
  destruct (match o_manifests_cron o with Some s => negb (h_schedules h s) | None => false end) eqn:J1.
  { destruct (J _ J1) as (s & Es & E). exists s; auto. }
  destruct (match o_results_cron o with Some s => negb (h_schedules h s) | None => false end) eqn:J2.
  { destruct (J _ J2) as (s & Es & E). exists s; auto. }
  match goal with |- context [start_queue ?b ?c] => pose proof (start_queue_made b c) as Q; destruct (start_queue b c) as [q|f] end.
  - intros A EA ET. destruct Q as (s & n & w & B1 & B2 & B3 & Q1 & Q2 & Q3 & Q4 & Q5 & Q6 & Q7 & Q8 & Q9 & Q10 & Q11).
    cbn in *.
    constructor; cbn; rewrite ?Q9, ?Q10, ?Q11.
    + intros sv. now rewrite Q4.
    + exists tls. split; [exact Q5|exact ET].
    + exists s, n, w. rewrite Q1. cbn. repeat split; auto.
    + unfold dir_asked in *. destruct (o_manifests_dir o); [exact D1|]. apply in_or_app; auto.
    + unfold dir_asked in *. destruct (o_results_dir o); [exact D2|]. apply in_or_app; auto.
    + exact R.
    + reflexivity.
  - destruct Q as (used & p & I & -> & B). cbn in *. repeat split; auto. now exists used.
Qed.

Lemma abq_start_good h (o : options) : accepted o = true ->
  match abq_start h o with inl l => good h o l | inr f => is_so h o f end.
Proof.
  unfold accepted. intros A. apply andb_true_iff in A as [A _]. apply andb_true_iff in A as [A _].
  apply andb_true_iff in A as [A _]. apply andb_true_iff in A as [A _]. apply andb_true_iff in A as [A1 A2].
  apply Bool.eqb_prop in A1, A2.
  assert (X : forall auth tls, auth = match o_user_token o, o_admin_token o with Some u, Some a => STokens u a | _, _ => SNoAuth end ->
     tls_asked h o tls ->
     match start_abq_forever h o auth tls (o_stale_hours o * 60 * 60) with inl l => good h o l | inr f => is_so h o f end).
  { intros auth tls EA ET. pose proof (forever_good h o auth tls) as F.
    destruct (start_abq_forever h o auth tls (o_stale_hours o * 60 * 60)) as [l|f] eqn:E; [|exact F]. apply F; auto.
    intros sv. unfold start_abq_forever in E.
    destruct (persisted_dir (o_manifests_dir o) (h_temp1 h)) as [[m made1]|]; [|discriminate].
    destruct (persisted_dir (o_results_dir o) _) as [[r made2]|]; [|discriminate].
    destruct (resolve (h_s3 h) (o_remote o)); [|discriminate].
    destruct (build_scheduled_jobs _ _ _ _); [|discriminate].
    match type of E with context [start_queue ?b ?c] => pose proof (start_queue_made b c) as Q; destruct (start_queue b c) as [q|f'] end; [|discriminate].
    injection E as <-. destruct Q as (s & n & w & _ & _ & _ & _ & _ & _ & Q4 & _). cbn in Q4. apply Q4. }
  unfold abq_start.
  assert (Y : match o_user_token o, o_admin_token o with Some user, Some admin => Some (STokens user admin) | None, None => Some SNoAuth | _, _ => None end
     = Some (match o_user_token o, o_admin_token o with Some u, Some a => STokens u a | _, _ => SNoAuth end)).
  { destruct (o_user_token o), (o_admin_token o); cbn in A1; congruence. }
  rewrite Y. set (auth := match o_user_token o, o_admin_token o with Some u, Some a => STokens u a | _, _ => SNoAuth end) in *. clearbody auth.
  unfold read_opt_path_bytes, tls_asked in *.
  destruct (o_tls_cert o) as [c|] eqn:Ec, (o_tls_key o) as [k|] eqn:Ek; cbn in A2; try discriminate.
  - destruct (h_read h c) as [cert|] eqn:R1; [|cbn; auto].
    destruct (h_read h k) as [key|] eqn:R2; [|cbn; auto].
    destruct (h_tls h cert key) as [t|] eqn:T.
    + apply X; auto. exists cert, key. rewrite T. repeat split; auto. discriminate.
    + exists c, k, cert, key. auto.
  - apply X; auto.
Qed.

Lemma reaches_inv (secures : option Tls -> option Cert -> bool) q (k : client Ip Cert) m a s :
  reaches secures q k m a = Some s <->
  k_leads k (fst a) = true /\ at_port q (snd a) = Some s /\ secures (q_tls q s) (k_cert k) = true /\
  exists r, handshake (q_auth q s) (send_header (k_auth k) ++ m) = Some (r, m).
Proof.
  unfold reaches. destruct (k_leads k (fst a)); [|split; [discriminate|now intros [? _]]].
  destruct (at_port q (snd a)) as [s'|]; [|split; [discriminate|now intros (_ & ? & _)]].
  destruct (secures (q_tls q s') (k_cert k)) eqn:E1.
  2:{ split; [discriminate|]. intros (_ & J & E & _). injection J as ->. congruence. }
  destruct (handshake (q_auth q s') (send_header (k_auth k) ++ m)) as [[r rest]|] eqn:E2.
  2:{ split; [discriminate|]. intros (_ & J & _ & r & E). injection J as ->. congruence. }
  destruct (bytes_eqb rest m) eqn:B.
  - apply bytes_eqb_spec in B as ->. split.
    + intros J. injection J as <-. eauto 6.
    + intros (_ & J & _). congruence.
  - split; [discriminate|]. intros (_ & J & _ & r' & E). injection J as ->.
    assert (rest = m) by congruence. subst rest. rewrite (proj2 (bytes_eqb_spec m m) eq_refl) in B. discriminate.
Qed.

Lemma shown_is_heard (u a : option (list nat)) (k : client Ip Cert) m :
  shows_token u a k -> exists r, handshake (match u, a with Some u, Some a => STokens u a | _, _ => SNoAuth end) (send_header (k_auth k) ++ m) = Some (r, m).
Proof.
  unfold shows_token. destruct u as [u|], a as [a|]; try (intros ->; exists RAdmin; reflexivity).
  intros (Tu & Ta & [-> | ->]); destruct (C48_right_token_accepted u a m Tu Ta) as [X (r & Y & _)]; cbn [send_header] in *; eauto.
Qed.

Lemma offloads_hours hours : offloads_after hours (After (Z.of_N (hours * 60 * 60))).
Proof.
  intros now size read. unfold file_eligible, should_offload, duration_since.
  rewrite !N2Z.inj_mul. change (Z.of_N 60) with 60%Z.
  destruct (Nat.ltb_spec 0 size) as [L|L]; [|split; [discriminate|lia]].
  destruct (Z.ltb_spec now read) as [L1|L1]; [split; [discriminate|lia]|].
  destruct (Z.leb_spec read now) as [L2|L2]; [|lia].
  split.
  - intros E. injection E as E. apply Z.leb_le in E. lia.
  - intros E. f_equal. apply Z.leb_le. lia.
Qed.
End Proofs.
