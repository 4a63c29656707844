(* C80: the life of a queue's servers.  For every history: every interleaving of arrivals,
   accept loops, handlers, failures, timeouts and of what the queue's owner does. *)
From Verif Require Import Base LifeModel LifeSpec LifeProofs.

(* the queue comes up unless it cannot bind a port or is ended *)
Theorem C80_comes_up : forall h, (forall e, In e h -> ~ ends_queue e) ->
  length (filter (fun e => match e with StartStep _ => true | _ => false end) h) >= 6 -> own (after h) = Live.
Proof. intros h N L. destruct (own_unended h N) as [[A _]|[_ B]]; [unfold starts in A; lia|exact B]. Qed.

(* while it is live each of its servers takes connections, and hands the next one to a handler
   whenever its accept loop gets to it; timeouts are handled too *)
Theorem C80_serves : forall h, own (after h) = Live -> forall s,
  running (after h) s /\
  (forall c, log (after (h ++ [Arrive s c])) = log (after h) ++ [Arrived s c]) /\
  (forall c rest, backlog (after h) s = c :: rest ->
     log (after (h ++ [Accept s])) = log (after h) ++ [Handed s c] /\ backlog (after (h ++ [Accept s])) s = rest /\ jobs (after (h ++ [Accept s])) = jobs (after h) ++ [(ForConn s c, true)]) /\
  (forall t, jobs (after (h ++ [Fire t])) = jobs (after h) ++ [(ForTimeout t, true)]).
Proof.
  intros h O s. pose proof (inv_after h) as I. unfold inv in I. rewrite O in I. destruct I as [_ P]. split; [exists 0; apply P|]. unfold after in *. split; [|split]; intros; rewrite run_snoc; cbn [step]; rewrite P; auto.
  rewrite H. repeat split. cbn. unfold set. now destruct s.
Qed.

(* a server ends only if the queue was shut down or dropped or could not be started, whatever
   failed in accepting connections and in the handlers *)
Theorem C80_ends_only_when_ended : forall h s, phases (after h) s = Ended -> exists e, In e h /\ ends_queue e.
Proof.
  intros h s P.
  assert (D : forall e, {ends_queue e} + {~ ends_queue e}) by (intros e; unfold ends_queue; destruct e as [[]| | | | | | | | | |]; (left; tauto) || (right; intros [?|[?|?]]; discriminate)).
  destruct (Exists_dec ends_queue h D) as [E|E]; [apply Exists_exists in E; exact E|]. exfalso. apply (unended_phases h s); auto. intros e I Q. apply E, Exists_exists. eauto.
Qed.

(* the connections of a server cease to wait in the order they came, each once, and handlers are
   spawned exactly for those that were handed over and for timeouts; if no accept fails and the
   queue is not ended then every connection that came was handed to a handler or waits for the
   accept loop *)
Theorem C80_each_once_in_order : forall h,
  (forall s, pick (left s) (log (after h)) ++ backlog (after h) s = pick (came s) (log (after h))) /\
  map fst (jobs (after h)) = flat_map job_of (log (after h)) /\
  ((forall e, In e h -> ~ ends_queue e) -> (forall s, ~ In (AcceptFails s true) h) ->
     forall s, pick (handed s) (log (after h)) ++ backlog (after h) s = pick (came s) (log (after h))).
Proof.
  intros h. destruct (conns_after h) as (F & _ & J). split; [exact F|split; [exact J|]]. intros N A s. rewrite <- F. f_equal. apply handed_left.
  intros o I. destruct (unended_log h N o I) as [X Y]. split; auto.
Qed.

(* what becomes of handlers has no effect on the servers *)
Theorem C80_handlers_do_not_matter : forall h,
  let h' := filter (fun e => negb (about_job e)) h in
  (forall s, phases (after h) s = phases (after h') s /\ backlog (after h) s = backlog (after h') s) /\ own (after h) = own (after h') /\ log (after h) = log (after h').
Proof.
  intros h h'. assert (R : same init init) by (repeat split). destruct (jobs_erased h init init R) as (P & B & _ & O & L). unfold after. fold h' in P, B, O, L. rewrite P, B, O, L. auto.
Qed.

(* once it is shut down every server has ended, and from then on no connection is taken and nothing is handled *)
Theorem C80_shut_down_is_over : forall h h', own (after h) = Stopped ->
  (forall s, phases (after (h ++ h')) s = Ended) /\ map fst (jobs (after (h ++ h'))) = map fst (jobs (after h)) /\
  exists l, log (after (h ++ h')) = log (after h) ++ l /\ forall o, In o l -> exists s c, o = Refused s c.
Proof.
  intros h h' O. pose proof (inv_after h) as I. unfold inv in I. rewrite O in I. destruct I as [_ P]. unfold after. rewrite run_app. apply over_run; auto.
  unfold started. fold (after h). rewrite O. split; congruence.
Qed.

(* a shutdown comes to its end: in any history in which each accept loop is once run as far as to see the
   message and then the shutdown goes on three times, whatever else happens *)
Theorem C80_shutdown_ends : forall h h1 h2, own (after h) = Live -> (forall s, In (See s) h1) -> joins h2 >= 3 ->
  ~ In DropQueue (h1 ++ h2) -> ~ In Shutdown (h1 ++ h2) -> own (after (h ++ [Shutdown] ++ h1 ++ h2)) = Stopped.
Proof.
  intros h h1 h2 O SE J ND NS. unfold after. rewrite !run_app. fold (after h). set (st := run step (after h) [Shutdown]).
  assert (I : inv st) by (apply inv_run, inv_after).
  assert (OS : own st = Joining [Negotiator; Main; Work]).
  { unfold st. cbn. rewrite O. pose proof (inv_after h) as I0. unfold inv in I0. rewrite O in I0. destruct I0 as ((_ & _ & S3 & _) & P). rewrite S3. unfold receivers. cbn [filter]. rewrite !P. reflexivity. }
  assert (C : closing st) by (left; eauto).
  assert (ND1 : ~ In DropQueue h1 /\ ~ In DropQueue h2) by (split; intros Q; apply ND, in_or_app; auto).
  assert (NS1 : ~ In Shutdown h1 /\ ~ In Shutdown h2) by (split; intros Q; apply NS, in_or_app; auto). destruct ND1, NS1.
  apply joins_stop; auto; [now apply inv_run|now apply closing_run|intros s; now apply sees_close|].
  intros l Q. assert (L : length l <= 3); [|unfold ge in J; lia]. pose proof (inv_run h1 st I) as I1. unfold inv in I1. rewrite Q in I1. destruct I1 as (_ & _ & _ & _ & _ & _ & k & ->). rewrite skipn_length. cbn [length]. lia.
Qed.

(* the message is sent at most once: a second shutdown panics *)
Theorem C80_second_shutdown : forall h, m_sent (mgr (after h)) <= 1 /\ (own (after h) = Stopped -> own (after (h ++ [Shutdown])) = StopPanicked) /\ own (after h) <> StopFailed.
Proof.
  intros h. split; [|split].
  - assert (X : m_sent (mgr (after h)) <= 1 /\ (m_shutdown (mgr (after h)) = false -> m_sent (mgr (after h)) = 0)); [|apply X].
    induction h as [|e h IH] using rev_ind; [cbn; auto|]. unfold after. rewrite run_snoc. fold (after h). revert IH. generalize (after h). clear. intros st IH.
    assert (K : forall st0 s, mgr (close_if_bound st0 s) = mgr st0) by (intros st0 s; unfold close_if_bound; destruct (phases st0 s); reflexivity).
    destruct e as [ok|s' c|s'|s' lost|t|s'|i ok| | | |]; cbn [step].
    + destruct (own st) as [[|[s|s] ops]| | | | | | |]; auto. destruct ok; auto. unfold start_panics. cbn zeta. cbn [with_own with_mgr mgr]. rewrite !K. exact IH.
    + destruct (phases st s'); auto.
    + destruct (phases st s'); auto. destruct (backlog st s'); auto.
    + destruct (phases st s'); auto. destruct (backlog st s'); auto. destruct lost; auto.
    + destruct (phases st Main); auto.
    + destruct (phases st s') as [| |n|]; auto. destruct (recv_ready (mgr st) n); auto.
    + destruct (nth_error (jobs st) i) as [[j []]|]; auto.
    + destruct (own st); auto.
    + destruct IH as [I1 I2]. destruct (own st); auto; (destruct (m_shutdown (mgr st)) eqn:Z; [cbn [with_own mgr]; rewrite Z; auto|]; destruct (Nat.eqb (receivers st) 0); cbn [with_own with_mgr mgr m_sent m_shutdown]; rewrite (I2 eq_refl); split; auto; discriminate).
    + destruct (own st) as [ops| | |[|s0 rest]| | | |]; auto. destruct (phases st s0); auto.
    + destruct (own st); auto.
  - intros O. pose proof (inv_after h) as I. unfold inv in I. rewrite O in I. destruct I as [A _]. unfold after. rewrite run_snoc. fold (after h). cbn [step]. rewrite O, A. reflexivity.
  - intros O. pose proof (inv_after h) as I. unfold inv in I. now rewrite O in I.
Qed.

(* the handlers are not waited for: after a shutdown some may still be at it *)
Theorem C80_shutdown_waits_for_handlers_refuted : ~ forall h, own (after h) = Stopped -> forall j b, In (j, b) (jobs (after h)) -> b = false.
Proof.
  intros H.
  specialize (H [StartStep true; StartStep true; StartStep true; StartStep true; StartStep true; StartStep true; Arrive Main 1; Accept Main; Shutdown; See Main; See Work; See Negotiator; Join; Join; Join]
               eq_refl (ForConn Main 1) true (or_introl eq_refl)). discriminate.
Qed.

(* dropping a queue that was not shut down does not end its servers, although its comment says so: the future of its
   shutdown is never polled *)
Theorem C80_drop_ends_servers_refuted : ~ forall h, own (after h) = Dropped -> forall s, ~ running (after h) s.
Proof.
  intros H. apply (H [StartStep true; StartStep true; StartStep true; StartStep true; StartStep true; StartStep true; DropQueue] eq_refl Main). exists 0. reflexivity.
Qed.
(* but they end when their accept loops next look, because the channel is closed; and so do those that were
   already spawned when the queue could not be started *)
Theorem C80_drop_ends_servers_partial : forall h h', own (after h) = Dropped \/ own (after h) = StartPanicked -> forall s, In (See s) h' -> ~ running (after (h ++ h')) s.
Proof.
  intros h h' G s S0 [n R]. unfold after in R. rewrite run_app in R. fold (after h) in R.
  destruct (gone_sees h' (after h) s (inv_after h) G (or_introl S0)) as [Q|Q]; rewrite Q in R; discriminate.
Qed.

(* a life: two connections, one of which fails to be accepted, a handler that fails, and a shutdown in the course of which a
   connection is turned away *)
Example C80_example :
  let h := [StartStep true; StartStep true; StartStep true; Arrive Negotiator 7; StartStep true; StartStep true; StartStep true; Accept Negotiator; JobEnds 0 false; Arrive Main 1; Arrive Main 2;
            AcceptFails Main true; AcceptFails Main false; Accept Main; Fire 5; Arrive Work 3; Shutdown; Accept Main; See Work; Arrive Work 4] in
  log (after h) = [Arrived Negotiator 7; Handed Negotiator 7; Arrived Main 1; Arrived Main 2; Lost Main 1; Handed Main 2; TimedOut 5; Arrived Work 3; Severed Work 3; Refused Work 4] /\
  own (after h) = Joining [Negotiator; Main; Work] /\ own (after (h ++ [See Negotiator; See Main; Join; Join; Join])) = Stopped /\
  jobs (after h) = [(ForConn Negotiator 7, false); (ForConn Main 2, true); (ForTimeout 5, true)].
Proof. repeat split. Qed.
Example C80_bind_fails :
  let h := [StartStep true; StartStep true; StartStep true; Arrive Negotiator 7; StartStep false] in
  own (after h) = StartPanicked /\ log (after h) = [Arrived Negotiator 7; Severed Negotiator 7] /\ phases (after h) Main = Running 0 /\ phases (after (h ++ [See Main])) Main = Ended.
Proof. repeat split. Qed.

Print Assumptions C80_comes_up.
Print Assumptions C80_serves.
Print Assumptions C80_ends_only_when_ended.
Print Assumptions C80_each_once_in_order.
Print Assumptions C80_handlers_do_not_matter.
Print Assumptions C80_shut_down_is_over.
Print Assumptions C80_shutdown_ends.
Print Assumptions C80_second_shutdown.
Print Assumptions C80_shutdown_waits_for_handlers_refuted.
Print Assumptions C80_drop_ends_servers_refuted.
Print Assumptions C80_drop_ends_servers_partial.
