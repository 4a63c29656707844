(* C78: what a worker tells a queue is taken up once, what it asks is answered by the queue. *)
From Coq Require Import List Arith Bool NArith Lia.
Import ListNotations.
From Verif Require Import CallModel CallSpec CallProofs.

(* Whatever the network does, and however the calls of all workers interleave: the queue does
   for a call no more than what the call stands for, in that order, each thing at most once;
   and a question changes nothing, but that attaching may start the clock of a new run. *)
Theorem C78_told_once : forall q calls h c k a,
  history q calls h -> calls c = Some (k, a) -> prefix (taken_up h c) (stands_for k).
Proof. intros q calls h c k a H C. exact (told_once q calls h H c k a C). Qed.
Print Assumptions C78_told_once.

(* And it does nothing else: all that its servers change, some call stands for. *)
Theorem C78_nothing_else : forall q calls h i u ok,
  history q calls h -> In {| who := Task i; what := Updated u ok |} h ->
  exists c k a, calls c = Some (k, a) /\ opened_by h c i = true /\ In u (stands_for k).
Proof. intros q calls h i u ok H I. exact (nothing_else q calls h H i u ok I). Qed.
Print Assumptions C78_nothing_else.

(* What a call was told to be received, the queue does, once the task of its connection has
   come to its end.  In full, this is to hold when the call returns, and for all that the queue
   has read: the next two theorems say that neither is so. *)
Theorem C78_told_is_taken_up_partial : forall q calls h c k a u,
  history q calls h -> calls c = Some (k, a) -> tells k = true -> principal k = Some u ->
  returned calls h c RTold -> (forall i, opened_by h c i = true -> served q h i) ->
  In u (taken_up h c).
Proof. intros q calls h c k a u H C T P R S. exact (told_is_taken_up q calls h H c k a u C T P R S). Qed.
Print Assumptions C78_told_is_taken_up_partial.

(* Results, however, are taken up whenever they were read, even if the acknowledgement cannot be
   written; unless the queue knows of no place for them *)
Theorem C78_results_are_taken_up : forall q calls h c e r rs a i,
  history q calls h -> calls c = Some (TellResults true e r rs, a) -> reach q a = Some MainServer ->
  was_read h c i (speaks (TellResults true e r rs)) -> served q h i ->
  taken_up h c = [PlanResults r rs; PersistResults r rs] \/ In {| who := Task i; what := Updated (PlanResults r rs) false |} h.
Proof. intros q calls h c e r rs a i H C R W S. exact (results_are_taken_up q calls h H c e r rs a i C R W S). Qed.
Print Assumptions C78_results_are_taken_up.

(* and are accounted for as pending before the worker goes on. *)
Theorem C78_results_are_accounted_first : forall q calls h c e r rs a,
  history q calls h -> calls c = Some (TellResults true e r rs, a) -> returned calls h c RTold ->
  exists i found, opened_by h c i = true /\ In {| who := Task i; what := Updated (PlanResults r rs) found |} h.
Proof. intros q calls h c e r rs a H C R. exact (results_are_accounted_first q calls h H c e r rs a C R). Qed.
Print Assumptions C78_results_are_accounted_first.

(* A question is answered by what the queue itself said for this run and this worker, on a
   connection of this call; a worker of another version goes no further. *)
Theorem C78_answers_are_the_queue_s : forall conf bound q calls h c k a r,
  start_queue conf bound = Some q -> history q calls h -> calls c = Some (k, a) -> returned calls h c r ->
  is_the_queue_s q h c k r.
Proof. intros conf bound q calls h c k a r S H C R. exact (answers_are_the_queue_s q calls h H conf bound c k a r S C R). Qed.
Print Assumptions C78_answers_are_the_queue_s.

(* A call opens another connection only after it was told to wait on the one before. *)
Theorem C78_asks_again_only_when_told : forall q calls h c k a h1 h2 a' i j,
  history q calls h -> calls c = Some (k, a) ->
  h = h1 ++ {| who := Caller c; what := Connected a' (Some j) |} :: h2 -> opened_by h1 c i = true ->
  exists r, In {| who := Caller c; what := Received i (Some r) |} h1 /\ told_to_wait k r = true.
Proof. intros q calls h c k a h1 h2 a' i j H C E O. exact (asks_again q calls h H c k a h1 h2 a' i j C E O). Qed.
Print Assumptions C78_asks_again_only_when_told.

(* Then it pauses: 10, 20, 40, ... up to 3000 ms, or always the same, before it asks again. *)
Theorem C78_pauses : forall k a tr o n d,
  executes (calling k a) tr o -> nth_error (pauses (filter on_the_network tr)) n = Some d -> d = pause k n.
Proof. intros k a tr o n d E N. apply call_shape in E. destruct E as [A _]. exact (pauses_of _ _ _ _ _ _ _ A n d N). Qed.
Print Assumptions C78_pauses.

(* A call that tells something makes its request at most once, after at most five attempts to
   connect; it panics only if all five failed, or the request could not be written, or no answer
   could be read. *)
Theorem C78_tells_or_panics : forall k a tr o,
  executes (calling k a) tr o -> tells k = true ->
  count is_connect tr <= 5 /\ count is_send tr <= 1 /\
  match o with
  | Panicked => (exists t0, filter on_the_network tr = t0 ++ five_misses a) \/
                (exists i, In (Sent i (speaks k) false) tr) \/
                (exists i, In (Received i None) tr)
  | _ => True
  end.
Proof.
  intros k a tr o E T. split; [exact (tells_tries _ _ _ _ E T)|]. pose proof (call_shape _ _ _ _ E) as (_ & S & EN).
  split; [destruct k as [| | |[]| | | | | |]; cbn in T; try discriminate T; exact S|].
  destruct o; try exact I. exact (tells_panic _ _ _ E T).
Qed.
Print Assumptions C78_tells_or_panics.

(* A call that asks does not panic; but the one for the tests of a former attempt does, if it
   cannot be made or answered, or after it was told twenty times that they are not there yet. *)
Theorem C78_asks_panic : forall k a tr,
  executes (calling k a) tr Panicked -> tells k = false ->
  exists e r, k = AskRetryManifest e r /\
    ((exists t0, tr = t0 ++ five_misses a) \/ (exists i, In (Sent i (speaks k) false) tr) \/
     (exists i x, In (Received i x) tr /\ forall y, x <> Some (Retry y)) \/
     (count is_send tr = 20 /\ forall i x, In (Received i x) tr -> x = Some (Retry NotYetPersisted))).
Proof.
  intros k a tr E T. apply call_shape in E. destruct E as (_ & _ & EN). destruct EN as [[T' _] | (e & r & -> & G)]; [congruence|].
  exists e, r. split; [reflexivity|]. destruct G as [[[t0 G] | [(i & _ & G) | (i & x & _ & G & X)]] | G]; [left | right; left | right; right; left | right; right; right; exact G].
  - exists t0. exact G.
  - exists i. exact G.
  - exists i, x. split; [exact G|]. intros y ->. destruct X as [X | (z & X & Y)]; [discriminate X|]. injection X as <-. exact Y.
Qed.
Print Assumptions C78_asks_panic.

(* A request that its server has read gets one answer. *)
Theorem C78_one_answer : forall q calls h c k a i,
  history q calls h -> calls c = Some (k, a) -> reach q a = Some (server_for k) ->
  was_read h c i (speaks k) -> served q h i -> count is_write (events_of (Task i) h) = 1.
Proof. intros q calls h c k a i H C R W S. exact (one_answer q calls h H c k a i C R W S). Qed.
Print Assumptions C78_one_answer.

(* From the address on its command line a worker is led to all the servers of a queue, at its
   public IP: each call goes to the server that is there for it. *)
Theorem C78_worker_finds_its_servers : forall conf bound q calls h c1 c2 v e e' r turns iv a1 a2 n x,
  start_queue conf bound = Some q -> distinct_ports q -> history q calls h ->
  calls c1 = Some (AskQueue v e r, a1) -> returned calls h c1 (RNegotiator n) ->
  calls c2 = Some (AskAttach turns e' iv, a2) -> returned calls h c2 (RAttach (ExecutionContext x)) ->
  reach q a1 = Some MainServer ->
  let b := {| b_queue := a1; b_negotiator := n; b_work := x_work x; b_results := x_results x |} in
  forall k, (forall kind e, k <> AskHealth kind e) ->
    reach q (dials b k) = Some (server_for k) /\ (dials b k <> a1 -> a_ip (dials b k) = c_public_ip conf).
Proof.
  intros conf bound q calls h c1 c2 v e e' r turns iv a1 a2 n x S D H C1 R1 C2 R2 RE b k NH.
  pose proof (answers_are_the_queue_s q calls h H _ _ _ _ _ _ S C1 R1) as [_ X1].
  pose proof (answers_are_the_queue_s q calls h H _ _ _ _ _ _ S C2 R2) as (i & s & _ & _ & X2).
  destruct s as [|kd df| | |]; try discriminate X2; [destruct X2|]. destruct X2 as (y & E & _ & XW & XR). injection E as <-.
  destruct (finds_servers _ _ _ S D) as (F1 & F2 & F3).
  assert (IP : q_public_ip q = c_public_ip conf).
  { unfold start_queue in S. destruct (bound MainServer _); [|discriminate]. destruct (bound Negotiator _); [|discriminate]. destruct (bound WorkServer _); [|discriminate]. injection S as <-. reflexivity. }
  unfold b. destruct k; cbn; rewrite ?X1, ?XW, ?XR; cbn; rewrite ?IP; rewrite <- ?IP; try (split; [assumption | reflexivity]); try (split; [assumption | congruence]).
  exfalso. eapply NH. reflexivity.
Qed.
Print Assumptions C78_worker_finds_its_servers.

(* A worker that has handed over results has shown them locally and counted them, once. *)
Theorem C78_results_are_shown : forall s e r rs a tr x,
  executes (calling (TellResults s e r rs) a) tr (Done x) ->
  count is_shown tr = 1 /\ In (ShownLocally rs) tr /\ count is_accounted tr = 1 /\ In (Accounted rs) tr.
Proof.
  intros s e r rs a tr x E. cbn [calling] in E. apply results_shape in E. destruct E as (_ & A & S & _ & CA & CS).
  assert (G : forall f, count f tr = 1 -> exists y, In y tr /\ f y = true).
  { intros f C. unfold count in C. destruct (filter f tr) as [|y l] eqn:F; [discriminate C|]. exists y. apply filter_In. rewrite F. left. reflexivity. }
  destruct (G _ CS) as (y & I & B). destruct (G _ CA) as (y' & I' & B').
  destruct y; try discriminate B. destruct y'; try discriminate B'.
  pose proof (S _ I). pose proof (A _ I'). subst. auto.
Qed.
Print Assumptions C78_results_are_shown.

(* ------------------------------------------------------------------ *)
(* Concrete histories.                                                  *)

Definition conf0 := {| c_public_ip := 9; c_bind_ip := 0; c_server_port := 1; c_work_port := 2; c_negotiator_port := 3; c_version := 7 |}.
Definition bound0 (s : server) (p : nat) : option nat := Some (p + 10).
Definition q0 : queue :=
  {| q_public_ip := 9; q_version := 7;
     q_server_addr := {| a_ip := 0; a_port := 11 |}; q_work_addr := {| a_ip := 0; a_port := 12 |}; q_negotiator_addr := {| a_ip := 0; a_port := 13 |};
     q_public_negotiator_addr := {| a_ip := 9; a_port := 13 |}; q_advertised_work_addr := {| a_ip := 9; a_port := 12 |}; q_advertised_results_addr := {| a_ip := 9; a_port := 11 |} |}.
Example q0_starts : start_queue conf0 bound0 = Some q0 /\ distinct_ports q0.
Proof. split; [reflexivity|]. unfold distinct_ports. cbn. lia. Qed.
Definition main0 := {| a_ip := 9; a_port := 11 |}.
Definition work0 := {| a_ip := 9; a_port := 12 |}.
Definition negotiator0 := {| a_ip := 9; a_port := 13 |}.
Definition by_ (c : nat) (e : event) := {| who := Caller c; what := e |}.
Definition at_ (i : nat) (e : event) := {| who := Task i; what := e |}.
Definition called (l : list (call * address)) (c : nat) : option (call * address) := nth_error l c.

Lemma events_beyond n h c : (forall m c', In m h -> who m = Caller c' -> c' < n) -> n <= c -> events_of (Caller c) h = [].
Proof.
  intros B L. unfold events_of. induction h as [|m h IH]; [reflexivity|]. cbn.
  destruct (party_eqb_spec (who m) (Caller c)) as [E|_]; [exfalso; specialize (B m c (or_introl eq_refl) E); lia|]. apply IH. intros m' c' I. apply B. right; exact I.
Qed.
Ltac steps := repeat first [ split; reflexivity | left; split; reflexivity | right; eexists; eexists; split; [reflexivity|] ; cbn ].
Ltac net := apply rules_network; cbn; unfold rule, open; cbn; repeat split; try discriminate; try (do 2 eexists; cbn; tauto); try tauto; try (do 2 eexists; cbn; eauto 20).

(* a worker cancels a run; the acknowledgement cannot be written *)
Definition cancel0 := TellCancel 5 1.
Definition h_lost : list moment :=
  [ by_ 0 (Connected main0 (Some 0)); by_ 0 (Sent 0 (speaks cancel0) true);
    at_ 0 (Shook true); at_ 0 (GotRequest (Some (speaks cancel0))); at_ 0 (Wrote AckTestCancellation false) ].
Ltac in_cases I := cbn in I; repeat match type of I with _ \/ _ => destruct I as [I | I] | False => destruct I end; try discriminate I.
Ltac beyond n := apply (events_beyond n); [let m := fresh in let c := fresh in let I := fresh in let E := fresh in
  intros m c I E; cbn in I; repeat match type of I with _ \/ _ => destruct I as [I | I] | False => destruct I end; subst m; cbn in E; try discriminate E; injection E as <-; lia | lia].
Lemma h_lost_history : history q0 (called [(cancel0, main0)]) h_lost.
Proof.
  split; [net|]. split.
  - intros [|c]; cbn -[events_of].
    + exists Waiting. cbn. steps.
    + destruct c; cbn -[events_of]; beyond 1.
  - intros i c a s I R. in_cases I. injection I as <- <- <-. cbn in R. injection R as <-. exists (Done false). cbn. steps.
Qed.
Theorem C78_told_is_taken_up_refuted : exists q calls h c k a i,
  history q calls h /\ calls c = Some (k, a) /\ tells k = true /\ reach q a = Some (server_for k) /\
  was_read h c i (speaks k) /\ served q h i /\ taken_up h c = [].
Proof.
  exists q0, (called [(cancel0, main0)]), h_lost, 0, cancel0, main0, 0. split; [exact h_lost_history|]. repeat split; try reflexivity.
  - cbn. tauto.
  - exists 0, main0, MainServer, (Done false). repeat split; [cbn; tauto | cbn; steps | discriminate].
Qed.
Print Assumptions C78_told_is_taken_up_refuted.

(* a worker has run all its tests; it returns when the queue has not marked it yet, and someone
   who asks for the results at that time is told that the run is not over *)
Definition ran0 := TellRanAll 5 1.
Definition ask0 := AskResults 3 6 1.
Definition h_early : list moment :=
  [ by_ 0 (Connected main0 (Some 0)); by_ 0 (Sent 0 (speaks ran0) true);
    at_ 0 (Shook true); at_ 0 (GotRequest (Some (speaks ran0))); at_ 0 (Wrote AckWorkerRanAllTests true);
    by_ 0 (Received 0 (Some AckWorkerRanAllTests));
    by_ 1 (Connected main0 (Some 1)); by_ 1 (Sent 1 (speaks ask0) true);
    at_ 1 (Shook true); at_ 1 (GotRequest (Some (speaks ask0))); at_ 1 (SawResults 1 (RunInProgress [5])); at_ 1 (Wrote (Results (RunInProgress [5])) true);
    by_ 1 (Received 1 (Some (Results (RunInProgress [5])))) ].
Lemma h_early_history : history q0 (called [(ran0, main0); (ask0, main0)]) h_early.
Proof.
  split; [net|]. split.
  - intros [|[|c]]; cbn -[events_of].
    + exists (Done RTold). cbn. steps.
    + exists (Done (RResults (RunInProgress [5]))). cbn. steps.
    + destruct c; cbn -[events_of]; beyond 2.
  - intros i c a s I R. in_cases I; injection I as <- <- <-; cbn in R; injection R as <-.
    + exists Waiting. cbn. steps.
    + exists (Done true). cbn. steps.
Qed.
Theorem C78_told_before_return_refuted : exists q calls h c k a,
  history q calls h /\ calls c = Some (k, a) /\ tells k = true /\ returned calls h c RTold /\ taken_up h c = [].
Proof.
  exists q0, (called [(ran0, main0); (ask0, main0)]), h_early, 0, ran0, main0. split; [exact h_early_history|].
  split; [reflexivity|]. split; [reflexivity|]. split; [|reflexivity].
  exists ran0, main0. split; [reflexivity|]. cbn. steps.
Qed.
Print Assumptions C78_told_before_return_refuted.

(* later the queue marks it: the hypotheses of C78_told_is_taken_up_partial are met *)
Definition h_late := h_early ++ [at_ 0 (Updated (MarkWorkerComplete 1 5) true)].
Example h_late_is_taken_up :
  history q0 (called [(ran0, main0); (ask0, main0)]) h_late /\ returned (called [(ran0, main0); (ask0, main0)]) h_late 0 RTold /\
  (forall i, opened_by h_late 0 i = true -> served q0 h_late i) /\ taken_up h_late 0 = [MarkWorkerComplete 1 5] /\ taken_up h_late 1 = [].
Proof.
  split; [|split; [|split; [|split; reflexivity]]].
  - split; [net|]. split.
    + intros [|[|c]]; cbn -[events_of].
      * exists (Done RTold). cbn. steps.
      * exists (Done (RResults (RunInProgress [5]))). cbn. steps.
      * destruct c; cbn -[events_of]; beyond 2.
    + intros i c a s I R. in_cases I; injection I as <- <- <-; cbn in R; injection R as <-.
      * exists (Done true). cbn. steps.
      * exists (Done true). cbn. steps.
  - exists ran0, main0. split; [reflexivity|]. cbn. steps.
  - intros i O. apply opened_spec in O. destruct O as [a I]. in_cases I. injection I as <- <-.
    exists 0, main0, MainServer, (Done true). split; [cbn; tauto|]. split; [reflexivity|]. split; [cbn; steps | discriminate].
Qed.

(* results whose acknowledgement is lost are stored: the hypotheses of C78_results_are_taken_up *)
Definition results0 := TellResults true 5 1 [21; 22].
Definition h_results : list moment :=
  [ by_ 0 (Accounted [21; 22]); by_ 0 (Chose true); by_ 0 (Connected main0 None); by_ 0 (Slept 3000);
    by_ 0 (Connected main0 (Some 0)); by_ 0 (Sent 0 (speaks results0) true);
    at_ 0 (Shook true); at_ 0 (GotRequest (Some (speaks results0))); at_ 0 (Updated (PlanResults 1 [21; 22]) true);
    at_ 0 (Wrote AckTestResults false); by_ 0 (Received 0 None); at_ 0 (Closed false); at_ 0 (Updated (PersistResults 1 [21; 22]) true) ].
Example h_results_taken_up :
  history q0 (called [(results0, main0)]) h_results /\ was_read h_results 0 0 (speaks results0) /\ served q0 h_results 0 /\
  taken_up h_results 0 = [PlanResults 1 [21; 22]; PersistResults 1 [21; 22]].
Proof.
  split; [|split; [|split; [|reflexivity]]].
  - split; [net|]. split.
    + intros [|c]; cbn -[events_of].
      * exists Panicked. cbn. steps.
      * destruct c; cbn -[events_of]; beyond 1.
    + intros i c a s I R. in_cases I; injection I as <- <- <-; cbn in R; injection R as <-. exists (Done true). cbn. steps.
  - split; [reflexivity | cbn; tauto].
  - exists 0, main0, MainServer, (Done true). split; [cbn; tauto|]. split; [reflexivity|]. split; [cbn; steps | discriminate].
Qed.

(* a worker that cannot hand its results to the queue may have shown them to nobody *)
Theorem C78_results_are_shown_refuted : exists e r rs a tr,
  executes (calling (TellResults true e r rs) a) tr Panicked /\ In (Accounted rs) tr /\ count is_shown tr = 0.
Proof.
  exists 5, 1, [21; 22], main0, (Accounted [21; 22] :: Chose true :: five_misses main0).
  split; [cbn; steps|]. split; [left; reflexivity | reflexivity].
Qed.
Print Assumptions C78_results_are_shown_refuted.
Example results_shown : executes (calling results0 main0)
  [Accounted [21; 22]; Chose true; Connected main0 (Some 0); Sent 0 (speaks results0) true; Received 0 (Some AckTestResults); ShownLocally [21; 22]] (Done RTold).
Proof. cbn. steps. Qed.

(* a worker finds the queue, asks to be attached, is told to wait, and asks again *)
Definition iv0 := {| iv_run := 1; iv_batch := 8; iv_strategy := 0; iv_hash := 3 |}.
Definition queue0 := AskQueue 7 5 1.
Definition attach0 := AskAttach 9 5 iv0.
Definition context0 := ExecutionContext {| x_work := work0; x_results := main0; x_assigned := (Fresh true, false) |}.
Definition h_attach : list moment :=
  [ by_ 0 (Connected main0 (Some 0)); by_ 0 (Sent 0 (speaks queue0) true);
    at_ 0 (Shook true); at_ 0 (GotRequest (Some (speaks queue0))); at_ 0 (Wrote (TheNegotiator negotiator0 7) true);
    by_ 0 (Received 0 (Some (TheNegotiator negotiator0 7)));
    by_ 1 (Connected negotiator0 (Some 1)); by_ 1 (Sent 1 (speaks attach0) true);
    at_ 1 (Shook true); at_ 1 (GotRequest (Some (speaks attach0))); at_ 1 (FoundRun 5 iv0 RunUnknown); at_ 1 (Wrote (Attach NotYetKnown) true);
    by_ 1 (Received 1 (Some (Attach NotYetKnown))); by_ 1 (Slept 10);
    by_ 1 (Connected negotiator0 (Some 2)); by_ 1 (Sent 2 (speaks attach0) true);
    at_ 2 (Shook true); at_ 2 (GotRequest (Some (speaks attach0))); at_ 2 (FoundRun 5 iv0 (Run (Fresh true) false));
    at_ 2 (Updated (ProgressTimeout 1) true); at_ 2 (Wrote (Attach context0) true);
    by_ 1 (Received 2 (Some (Attach context0))) ].
Example h_attach_finds :
  history q0 (called [(queue0, main0); (attach0, negotiator0)]) h_attach /\
  returned (called [(queue0, main0); (attach0, negotiator0)]) h_attach 0 (RNegotiator negotiator0) /\
  returned (called [(queue0, main0); (attach0, negotiator0)]) h_attach 1 (RAttach context0) /\
  taken_up h_attach 1 = [ProgressTimeout 1].
Proof.
  split; [|split; [|split; [|reflexivity]]].
  - split; [net|]. split.
    + intros [|[|c]]; cbn -[events_of].
      * exists (Done (RNegotiator negotiator0)). cbn. steps.
      * exists (Done (RAttach context0)). cbn. steps.
      * destruct c; cbn -[events_of]; beyond 2.
    + intros i c a s I R. in_cases I; injection I as <- <- <-; cbn in R; injection R as <-.
      * exists (Done true). cbn. steps.
      * exists (Done true). cbn. steps.
      * exists (Done true). cbn. steps.
  - exists queue0, main0. split; [reflexivity|]. cbn. steps.
  - exists attach0, negotiator0. split; [reflexivity|]. cbn. steps.
Qed.

(* whoever asks whether one service is up at the address of another is told that it is *)
Definition health0 := AskHealth WorkServer 5.
Definition h_health : list moment :=
  [ by_ 0 (Connected main0 (Some 0)); by_ 0 (Sent 0 (speaks health0) true);
    at_ 0 (Shook true); at_ 0 (GotRequest (Some (speaks health0))); at_ 0 (Wrote (Health true 7) true);
    by_ 0 (Received 0 (Some (Health true 7))) ].
Theorem C78_health_of_the_right_service_refuted : exists q calls h c kind e a v,
  history q calls h /\ calls c = Some (AskHealth kind e, a) /\ returned calls h c (RHealth (Some (true, v))) /\
  reach q a <> Some kind.
Proof.
  exists q0, (called [(health0, main0)]), h_health, 0, WorkServer, 5, main0, 7. split; [|split; [reflexivity|split; [|discriminate]]].
  - split; [net|]. split.
    + intros [|c]; cbn -[events_of].
      * exists (Done (RHealth (Some (true, 7)))). cbn. steps.
      * destruct c; cbn -[events_of]; beyond 1.
    + intros i c a s I R. in_cases I; injection I as <- <- <-; cbn in R; injection R as <-. exists (Done true). cbn. steps.
  - exists health0, main0. split; [reflexivity|]. cbn. steps.
Qed.
Print Assumptions C78_health_of_the_right_service_refuted.

(* a worker that is told twenty times that the tests of its former attempt are not there panics *)
Fixpoint asked_in_vain (e r : nat) (n i : nat) : list event :=
  [Connected work0 (Some i); Sent i (speaks (AskRetryManifest e r)) true; Received i (Some (Retry NotYetPersisted))] ++
  match n with 0 => [] | S n' => Slept 3000 :: asked_in_vain e r n' (S i) end.
Example twenty_times : executes (calling (AskRetryManifest 5 1) work0) (asked_in_vain 5 1 19 0) Panicked.
Proof. cbn. steps. Qed.
