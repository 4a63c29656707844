(* What C78 says about the conversations of CallModel, in terms of what happened in a history:
   nothing here refers to the programs of the two sides. *)
From Coq Require Import List Arith Bool NArith.
Import ListNotations.
From Verif Require Import CallModel.

(* ------------------------------------------------------------------ *)
(* What a call stands for.                                              *)

(* the request it makes *)
Definition speaks (k : call) : request :=
  match k with
  | TellRanAll e r => {| rq_entity := e; rq_message := WorkerRanAllTests r |}
  | TellManifest e r m => {| rq_entity := e; rq_message := ManifestResult r m |}
  | TellCancel e r => {| rq_entity := e; rq_message := CancelRun r |}
  | TellResults _ e r rs => {| rq_entity := e; rq_message := WorkerResult r rs |}
  | AskInit _ e r => {| rq_entity := e; rq_message := InitContext r |}
  | AskRetryManifest e r => {| rq_entity := e; rq_message := RetryManifestPartition r e |}
  | AskQueue _ e r => {| rq_entity := e; rq_message := NegotiatorInfo r |}
  | AskAttach _ e iv => {| rq_entity := e; rq_message := WantsToAttach iv |}
  | AskHealth _ e => {| rq_entity := e; rq_message := HealthCheck |}
  | AskResults _ e r => {| rq_entity := e; rq_message := TestResults r |}
  end.

(* the server that is there for it *)
Definition server_for (k : call) : server :=
  match k with
  | TellRanAll _ _ | TellManifest _ _ _ | TellCancel _ _ | TellResults _ _ _ _ | AskQueue _ _ _ | AskResults _ _ _ => MainServer
  | AskInit _ _ _ | AskRetryManifest _ _ => WorkServer
  | AskAttach _ _ _ => Negotiator
  | AskHealth kind _ => kind
  end.

(* the calls by which a worker tells the queue something *)
Definition tells (k : call) : bool :=
  match k with TellRanAll _ _ | TellManifest _ _ _ | TellCancel _ _ | TellResults true _ _ _ => true | _ => false end.

(* what the queue is to do with what it is told: first of all, and afterwards *)
Definition principal (k : call) : option update :=
  match k with
  | TellRanAll e r => Some (MarkWorkerComplete r e)
  | TellCancel e r => Some (MarkCancelled r e)
  | TellManifest _ r (Manifest []) => Some (MarkEmptyManifest r)
  | TellManifest _ r (Manifest tests) => Some (AddManifest r tests)
  | TellManifest _ r TestRunnerError => Some (MarkFailedManifest r)
  | TellResults true _ r rs => Some (PlanResults r rs)
  | _ => None
  end.
Definition afterwards (k : call) : list update :=
  match k with
  | TellManifest _ r (Manifest tests) => [PersistSummary r (length tests)]
  | TellResults true _ r rs => [PersistResults r rs]
  | _ => []
  end.
(* attaching may start the clock of a new run *)
Definition stands_for (k : call) : list update :=
  match k with
  | AskAttach _ _ iv => [ProgressTimeout (iv_run iv)]
  | _ => match principal k with Some u => u :: afterwards k | None => [] end
  end.

(* the answers after which a call that asks is to ask again *)
Definition told_to_wait (k : call) (r : response) : bool :=
  match k, r with
  | AskInit _ _ _, Init WaitingForManifest => true
  | AskRetryManifest _ _, Retry NotYetPersisted => true
  | AskAttach _ _ _, Attach NotYetKnown => true
  | AskResults _ _ _, Results ResultsPending => true
  | _, _ => false
  end.
(* the pause before it asks for the [n]th time again, in milliseconds *)
Definition pause (k : call) (n : nat) : N :=
  match k with
  | AskInit _ _ _ | AskAttach _ _ _ => N.min (10 * 2 ^ N.of_nat n) 3000
  | AskResults _ _ _ => 2000
  | _ => 3000
  end.

(* ------------------------------------------------------------------ *)
(* Histories.                                                           *)

Definition opened_by (h : list moment) (c i : nat) : bool :=
  existsb (fun m => match who m, what m with Caller c', Connected _ (Some i') => Nat.eqb c' c && Nat.eqb i' i | _, _ => false end) h.

(* what the queue did for caller [c] *)
Definition taken_up (h : list moment) (c : nat) : list update :=
  flat_map (fun m => match who m, what m with Task i, Updated u _ => if opened_by h c i then [u] else [] | _, _ => [] end) h.

Definition prefix {A} (l l' : list A) : Prop := exists rest, l' = l ++ rest.

(* a server of the queue read the request of caller [c] on connection [i] *)
Definition was_read (h : list moment) (c i : nat) (rq : request) : Prop :=
  opened_by h c i = true /\ In {| who := Task i; what := GotRequest (Some rq) |} h.
(* and wrote a response to it with success *)
Definition was_answered (h : list moment) (c i : nat) : Prop :=
  opened_by h c i = true /\ exists r, In {| who := Task i; what := Wrote r true |} h.

(* how the queue's own answer and the result of the call belong together *)
Definition answer_of_retry (s : retry_state) (loaded : option (option (list nat))) (r : retry_response) : Prop :=
  match s with
  | RManifest tests => r = RetryManifest tests
  | FetchFromPersistence => (exists tests, loaded = Some (Some tests) /\ r = RetryManifest tests) \/ (loaded = Some None /\ r = RetryError FailedToLoad)
  | RNotYetPersisted => False
  | RError e => r = RetryError e
  end.
Definition answer_of_attach (q : queue) (s : assigned_status) (r : attach_response) : Prop :=
  match s with
  | RunUnknown => False
  | Run k d => exists x, r = ExecutionContext x /\ x_assigned x = (k, d) /\
                 x_work x = {| a_ip := q_public_ip q; a_port := a_port (q_work_addr q) |} /\
                 x_results x = {| a_ip := q_public_ip q; a_port := a_port (q_server_addr q) |}
  | AlreadyDone code => r = RunAlreadyCompleted code
  | Cancelled reason => r = RunCancelled reason
  | FatalError e => r = AttachFatal e
  end.

(* The result of a call that asks is what the queue said, on a connection of this call. *)
Definition is_the_queue_s (q : queue) (h : list moment) (c : nat) (k : call) (r : result) : Prop :=
  match k, r with
  | AskInit _ e run, RInit x => x <> WaitingForManifest /\ exists i, opened_by h c i = true /\ In {| who := Task i; what := SawInit run e x |} h
  | AskRetryManifest e run, RRetry x =>
      exists i s, opened_by h c i = true /\ In {| who := Task i; what := SawRetryManifest run e s |} h /\
        (answer_of_retry s None x \/ exists l, In {| who := Task i; what := LoadedPartition run e l |} h /\ answer_of_retry s (Some l) x)
  | AskAttach _ e iv, RAttach x => exists i s, opened_by h c i = true /\ In {| who := Task i; what := FoundRun e iv s |} h /\ answer_of_attach q s x
  | AskQueue v _ _, RNegotiator a => v = q_version q /\ a = {| a_ip := q_public_ip q; a_port := a_port (q_negotiator_addr q) |}
  | AskQueue v _ _, RIncompatible v' => v' = q_version q /\ v' <> v
  | AskHealth _ _, RHealth (Some (healthy, v)) => healthy = true /\ v = q_version q /\ exists i, opened_by h c i = true
  | AskResults _ _ run, RResults x => x <> ResultsPending /\ exists i, opened_by h c i = true /\ In {| who := Task i; what := SawResults run x |} h
  | _, _ => True
  end.

(* the addresses of a queue make sense: its listeners have different ports, and what its servers
   advertise is where they listen, at the public IP *)
Definition distinct_ports (q : queue) : Prop :=
  a_port (q_server_addr q) <> a_port (q_work_addr q) /\ a_port (q_server_addr q) <> a_port (q_negotiator_addr q) /\
  a_port (q_work_addr q) <> a_port (q_negotiator_addr q).

(* counting *)
Definition count (f : event -> bool) (tr : list event) : nat := length (filter f tr).
Definition is_connect (e : event) : bool := match e with Connected _ _ => true | _ => false end.
Definition is_miss (e : event) : bool := match e with Connected _ None => true | _ => false end.
Definition is_send (e : event) : bool := match e with Sent _ _ _ => true | _ => false end.
Definition is_write (e : event) : bool := match e with Wrote _ _ => true | _ => false end.
Definition is_shown (e : event) : bool := match e with ShownLocally _ => true | _ => false end.
Definition is_accounted (e : event) : bool := match e with Accounted _ => true | _ => false end.

(* five attempts to connect, three seconds apart *)
Definition five_misses (a : address) : list event :=
  [Connected a None; Slept 3000; Connected a None; Slept 3000; Connected a None; Slept 3000; Connected a None; Slept 3000; Connected a None].
(* the pauses that follow answers *)
Fixpoint pauses (tr : list event) : list N :=
  match tr with
  | [] => []
  | Received _ _ :: rest => match rest with Slept d :: _ => d :: pauses rest | _ => pauses rest end
  | _ :: rest => pauses rest
  end.
(* what a caller does with the network *)
Definition on_the_network (e : event) : bool := match e with Accounted _ | ShownLocally _ | Chose _ => false | _ => true end.
Definition is_results_call (k : call) : bool := match k with TellResults _ _ _ _ => true | _ => false end.
