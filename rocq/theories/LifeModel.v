(* Model of the life of a queue's servers: how they are started, how connections get to their
   handlers, and how they are shut down.
   crates/abq_queue/src/queue.rs:1455-1470, 1498-1560 (Abq), 1615-1712 (start_queue), 1813-1892
   (QueueServer::start), 2535-2586 (WorkScheduler::start),
   crates/abq_workers/src/negotiate.rs:497-560 and 645-647 (QueueNegotiator),
   crates/abq_utils/src/server_shutdown.rs.
   What the handlers of connections do is the subject of CallModel.v.  The accept loops
   themselves have no step that panics; a runtime that is torn down is left out.  Which of
   several ready branches a select! takes is left to the history. *)
From Verif Require Import Base.

Inductive server := Main | Work | Negotiator.
Definition server_eqb (a b : server) : bool :=
  match a, b with Main, Main | Work, Work | Negotiator, Negotiator => true | _, _ => false end.

(* a server's listener and accept loop: not bound yet; bound, so that connections queue up in its
   backlog; running with its receiver of the shutdown channel, which has read so many messages;
   ended, with the listener closed *)
Inductive phase := Unbound | Bound | Running (read : nat) | Ended.

(* tokio::sync::broadcast, server_shutdown.rs:12-30: how many messages were sent, whether the
   sender is there; the receiver that is made with the channel and not yet given away (:16, :56).
   The channel has room for one message; a receiver that lags behind is told so (an error,
   which ends its loop just as a message does). *)
Record manager := { m_sent : nat; m_open : bool; m_spare : option nat; m_shutdown : bool; m_retired : bool }.
(* server_shutdown.rs:19-30 *)
Definition manager_default : manager := {| m_sent := 0; m_open := true; m_spare := Some 0; m_shutdown := false; m_retired := false |}.
(* server_shutdown.rs:51-59: what the new receiver has read *)
Definition add_receiver (m : manager) : nat * manager :=
  (match m_spare m with Some n => n | None => m_sent m end,
   {| m_sent := m_sent m; m_open := m_open m; m_spare := None; m_shutdown := m_shutdown m; m_retired := m_retired m |}).
(* server_shutdown.rs:84-91: recv is ready if there is something to read or nobody to send *)
Definition recv_ready (m : manager) (read : nat) : bool := Nat.ltb read (m_sent m) || negb (m_open m).

(* the steps of start_queue, queue.rs:1636-1693 *)
Inductive start_op := Bind (s : server) | Spawn (s : server).
Definition start_ops : list start_op := [Bind Main; Bind Negotiator; Spawn Main; Bind Work; Spawn Work; Spawn Negotiator].

(* who holds the queue: it is being started; it could not be bound (the unwrap of :1642, :1649,
   :1669); it is there; its shutdown waits for servers to end; was shut down; the shutdown
   message could not be sent (server_shutdown.rs:73-78); a second shutdown panicked (:71);
   it was dropped *)
Inductive owner := Starting (ops : list start_op) | StartPanicked | Live | Joining (left : list server) | Stopped | StopFailed | StopPanicked | Dropped.

(* a handler that was spawned: for a connection or a timeout; whether it is still at it *)
Inductive job := ForConn (s : server) (c : nat) | ForTimeout (t : nat).

(* what can be seen *)
Inductive obs :=
| Arrived (s : server) (c : nat)      (* a connection came into a server's backlog *)
| Refused (s : server) (c : nat)      (* nobody listens *)
| Handed (s : server) (c : nat)       (* a handler of the server was spawned for it *)
| Lost (s : server) (c : nat)         (* accepting it failed *)
| Severed (s : server) (c : nat)        (* the listener was closed before it was accepted *)
| TimedOut (t : nat).                 (* a handler was spawned for a timeout *)

Record state := {
  phases : server -> phase; backlog : server -> list nat; mgr : manager; own : owner;
  jobs : list (job * bool);           (* true: still running *)
  log : list obs }.
Definition init : state :=
  {| phases := fun _ => Unbound; backlog := fun _ => []; mgr := manager_default; own := Starting start_ops; jobs := []; log := [] |}.

Definition set {A} (f : server -> A) (s : server) (a : A) : server -> A := fun s' => if server_eqb s' s then a else f s'.

Inductive event :=
| StartStep (ok : bool)               (* the next step of start_queue; a bind can fail *)
| Arrive (s : server) (c : nat)
| Accept (s : server)                 (* the accept branch of the loop's select! *)
| AcceptFails (s : server) (lost : bool) (* the same with an error, which may cost the connection *)
| Fire (t : nat)                      (* the timeout branch of the main server's *)
| See (s : server)                    (* the shutdown branch *)
| JobEnds (i : nat) (ok : bool)       (* a handler ends, well or with an error or a panic *)
| Retire
| Shutdown                            (* Abq::shutdown is called *)
| Join                                (* it goes on when the server it waits for has ended *)
| DropQueue.                          (* the queue is dropped, queue.rs:1549-1559 *)

Definition with_mgr (st : state) (m : manager) : state :=
  {| phases := phases st; backlog := backlog st; mgr := m; own := own st; jobs := jobs st; log := log st |}.
Definition with_own (st : state) (o : owner) : state :=
  {| phases := phases st; backlog := backlog st; mgr := mgr st; own := o; jobs := jobs st; log := log st |}.
Definition with_log (st : state) (l : list obs) : state :=
  {| phases := phases st; backlog := backlog st; mgr := mgr st; own := own st; jobs := jobs st; log := log st ++ l |}.
Definition with_phase (st : state) (s : server) (p : phase) : state :=
  {| phases := set (phases st) s p; backlog := backlog st; mgr := mgr st; own := own st; jobs := jobs st; log := log st |}.
Definition with_backlog (st : state) (s : server) (b : list nat) : state :=
  {| phases := phases st; backlog := set (backlog st) s b; mgr := mgr st; own := own st; jobs := jobs st; log := log st |}.
Definition with_jobs (st : state) (j : list (job * bool)) : state :=
  {| phases := phases st; backlog := backlog st; mgr := mgr st; own := own st; jobs := j; log := log st |}.

(* a server's listener is dropped: what waits in its backlog is reset *)
Definition close (st : state) (s : server) : state :=
  with_log (with_backlog (with_phase st s Ended) s []) (map (Severed s) (backlog st s)).
(* dropping a manager closes its channel *)
Definition drop_manager (m : manager) : manager :=
  {| m_sent := m_sent m; m_open := false; m_spare := m_spare m; m_shutdown := m_shutdown m; m_retired := m_retired m |}.
(* start_queue panics: its listeners that no server has got yet are dropped and so is the manager;
   the servers that were spawned go on *)
Definition close_if_bound (st : state) (s : server) : state := match phases st s with Bound => close st s | _ => st end.
Definition start_panics (st : state) : state :=
  let st1 := close_if_bound (close_if_bound (close_if_bound st Main) Negotiator) Work in
  with_own (with_mgr st1 (drop_manager (mgr st1))) StartPanicked.

Definition is_running (p : phase) : bool := match p with Running _ => true | _ => false end.
(* the receivers of the channel are those of the running servers *)
Definition receivers (st : state) : nat := length (filter (fun s => is_running (phases st s)) [Main; Work; Negotiator]).

Definition step (st : state) (e : event) : state :=
  match e with
  | StartStep ok =>
      match own st with
      | Starting (op :: ops) =>
          let next := match ops with [] => Live | _ => Starting ops end in
          match op with
          | Bind s => if ok then with_own (with_phase st s Bound) next else start_panics st
          | Spawn s =>
              let '(read, m) := add_receiver (mgr st) in
              with_own (with_mgr (with_phase st s (Running read)) m) next
          end
      | _ => st
      end
  | Arrive s c =>
      match phases st s with
      | Bound | Running _ => with_log (with_backlog st s (backlog st s ++ [c])) [Arrived s c]
      | Unbound | Ended => with_log st [Refused s c]
      end
  | Accept s =>
      match phases st s, backlog st s with
      | Running _, c :: rest => with_jobs (with_log (with_backlog st s rest) [Handed s c]) (jobs st ++ [(ForConn s c, true)])
      | _, _ => st
      end
  | AcceptFails s lost =>
      match phases st s, backlog st s with
      | Running _, c :: rest => if lost then with_log (with_backlog st s rest) [Lost s c] else st
      | _, _ => st
      end
  | Fire t =>
      match phases st Main with
      | Running _ => with_jobs (with_log st [TimedOut t]) (jobs st ++ [(ForTimeout t, true)])
      | _ => st
      end
  | See s =>
      match phases st s with
      | Running read => if recv_ready (mgr st) read then close st s else st
      | _ => st
      end
  | JobEnds i ok =>
      match nth_error (jobs st) i with
      | Some (j, true) => with_jobs st (upd i (j, false) (jobs st))
      | _ => st
      end
  | Retire =>
      (* queue.rs:1502-1504 *)
      match own st with
      | Live => with_mgr st {| m_sent := m_sent (mgr st); m_open := m_open (mgr st); m_spare := m_spare (mgr st); m_shutdown := m_shutdown (mgr st); m_retired := true |}
      | _ => st
      end
  | Shutdown =>
      (* queue.rs:1520-1544, server_shutdown.rs:70-79 *)
      match own st with
      | Live | Stopped | StopFailed =>
          if m_shutdown (mgr st) then with_own st StopPanicked
          else
            let m sent := {| m_sent := sent; m_open := m_open (mgr st); m_spare := m_spare (mgr st); m_shutdown := true; m_retired := m_retired (mgr st) |} in
            if Nat.eqb (receivers st) 0 then with_own (with_mgr st (m (m_sent (mgr st)))) StopFailed
            else with_own (with_mgr st (m (S (m_sent (mgr st))))) (Joining [Negotiator; Main; Work])
      | _ => st
      end
  | Join =>
      match own st with
      | Joining (s :: rest) =>
          match phases st s with
          | Ended => with_own st (match rest with [] => Stopped | _ => Joining rest end)
          | _ => st
          end
      | _ => st
      end
  | DropQueue =>
      match own st with
      | Live | Joining _ | Stopped | StopFailed | StopPanicked => with_own (with_mgr st (drop_manager (mgr st))) Dropped
      | Starting _ | StartPanicked | Dropped => st
      end
  end.
