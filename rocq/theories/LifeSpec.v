(* The vocabulary of C80. *)
From Verif Require Import Base LifeModel.

Definition after (h : list event) : state := run step init h.

(* the connections that came to a server, those a handler was spawned for, those that failed to be
   accepted, and those that ceased to wait in whatever way; in order *)
Definition pick (f : obs -> list nat) (l : list obs) : list nat := flat_map f l.
Definition came (s : server) (o : obs) : list nat := match o with Arrived s' c => if server_eqb s s' then [c] else [] | _ => [] end.
Definition handed (s : server) (o : obs) : list nat := match o with Handed s' c => if server_eqb s s' then [c] else [] | _ => [] end.
Definition left (s : server) (o : obs) : list nat :=
  match o with Handed s' c | Lost s' c | Severed s' c => if server_eqb s s' then [c] else [] | _ => [] end.
(* what handlers were spawned for *)
Definition job_of (o : obs) : list job := match o with Handed s c => [ForConn s c] | TimedOut t => [ForTimeout t] | _ => [] end.

(* nothing was lost by a server's own doing *)
Definition turned_away (s : server) (o : obs) : Prop := exists c, o = Refused s c \/ o = Severed s c.

Definition started (st : state) : Prop := own st <> StartPanicked /\ forall ops, own st <> Starting ops.
Definition running (st : state) (s : server) : Prop := exists n, phases st s = Running n.
Definition ends_queue (e : event) : Prop := e = Shutdown \/ e = DropQueue \/ e = StartStep false.
Definition about_job (e : event) : bool := match e with JobEnds _ _ => true | _ => false end.
Definition joins (h : list event) : nat := length (filter (fun e => match e with Join => true | _ => false end) h).
