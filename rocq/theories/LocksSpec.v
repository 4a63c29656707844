(* What is said of the locks of a queue. *)
From Verif Require Import Base LocksModel.

(* any schedule: the threads named take a step each if they can.  A thread of whom [stalled] says so never gets an answer from
   its client or from the remote store. *)
Definition at_peer (st : state) (i : nat) : Prop :=
  exists ops h, nth_error (threads st) i = Some {| todo := Wait Client :: ops; held := h |} \/ nth_error (threads st) i = Some {| todo := Wait Remote :: ops; held := h |}.
Definition at_peer_b (st : state) (i : nat) : bool :=
  match nth_error (threads st) i with Some {| todo := Wait Client :: _ |} | Some {| todo := Wait Remote :: _ |} => true | _ => false end.
Definition step_if (pool : nat) (pass : state -> nat -> bool) (stalled : nat -> bool) (st : state) (i : nat) : option state :=
  if stalled i && at_peer_b st i then None else step pool pass st i.
Definition take_turns (pool : nat) (pass : state -> nat -> bool) (stalled : nat -> bool) (st : state) (sched : list nat) : state :=
  fold_left (fun st i => match step_if pool pass stalled st i with Some st' => st' | None => st end) sched st.
Definition nobody (i : nat) : bool := false.
(* nobody can go on *)
Definition stuck (pool : nat) (pass : state -> nat -> bool) (stalled : nat -> bool) (st : state) : Prop := forall i, step_if pool pass stalled st i = None.
Definition finished (st : state) (i : nat) : Prop := exists h, nth_error (threads st) i = Some {| todo := []; held := h |}.
Definition all_finished (st : state) : Prop := forall i, i < length (threads st) -> finished st i.
(* the thread wants a lock that it does not get *)
Definition blocked_on (st : state) (i : nat) (l : lock) : Prop := exists m ops h, nth_error (threads st) i = Some {| todo := Acq l m :: ops; held := h |}.

(* the locks of what is kept on disk *)
Definition of_files (l : lock) : bool := match l with Cache | ResultsFile _ | ManifestFile _ => true | _ => false end.
(* the requests that have nothing to do with files *)
Definition no_files (p : list op) : Prop := forall l m, In (Acq l m) p -> of_files l = false.
(* how many turns there can be *)
Definition turns (progs : list (list op)) : nat := list_sum (map (fun p => 2 * length p) progs).
(* a scheduler: it picks one who can go on, if there is one *)
Fixpoint schedule (pool : nat) (pass : state -> nat -> bool) (stalled : nat -> bool) (pick : state -> nat) (n : nat) (st : state) : state :=
  match n with 0 => st | S n' => schedule pool pass stalled pick n' (match step_if pool pass stalled st (pick st) with Some st' => st' | None => st end) end.
Definition willing (pool : nat) (pass : state -> nat -> bool) (stalled : nat -> bool) (pick : state -> nat) : Prop :=
  forall st i, step_if pool pass stalled st i <> None -> step_if pool pass stalled st (pick st) <> None.
