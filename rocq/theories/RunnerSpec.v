(* Vocabulary for a runner's tasks. *)
From Verif Require Import Base StatusModel FetchModel FetchSpec RunnerModel.

Definition items (ms : list msg) : list wtest := flat_map (fun m => match m with Item t => [t] | _ => [] end) ms.
Definition results_in (rs : list rmsg) : list aresult := flat_map (fun m => match m with Results r => [r] | _ => [] end) rs.

(* The tests that are on their way to the task that runs them. *)
Definition on_the_way (s : runner) : list wtest :=
  items (r_chan s) ++ match r_prod s with PSend ms _ => items ms | _ => [] end.
(* The tests the task has and did not report yet. *)
Definition in_hand (s : runner) : list wtest :=
  match r_task s with TRefill t | TRun t => [t] | TFlush t rem => t :: rem | _ => [] end.
(* The reports that were made: sent, buffered, or on their way to the sender. *)
Definition reports (s : runner) : list aresult :=
  concat (r_sent s) ++ r_buffer s ++ results_in (r_results s) ++
  match r_task s with TPush (Results r) => [r] | TReport rs => rs | _ => [] end.

(* All three tasks have returned. *)
Definition finished (s : runner) : Prop :=
  r_prod s = PExit /\ r_sender_done s = true /\ exists c, r_task s = TDone c.
(* The native runner failed and the worker has not returned. *)
Definition flushing (s : runner) : Prop := match r_task s with TFlush _ _ => True | _ => False end.
Definition crashed (s : runner) : Prop :=
  match r_task s with TFlush _ _ | TReport _ | TDone true => True | _ => False end.

(* Every event of the schedule changes the state. *)
Fixpoint effective (batch : nat) (s : runner) (es : list revent) : Prop :=
  match es with
  | [] => True
  | e :: es' => rstep batch s e <> s /\ effective batch (rstep batch s e) es'
  end.

(* One of the three tasks can go on, whatever the native runner answers. *)
Definition can_move (batch : nat) (s : runner) : Prop :=
  rstep batch s Producer <> s \/ rstep batch s Sender <> s \/ forall o, rstep batch s (Task o) <> s.
