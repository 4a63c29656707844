(* Model of a whole test run that may be cancelled: the system of SystemModel, in which the
   queue can turn the run into a cancelled one.
   crates/abq_queue/src/queue.rs:1276-1309 (mark_cancelled), 1333-1390 (the progress timeout)
   and 840-844 (next_work on a cancelled run).
   Who cancels it and why is an input: a signal to some worker, or a timer.  That the queue
   refuses to cancel a run whose end it has recorded is left out here (C08, C13): the model
   has the cancellations the code has, and those in which a worker's answer already said
   that there is no more work. *)
From Verif Require Import Base JobQueueModel.
From Verif Require Import StatusModel FetchModel RunnerModel SystemModel.

Record crun := {
  k_system : system;
  k_cancelled : bool;
  k_told : list nat      (* ghost: the runners that got the answer of a cancelled run *)
}.

Inductive cevent :=
| Sys (e : sevent)       (* the run goes on as in SystemModel *)
| Cancel.                (* the queue marks the run as cancelled *)

(* queue.rs:806-829: a request holds the run's shared lock while it takes tests, and
   mark_cancelled needs the exclusive one (queue.rs:1279) *)
Definition holds_lock (t : thread) : bool :=
  match th_pc t with PStart | PDone _ _ _ | PPanicked => false | _ => true end.

(* queue.rs:840-844 *)
Definition cancelled_answer : FetchModel.bundle := {| b_work := []; b_eow := true |}.

Section Cancel.
Variable c : config nat.

(* A request that comes to the run after it was cancelled: it takes no tests. *)
Definition refuse (k : crun) (i : nat) : crun :=
  let y := k_system k in
  match nth_error (y_slots y) i with
  | Some sl =>
      {| k_system := with_slot y (y_queue y) i
           {| sl_params := sl_params sl; sl_pending := None; sl_taken := sl_taken sl;
              sl_runner := feed cancelled_answer (sl_runner sl) |};
         k_cancelled := k_cancelled k; k_told := k_told k ++ [i] |}
  | None => k
  end.

(* The request of runner i got to the run before it was cancelled and has its answer. *)
Definition has_answer (y : system) (i : nat) : bool :=
  match nth_error (y_slots y) i with
  | Some sl => match sl_pending sl with
               | Some k => match nth_error (st_threads (y_queue y)) k with
                           | Some t => match answer_of c t with Some _ => true | None => false end
                           | None => false
                           end
               | None => false
               end
  | None => false
  end.
Definition has_request (y : system) (i : nat) : bool :=
  match nth_error (y_slots y) i with
  | Some sl => match sl_pending sl with Some _ => true | None => false end
  | None => false
  end.

Definition cstep (k : crun) (e : cevent) : crun :=
  let go e := {| k_system := sstep c (k_system k) e; k_cancelled := k_cancelled k; k_told := k_told k |} in
  match e with
  | Cancel =>
      if existsb holds_lock (st_threads (y_queue (k_system k))) then k
      else {| k_system := k_system k; k_cancelled := true; k_told := k_told k |}
  | Sys e =>
      if negb (k_cancelled k) then go e
      else match e with
           | QStep _ => k
           | Reply i => if has_answer (k_system k) i then go e
                        else if has_request (k_system k) i then refuse k i else k
           | Ask _ | Go _ _ => go e
           end
  end.

Definition cinit (ps : list params) : crun := {| k_system := sinit c ps; k_cancelled := false; k_told := [] |}.
End Cancel.
