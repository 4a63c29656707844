(* What C53 and C54 say. *)
From Verif Require Import Base RunModel InstanceModel.

(* l is the log of a job whose instances never overlap; o is the one running at
   the end of l, if any. *)
Inductive one_at_a_time : list job_obs -> option nat -> Prop :=
| ot_nil : one_at_a_time [] None
| ot_skip l o i : one_at_a_time l o -> one_at_a_time (l ++ [JSkipped i]) o
| ot_began l i : one_at_a_time l None -> one_at_a_time (l ++ [JBegan i]) (Some i)
| ot_ended l i : one_at_a_time l (Some i) -> one_at_a_time (l ++ [JEnded i]) None.

(* call i has been triggered and has not decided anything yet *)
Definition triggered (st : jstate) (i : nat) : Prop := nth_error (j_calls st) i = Some JStart.

(* call i has begun the job and not yet returned *)
Definition in_progress (st : jstate) (i : nat) : Prop :=
  nth_error (j_calls st) i = Some JRunning \/ nth_error (j_calls st) i = Some JFinished.

Section Instance.
Context {T M : Type}.

(* the requests among the events *)
Fixpoint requests (es : list (ievent T M)) : list (RunModel.event T M) :=
  match es with
  | [] => []
  | IQueue e :: r => e :: requests r
  | _ :: r => requests r
  end.

Definition is_signal (e : ievent T M) : bool := match e with ISignal => true | _ => false end.
Definition signals (es : list (ievent T M)) : nat := length (filter is_signal es).
End Instance.
