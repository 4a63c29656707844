(* The vocabulary of C69: what a worker's process was told and what it should do. *)
From Verif Require Import Base RunModel PoolModel PoolSpec WorkerModel.
From Coq Require Import ZArith.
Local Open Scope Z_scope.

(* an attempt to attach that is not answered by "this run is not known yet" *)
Definition decisive (ev : wevent) : bool :=
  match ev with EAttempt (Got MUnknown) _ => false | EAttempt _ _ => true | _ => false end.
Definition undecided (es : list wevent) : Prop := Forall (fun e => decisive e = false) es.
Definition is_attempt (ev : wevent) : bool := match ev with EAttempt _ _ => true | _ => false end.
Definition number_of_attempts (es : list wevent) : nat := length (filter is_attempt es).

(* the pause after the i-th such answer, in milliseconds *)
Definition pause (i : nat) : Z := Z.min (10 * 2 ^ Z.of_nat i) 3000.

(* the end of the runners, the first one in the history *)
Fixpoint runners_end (es : list wevent) : option pool_end :=
  match es with [] => None | EPoolEnds e :: _ => Some e | _ :: es' => runners_end es' end.

(* no runner failed and all is well with the reports *)
Definition clean (e : pool_end) : Prop :=
  match e with Ended rs (Some p) => Forall exited_ok rs /\ p_suite p = 0%nat | _ => False end.

(* the exit codes of a worker that was not signalled and whose runners ended in this way *)
Definition code_at_end (e : pool_end) (c : Z) : Prop :=
  match e with
  | Ended rs (Some p) => c = worker_exit_code (x_status (shutdown rs)) (Z.of_nat (p_suite p))
  | _ => c = 101
  end.
(* those of one that was told to stop *)
Definition code_when_stopped (e : pool_end) (c : Z) : Prop :=
  match e with Ended _ _ => c = 1 | RunnerPanicked => c = 101 end.

(* the exit code [c] is right for a worker that was answered [a] (with [ok]: it could print
   the warning) and then saw [later]; [signalled]: it got a termination signal *)
Definition right_code (a : attempt) (ok : bool) (later : list wevent) (signalled : Prop) (c : Z) : Prop :=
  match a with
  | Got (MCompleted code) => c = Z.max 0 code \/ (signalled /\ c = 1)
  | Got (MCancelled _) => c = 101 \/ (signalled /\ c = 1)
  | Got (MContext _ differs) =>
      if differs && negb ok then c = 101
      else exists e, runners_end later = Some e /\ (code_at_end e c \/ (signalled /\ code_when_stopped e c))
  | Got MUnknown => False
  | Got MFatal | NoConnection | WriteFailed | ReadFailed => c = 101
  end.

(* the runners that were started *)
Definition starts (os : list out) : list (bool * bool) := flat_map (fun o => match o with Started b r => [(b, r)] | _ => [] end) os.
Definition outputs (os : list out) : list (nat * text) := flat_map (fun o => match o with PrintedOutput i t => [(i, t)] | _ => [] end) os.
Definition manifest_outputs (os : list out) : list text := flat_map (fun o => match o with PrintedManifest t => [t] | _ => [] end) os.
(* errors of reporters and of runners *)
Definition errors (os : list out) : list text := flat_map (fun o => match o with PrintedErrors ts => ts | _ => [] end) os.
Definition summaries (os : list out) : nat := length (filter (fun o => match o with PrintedSummary => true | _ => false end) os).
Definition replays (os : list out) : nat := length (filter (fun o => match o with PrintedReplay => true | _ => false end) os).
