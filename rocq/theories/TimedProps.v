(* Property theorems about runs in time (C72). *)
From Verif Require Import Base JobQueueModel WorkerSetModel RunModel RunSpec TimedModel TimedSpec TimedProofs.

Section Props.
Context {T M : Type}.
Implicit Types (es : list (tevent T M)).

(* A run is cancelled for lack of progress only when nothing of it was handed out for a whole
   window: at some moment at least a window ago it was active and had handed out the same tests. *)
Theorem C72_not_before_a_window window es te r :
  times_out window (after window es) te r ->
  exists es0 es1, es = es0 ++ es1 /\ t_now (after window es0) + window <= t_now (after window es) /\
    active (after window es0) r /\ handed_out (after window es0) r = handed_out (after window es) r.
Proof. exact (not_before_a_window window es te r). Qed.

(* A run that waits for its manifest or has tests left, and of which nothing was handed out since
   some moment at which it was active, is active for at most two windows from then; timeouts and
   their checks that are late by up to [eps] add up to four times that. *)
Theorem C72_within_two_windows window eps es0 es1 r :
  let ts0 := after window es0 in let ts := after window (es0 ++ es1) in
  always_prompt window eps (es0 ++ es1) -> active ts0 r -> active ts r -> has_tests_left ts r ->
  handed_out ts r = handed_out ts0 r ->
  t_now ts <= t_now ts0 + 2 * window + 4 * eps.
Proof. exact (within_two_windows window eps es0 es1 r). Qed.

End Props.

(* ---- examples: a window of 10 ---- *)
Definition w1 := {| en_id := 1; en_tag := TRunner 1 1 |}.
Definition par := {| fp_run := 0; fp_entity := w1; fp_batch := 1; fp_strategy := ByTest; fp_hash := 7 |}.

(* Worker 1 creates the run and gets a test just after the run was looked at ... *)
Definition ex_work : list (tevent nat nat) :=
  map (@Do nat nat)
    [EFind par; EFindRemote 0 (@RemoteNotFound nat) 0; EManifest 0 [(10, 1); (11, 1); (12, 2)] 5; ENext 0 w1] ++
  repeat (Do (EQueueStep 1)) 8 ++ [Do (ENextFinish 1); Tick 10; Do (ETimer 0); Tick 1; Do (ENext 0 w1)] ++
  repeat (Do (EQueueStep 2)) 8 ++ [Do (ENextFinish 2)].
(* ... and then works on it for longer than a window. *)
Definition ex_silence : list (tevent nat nat) := [Tick 9; Do (ETimer 0); Tick 10].

Example before_the_end :
  let ts0 := after 10 ex_work in let ts := after 10 (ex_work ++ ex_silence) in
  active ts0 0 /\ active ts 0 /\ has_tests_left ts 0 /\ handed_out ts 0 = handed_out ts0 0 /\
  length (handed_out ts 0) = 2 /\ t_now ts = t_now ts0 + 19.
Proof.
  assert (E : phase_of (t_st (after 10 ex_work)) 0 = Some PhOpen) by (vm_compute; reflexivity).
  assert (E' : phase_of (t_st (after 10 (ex_work ++ ex_silence))) 0 = Some PhOpen) by (vm_compute; reflexivity).
  split; [right; exact E|]. split; [right; exact E'|]. split; [right; split; [exact E'|vm_compute; repeat constructor]|].
  repeat split; vm_compute; reflexivity.
Qed.

Example the_end :
  times_out 10 (after 10 (ex_work ++ ex_silence ++ [Do (ETimer 0)])) (Do (ETimerCancel 3)) 0.
Proof. exists 2, PCancelledNoProgress. split; [vm_compute; reflexivity|right; reflexivity]. Qed.

(* Nothing is late in this history. *)
Example before_the_end_prompt : always_prompt 10 0 (ex_work ++ ex_silence).
Proof. apply promptly. vm_compute. reflexivity. Qed.

Print Assumptions C72_not_before_a_window.
Print Assumptions C72_within_two_windows.
