(* Vocabulary for statements about runs in time. *)
From Verif Require Import Base JobQueueModel WorkerSetModel RunModel RunSpec TimedModel.

Section Spec.
Context {T M : Type}.
Variable window : nat.

(* The state after a history. *)
Definition after (es : list (tevent T M)) : tstate T M := run (tstep window) tinit es.

(* Run r waits for its manifest or has tests to hand out. *)
Definition active (ts : tstate T M) (r : run_id) : Prop :=
  phase_of (t_st ts) r = Some PhWaiting \/ phase_of (t_st ts) r = Some PhOpen.

(* The tests of run r that were claimed by workers. *)
Definition handed_out (ts : tstate T M) (r : run_id) : list (worker_test T) := claimed_tests (t_st ts) r.

(* Run r has no manifest yet, or it has tests that nobody claimed. *)
Definition has_tests_left (ts : tstate T M) (r : run_id) : Prop :=
  phase_of (t_st ts) r = Some PhWaiting \/
  (phase_of (t_st ts) r = Some PhOpen /\ length (handed_out ts r) < length (manifest_of (t_st ts) r)).

(* What happens in [ts] with [te] cancels run r for lack of progress. *)
Definition times_out (ts : tstate T M) (te : tevent T M) (r : run_id) : Prop :=
  exists l p, history (t_st (tstep window ts te)) r = history (t_st ts) r ++ [OTimeout r l (Some p)] /\
    (p = PCancelledNoManifest \/ p = PCancelledNoProgress).

(* No timeout and no started check is overdue by more than [eps]. *)
Definition prompt (eps : nat) (ts : tstate T M) : Prop :=
  (forall d, In d (t_due ts) -> t_now ts <= d + eps) /\
  (forall k r l a, nth_error (s_reqs (t_st ts)) k = Some (QTimeout r l false) -> nth_error (t_came ts) k = Some a ->
     t_now ts <= a + eps).

(* ... at any time of a history. *)
Definition always_prompt (eps : nat) (es : list (tevent T M)) : Prop :=
  forall es0 es1, es = es0 ++ es1 -> prompt eps (after es0).
End Spec.
