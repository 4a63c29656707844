(* Properties of lost responses: C35, C58. *)
From Verif Require Import Base ConnModel ConnSpec ConnProofs.

(* C35.  What holds: as long as attempts fail only before the queue has read the request,
   what the workers received, in order, and what is still in the queue is the manifest. *)
Theorem C35_no_response_lost_partial : forall manifest batch cs, Forall harmless cs ->
  let s := run (cstep batch) (cinit manifest) cs in manifest = received s ++ c_rem s.
Proof. exact lossless. Qed.

(* C35.  In general the tests of the lost responses, and only those, are missing. *)
Theorem C35_accounting : forall manifest batch cs,
  let s := run (cstep batch) (cinit manifest) cs in Permutation manifest (received s ++ lost s ++ c_rem s).
Proof. exact accounting. Qed.

(* C35.  False of the code: one response is lost, all workers go on to the end of work,
   and a test of the manifest was received by nobody and is not in the queue. *)
Theorem C35_lost_tests_refuted :
  let s := run (cstep 1) (cinit [10; 20; 30]) [(0, [Delivered]); (1, [ReadFailed; Delivered]); (0, [Delivered])] in
  c_rem s = [] /\ c_done s = true /\ In 20 [10; 20; 30] /\ ~ In 20 (received s).
Proof. simpl. repeat split; auto. intros [|[|[]]]; discriminate. Qed.

(* C35.  A call makes at most three attempts; it gives the tests of its first delivered
   attempt, and panics when none of three is. *)
Theorem C35_call : forall batch s worker os,
  (exists ps, c_pulls (fst (get_next_tests batch s worker os)) = c_pulls s ++ ps /\ length ps <= 3) /\
  match snd (get_next_tests batch s worker os) with
  | Answer ts e => In Delivered (firstn 3 os) /\
      exists ps, c_pulls (fst (get_next_tests batch s worker os)) =
                 c_pulls s ++ ps ++ [{| p_worker := worker; p_tests := ts; p_eow := e; p_out := Delivered |}]
  | CallPanics => ~ In Delivered (firstn 3 os) /\ 3 <= length os
  | StillTrying => ~ In Delivered (firstn 3 os) /\ length os < 3
  end.
Proof.
  intros batch s k os. split.
  - destruct (call_pulls batch k 3 s os) as (ps & E & L & _). exists ps. auto.
  - pose proof (call_answer batch k 3 s os) as A. unfold get_next_tests, DEFAULT_MAX_ATTEMPTS_IN_CYCLE.
    destruct (snd (call_loop 3 batch s k os)).
    + destruct A as [A B]. split; auto. destruct os as [|[] [|[] [|[] os]]]; simpl in *; auto; discriminate.
    + destruct os as [|[] [|[] [|[] os]]]; simpl in *; try discriminate; (split; [intuition discriminate|lia]).
    + destruct os as [|[] [|[] [|[] os]]]; simpl in *; try discriminate; (split; [intuition discriminate|lia]).
Qed.

(* C58.  The manifest is persisted at most once, and not before its last test was taken. *)
Theorem C58_at_most_once : forall manifest batch cs,
  let s := run (cstep batch) (cinit manifest) cs in c_stored s <= 1 /\ (c_stored s = 1 -> c_rem s = []).
Proof.
  intros m batch cs s. pose proof (reach_cinv m batch cs) as I. fold s in I. destruct (ci_stored _ _ I) as [A B]. split; auto.
  intros E. apply (ci_done _ _ I). destruct (c_done s); auto. rewrite B in E; auto. discriminate.
Qed.

(* C58.  What holds: once the end of the manifest was seen it is persisted, unless the
   queue failed to write a response that carries the end of work. *)
Theorem C58_persisted_partial : forall manifest batch cs,
  let s := run (cstep batch) (cinit manifest) cs in
  (exists p, In p (c_pulls s) /\ p_eow p = true) -> (forall p, In p (c_pulls s) -> p_eow p = true -> p_out p <> WriteFailed) ->
  c_stored s = 1.
Proof.
  intros m batch cs s (p & I1 & I2) NF. pose proof (reach_cinv m batch cs) as I. fold s in I.
  pose proof (ci_eow _ _ I p I1 I2) as D. destruct (ci_stored _ _ I) as [A _].
  destruct (Nat.eq_dec (c_stored s) 0) as [Z|]; [|lia]. destruct (ci_plan _ _ I D Z) as (q & Q1 & Q2 & Q3). destruct (NF q Q1 Q2 Q3).
Qed.

(* C58.  False of the code: the queue fails to write the response with the last test; the
   worker reconnects and gets the end of work; the manifest is never persisted. *)
Theorem C58_never_persisted_refuted :
  let s := run (cstep 2) (cinit [10; 20]) [(0, [WriteFailed; Delivered])] in
  c_done s = true /\ c_stored s = 0 /\ forall cs, c_stored (run (cstep 2) s cs) = 0.
Proof.
  intros s. assert (D0 : c_done s = true /\ c_stored s = 0) by (split; reflexivity). clearbody s.
  split; [apply D0|]. split; [apply D0|]. intros cs.
  assert (K : c_done (run (cstep 2) s cs) = true /\ c_stored (run (cstep 2) s cs) = 0); [|apply K].
  apply (run_invariant (cstep 2) (fun s => c_done s = true /\ c_stored s = 0)); [|exact D0].
  clear. intros s [k os] [D Z]. unfold cstep, get_next_tests. cbn [fst snd]. generalize DEFAULT_MAX_ATTEMPTS_IN_CYCLE. intros n.
  revert s os D Z. induction n as [|n IH]; intros s os D Z; simpl; auto. destruct os as [|o os]; simpl; auto.
  assert (A : c_done (attempt_once 2 s k o) = true /\ c_stored (attempt_once 2 s k o) = 0).
  { unfold attempt_once. destruct (reaches o); auto. unfold serve. rewrite D. simpl. rewrite Z. auto. }
  destruct A as [A1 A2]. destruct o; try (apply IH; assumption). simpl. auto.
Qed.

Example calls_without_loss :
  let cs := [(0, [Unreached; Delivered]); (1, [Unreached; Unreached; Delivered]); (0, [Delivered])] in
  Forall harmless cs /\ received (run (cstep 2) (cinit [1; 2; 3; 4; 5]) cs) = [1; 2; 3; 4; 5] /\
  c_stored (run (cstep 2) (cinit [1; 2; 3; 4; 5]) cs) = 1.
Proof. split; [repeat (constructor; [cbv [harmless snd]; repeat (constructor; [auto|]); constructor|]); constructor|]. split; reflexivity. Qed.

Print Assumptions C35_no_response_lost_partial.
Print Assumptions C35_accounting.
Print Assumptions C35_lost_tests_refuted.
Print Assumptions C35_call.
Print Assumptions C58_at_most_once.
Print Assumptions C58_persisted_partial.
Print Assumptions C58_never_persisted_refuted.
