(* More of C13: every run has a progress timeout from its beginning. *)
From Verif Require Import Base JobQueueModel WorkerSetModel RunModel.
From Coq Require Import ZArith.

Section C13.
Context {T M : Type}.
Implicit Types st : state T M.

Lemma app_own {A} (l x : list A) : l = l ++ x -> x = [].
Proof. intros H. apply (app_inv_head l). now rewrite app_nil_r. Qed.

(* When a worker that looks for a run is answered, a timeout for that run is set if the worker is told to generate the run's manifest -
   the run is new - and none is set otherwise.  It compares with no test handed out. *)
Theorem C13_timeout_iff_fresh st ev p a : s_log (step st ev) = s_log st ++ [OAssigned p a] ->
  s_timers (step st ev) = s_timers st ++ match a with AssignedRun (Fresh true) _ => [(fp_run p, 0)] | _ => [] end.
Proof.
  intros H. destruct ev; cbn [step] in *; unfold exclusive in *;
  repeat match goal with
  | H : context [match ?x with _ => _ end] |- _ => destruct x eqn:?
  | H : context [if ?x then _ else _] |- _ => destruct x eqn:?
  end; cbn [s_log s_timers set_req set_run say add_req add_timer mk] in *;
  try (apply app_own in H; discriminate H);
  try (rewrite <- ?app_assoc in H; apply app_inv_head in H; discriminate H);
  try (apply app_inv_head in H; injection H as <- <-); rewrite ?app_nil_r in *; try reflexivity;
  try (apply app_own in H; discriminate H).
  match goal with E : find_lookup _ _ ?s = _ |- _ => destruct s; cbn [find_lookup] in E end;
  repeat match goal with E : context [match ?x with _ => _ end] |- _ => destruct x | E : context [if ?x then _ else _] |- _ => destruct x end;
  match goal with E : (_, _) = (_, _) |- _ => injection E as <- <- end; now rewrite app_nil_r.
Qed.
End C13.
Print Assumptions C13_timeout_iff_fresh.

(* the first worker of a run is told to generate its manifest *)
Example C13_timeout_example : let p := {| fp_run := 4; fp_batch := 2; fp_strategy := ByTest; fp_entity := {| en_tag := TRunner 1 1; en_id := 1 |}; fp_hash := 0 |} in
  let st : state nat nat := run step init_state [EFind p] in
  s_log (step st (EFindRemote 0 RemoteNotFound 0)) = s_log st ++ [OAssigned p (AssignedRun (Fresh true) false)] /\
  s_timers (step st (EFindRemote 0 RemoteNotFound 0)) = [(4, 0)].
Proof. vm_compute. auto. Qed.
