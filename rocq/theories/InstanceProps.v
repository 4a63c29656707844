(* C53 (periodic jobs do not overlap) and C54 (termination signals). *)
From Verif Require Import Base JobQueueModel WorkerSetModel RunModel InstanceModel InstanceSpec InstanceProofs.

(* C53: whatever the interleaving of triggers, completions and aborted calls,
   the instances of the job run one at a time, and the running one is the one the
   log says. *)
Theorem C53_no_overlap : forall es, let st := run jstep jinit es in
  exists o, one_at_a_time (j_log st) o /\
    forall i, nth_error (j_calls st) i = Some JRunning <-> o = Some i.
Proof. intros es. destruct (jinv_run es) as (o & L & R & _). exists o. auto. Qed.

(* A call that finds no other call in progress starts the job, as long as no
   call was ever dropped or panicked ... *)
Theorem C53_trigger_starts_partial : forall es i, let st := run jstep jinit es in
  (forall k, ~ In (JDrop k) es) ->
  triggered st i -> (forall k, ~ in_progress st k) ->
  j_log (jstep st (JCas i)) = j_log st ++ [JBegan i].
Proof.
  intros es i st D Ht N. unfold triggered in Ht. simpl. rewrite Ht.
  destruct (j_active st) eqn:E; [|reflexivity].
  exfalso. destruct (jlive_run es D E) as (k & Hk). now apply (N k).
Qed.

(* ... and a call is skipped only because another one is in progress. *)
Theorem C53_skipped_only_while_in_progress_partial : forall es i, let st := run jstep jinit es in
  (forall k, ~ In (JDrop k) es) ->
  j_log (jstep st (JCas i)) = j_log st ++ [JSkipped i] -> exists k, in_progress st k.
Proof.
  intros es i st D H. simpl in H.
  destruct (nth_error (j_calls st) i) as [[]|]; try (symmetry in H; apply (f_equal (@length _)) in H; rewrite app_length in H; simpl in H; lia).
  destruct (j_active st) eqn:E; [now apply jlive_run|].
  simpl in H. apply app_inv_head in H. discriminate.
Qed.

(* In general this is false: one aborted call (a panic in the job, a dropped
   future) and the job never begins again, whatever is triggered. *)
Theorem C53_trigger_starts_refuted : exists es,
  (forall k, ~ in_progress (run jstep jinit es) k) /\
  forall es' i, In (JBegan i) (j_log (run jstep jinit (es ++ es'))) -> i = 0.
Proof.
  exists [JTrigger; JCas 0; JDrop 0]. split.
  - intros k [H|H]; vm_compute in H; destruct k as [|[|k]]; discriminate.
  - intros es' i H. rewrite run_app in H.
    assert (St : jstuck 1 (run jstep jinit [JTrigger; JCas 0; JDrop 0])).
    { split; [reflexivity|]. split; [|reflexivity].
      intros k [E|E]; vm_compute in E; destruct k as [|[|k]]; discriminate. }
    set (st0 := run jstep jinit [JTrigger; JCas 0; JDrop 0]) in *.
    assert (Hp : jstuck 1 (run jstep st0 es') /\ exists l, j_log (run jstep st0 es') = JBegan 0 :: l).
    { apply (run_invariant jstep (fun s => jstuck 1 s /\ exists l, j_log s = JBegan 0 :: l)).
      - intros s e [Hs (l & El)]. split; [now apply jstuck_step|].
        destruct e as [|k|k|k|k]; simpl; [now exists l| | | |];
          destruct (nth_error (j_calls s) k) as [[]|]; try (now exists l);
          try (simpl; rewrite El; simpl; eexists; reflexivity).
        destruct (j_active s); simpl; rewrite El; simpl; eexists; reflexivity.
      - split; auto. vm_compute. eexists; reflexivity. }
    destruct Hp as [(_ & _ & Hn) (l & El)]. rewrite El in *. simpl in Hn.
    destruct H as [H|H]; [congruence|].
    exfalso. injection Hn as Hn. apply length_zero_iff_nil in Hn.
    assert (In (JBegan i) (filter (fun o => match o with JBegan _ => true | _ => false end) l)) by (apply filter_In; auto).
    rewrite Hn in H0. destruct H0.
Qed.

(* three calls: the second comes while the first runs and is skipped, the third
   comes after it and runs *)
Definition ex_jobs := [JTrigger; JCas 0; JTrigger; JCas 1; JComplete 0; JStore 0; JTrigger].
Example ex_c53 : j_log (run jstep jinit (ex_jobs ++ [JCas 2])) = [JBegan 0; JSkipped 1; JEnded 0; JBegan 2].
Proof. reflexivity. Qed.
Example ex_c53_hyp : (forall k, ~ In (JDrop k) ex_jobs) /\ triggered (run jstep jinit ex_jobs) 2 /\
  forall k, ~ in_progress (run jstep jinit ex_jobs) k.
Proof.
  split; [|split].
  - intros k H. vm_compute in H. repeat (destruct H as [H|H]; [discriminate|]). exact H.
  - reflexivity.
  - intros k [H|H]; vm_compute in H; destruct k as [|[|[|[|k]]]]; discriminate.
Qed.

Section C54.
Context {T M : Type}.
Implicit Types es : list (ievent T M).

(* C54.  Without a signal the queue neither retires nor stops. *)
Theorem C54_no_signal_no_stop es : signals es = 0 ->
  let st := run istep iinit es in i_retired st = false /\ i_killed st = false.
Proof.
  intros H st. destruct (iinv_run es) as (_ & _ & _ & Z & _).
  fold st in Z. unfold st in Z. rewrite (signals_run es iinit), H in Z. simpl in Z.
  destruct Z as (_ & _ & ? & ?); auto.
Qed.

(* The queue is retired before it is killed, and the assertion of the loop holds. *)
Theorem C54_retired_first es : let st := run istep iinit es in
  i_panicked st = false /\ (i_killed st = true -> i_retired st = true).
Proof. destruct (iinv_run es) as (P & _ & K & _). auto. Qed.

(* Until it is killed, retired or not, the queue serves every request as it would
   without signals ... *)
Theorem C54_served_until_killed_partial es : i_killed (run istep iinit es) = false ->
  i_runs (run istep iinit es) = run RunModel.step init_state (requests es).
Proof. apply runs_alive. Qed.

(* ... but the first signal alone kills it: the thread that forwards signals ends
   after the first, and the closed channel counts as a second. *)
Theorem C54_killed_on_second_refuted es : signals es = 1 ->
  i_killed (run istep iinit (es ++ [IThread; IThread; IMain; IMain])) = true.
Proof. intros H. apply one_signal_kills. lia. Qed.
End C54.

(* And between retiring and being killed it still accepts new runs. *)
Definition ex_entity : entity := {| en_id := 1; en_tag := TRunner 1 1 |}.
Definition ex_params : find_params :=
  {| fp_run := 5; fp_entity := ex_entity; fp_batch := 1; fp_strategy := ByTest; fp_hash := 0 |}.
Theorem C54_retired_accepts_nothing_new_refuted : exists es : list (ievent nat nat),
  let st := run istep iinit es in
  let st' := run istep st [IQueue (EFind ex_params); IQueue (EFindRemote 0 (@RemoteNotFound nat) 0)] in
  i_retired st = true /\ i_killed st' = false /\ get 5 (s_runs (i_runs st)) = None /\
  s_log (i_runs st') = s_log (i_runs st) ++ [OAssigned ex_params (AssignedRun (Fresh true) false)].
Proof. exists [ISignal; IThread; IMain]. vm_compute. auto. Qed.

Example ex_c54 : let es : list (ievent nat nat) := [IQueue (EFind ex_params); ISignal; IThread; IMain; IQueue (EFindRemote 0 (@RemoteNotFound nat) 0)] in
  signals es = 1 /\ i_retired (run istep iinit es) = true /\ i_killed (run istep iinit es) = false.
Proof. vm_compute. auto. Qed.

Print Assumptions C53_no_overlap.
Print Assumptions C53_trigger_starts_partial.
Print Assumptions C53_skipped_only_while_in_progress_partial.
Print Assumptions C53_trigger_starts_refuted.
Print Assumptions C54_no_signal_no_stop.
Print Assumptions C54_retired_first.
Print Assumptions C54_served_until_killed_partial.
Print Assumptions C54_killed_on_second_refuted.
Print Assumptions C54_retired_accepts_nothing_new_refuted.
