(* Whom a request for results waits for (C12), by what was said in the run. *)
From Verif Require Import Base JobQueueModel WorkerSetModel RunModel RunSpec RunLemmas ServerModel ServerSpec ServerLemmas ActiveSpec ActiveProofs.

Section Props.
Context {T M L : Type}.
Implicit Types (es : list (sevent T M L)) (r : run_id) (t : tag).
Context (f : run_id -> list L) (g : run_id -> option (list L)).   (* what the stores held before *)
Let after es : sstate T M L := run sstep (sinit f g) es.
Let said es r : list (obs T M) := history (sv_core (after es)) r.

Lemma core_reachable es : reachable (sv_core (after es)).
Proof.
  unfold after. induction es as [|ev es IH] using rev_ind; [exact reachable_init|].
  rewrite run_app. cbn [run fold_left]. set (st := run sstep (sinit f g) es) in *.
  destruct ev as [ev|r flat meta summary|r e line|k ok|r|k ok].
  - destruct ev; try exact IH; apply (reachable_step _ _ IH).
  - cbn [sstep]. destruct (manifest_accepted (sv_core st) r); apply (reachable_step _ _ IH).
  - cbn [sstep]. destruct (write_cell (sv_core st) r); exact IH.
  - cbn [sstep]. destruct (nth_error (sv_writes st) k) as [w|]; [|exact IH]. unfold write_step.
    destruct (w_pc w), ok; exact IH.
  - cbn [sstep]. unfold fetch. destruct (read_cell (sv_core st) r); exact IH.
  - cbn [sstep]. destruct (nth_error (sv_reads st) k) as [rd|]; [|exact IH]. unfold read_step.
    destruct (rd_pc rd), ok; try destruct (Z.eqb _ _); exact IH.
Qed.

Lemma answer_cell (st : sstate T M L) r : answer_to_fetch st r =
  match read_cell (sv_core st) r with RSError => Some AError | RSInProgress a => Some (AInProgress a) | RSCell => None end.
Proof.
  unfold answer_to_fetch. cbn [sstep]. unfold fetch.
  assert (X : forall (l x : list (sobs L)) o, skipn (S (length l)) (l ++ o :: x) = x) by (induction l; cbn; auto).
  destruct (read_cell (sv_core st) r); cbn [set_reads smk sv_log]; rewrite X; reflexivity.
Qed.

Lemma cell_counted (st : RunModel.state T M) r : match read_cell st r with
  | RSError => phase_of st r <> Some PhOpen /\ phase_of st r <> Some PhOver
  | RSInProgress a => a = counted_active st r
  | RSCell => counted_active st r = [] end.
Proof.
  unfold read_cell, counted_active, phase_of. destruct (get r (s_runs st)) as [[]|]; cbn; try (split; discriminate).
  destruct (map _ _); reflexivity.
Qed.

(* A worker that said it is done, or that it is cancelled, and has not come back since, is not among those that a request
   for results is told to wait for. *)
Theorem C12_worker_that_left_does_not_hold_up es r t ts : gone t (said es r) = true ->
  answer_to_fetch (after es) r = Some (AInProgress ts) -> ~ In t ts.
Proof.
  intros G. rewrite answer_cell. assert (C := cell_counted (sv_core (after es)) r).
  destruct (read_cell (sv_core (after es)) r) as [|a|]; try discriminate. intros E. injection E as <-. subst a.
  apply gone_not_counted; [apply core_reachable|exact G].
Qed.

(* A request for the results of a run that is not cancelled is told to wait for every worker at work. *)
Theorem C12_worker_at_work_is_waited_for es r t : at_work t (said es r) = true -> phase_of (sv_core (after es)) r <> Some PhCancelled ->
  exists ts, answer_to_fetch (after es) r = Some (AInProgress ts) /\ In t ts.
Proof.
  intros A P. assert (I := at_work_counted _ r t (core_reachable es) A P). rewrite answer_cell.
  assert (C := cell_counted (sv_core (after es)) r). destruct (read_cell (sv_core (after es)) r) as [|a|].
  - unfold counted_active in I. unfold phase_of in C. destruct (get r (s_runs (sv_core (after es)))) as [[]|]; cbn in C; destruct C; try easy.
  - subst a. eauto.
  - rewrite C in I. destruct I.
Qed.

(* When results were streamed, nobody was at work when they were asked for. *)
Theorem C12_stream_only_when_nobody_is_at_work es k r ls : In (SAnswer k r (AStream ls)) (sv_log (after es)) ->
  exists es1 es2, es = es1 ++ SFetch r :: es2 /\ k = length (sv_reads (after es1)) /\ forall t, at_work t (said es1 r) = false.
Proof.
  intros H. destruct (stream_trace f g es k r ls H) as (es1 & es2 & ok & es3 & es4 & E & Hk & HF & _).
  exists es1, (es2 ++ SRead k ok :: es3 ++ SRead k true :: es4). split; [exact E|]. split; [exact Hk|].
  intros t. destruct (at_work t (said es1 r)) eqn:A; [|reflexivity]. exfalso.
  destruct HF as (s & G & S0). assert (P : phase_of (sv_core (after es1)) r <> Some PhCancelled).
  { unfold phase_of, after. rewrite G. destruct s; cbn in *; congruence. }
  assert (I := at_work_counted _ r t (core_reachable es1) A P). unfold counted_active, after in I. rewrite G in I.
  destruct s; cbn in S0; try discriminate. injection S0 as S0. apply length_zero_iff_nil in S0. rewrite S0 in I. destruct I.
Qed.

(* Once all tests of a run are handed out and everyone that ever spoke in it has left, its results are there to be read. *)
Theorem C12_results_once_everyone_left es r : phase_of (sv_core (after es)) r = Some PhOver ->
  (forall t, spoke t (said es r) -> gone t (said es r) = true) -> finished_and_idle (sv_core (after es)) r.
Proof.
  intros P G. assert (C := all_gone_idle _ r (core_reachable es) P G). unfold finished_and_idle. unfold phase_of in P. unfold counted_active in C.
  destruct (get r (s_runs (sv_core (after es)))) as [[]|]; cbn in P; try discriminate. eexists. split; [reflexivity|].
  cbn. apply map_eq_nil in C. now rewrite C.
Qed.
End Props.

Section Examples.
Let e : entity := {| en_id := 1; en_tag := TRunner 0 1 |}.
Let e2 : entity := {| en_id := 2; en_tag := TRunner 1 1 |}.
Let p : find_params := {| fp_run := 0; fp_entity := e; fp_batch := 1; fp_strategy := ByTest; fp_hash := 0 |}.
Let p2 : find_params := {| fp_run := 0; fp_entity := e2; fp_batch := 1; fp_strategy := ByTest; fp_hash := 0 |}.
Let none : run_id -> list nat := fun _ => [].
Let noremote : run_id -> option (list nat) := fun _ => None.
Let ask k : list (sevent nat unit nat) :=
  SCore (ENext 0 e) :: repeat (SCore (EQueueStep k)) 6 ++ [SCore (ENextFinish k); SCore (ENextFinish k)].
(* Two workers; the first takes both tests and says it is done, the second is cancelled after the end. *)
Let two : list (sevent nat unit nat) :=
  [SCore (EFind p); SCore (EFindRemote 0 RemoteNotFound 0); SManifest 0 [(7, 0); (8, 1)] tt 100;
   SCore (EFind p2); SCore (EFindLookup 1 0)] ++ ask 2 ++ ask 3 ++ [SCore (EWorkerComplete 0 e 5)].
Let more : list (sevent nat unit nat) := two ++ [SCore (ECancel 0 e2)].

Example C12_active_example : let st := run sstep (sinit none noremote) two in
  gone (TRunner 0 1) (history (sv_core st) 0) = true /\ at_work (TRunner 1 1) (history (sv_core st) 0) = true /\
  answer_to_fetch st 0 = Some (AInProgress [TRunner 1 1]) /\ phase_of (sv_core st) 0 = Some PhOver.
Proof. vm_compute. repeat split. Qed.
Example C12_everyone_left_example : let st := run sstep (sinit none noremote) more in
  phase_of (sv_core st) 0 = Some PhOver /\ (forall t, spoke t (history (sv_core st) 0) -> gone t (history (sv_core st) 0) = true) /\
  In (SAnswer 0 0 (AStream [100])) (sv_log (run sstep st (repeat (SWrite 0 true) 4 ++ [SFetch 0; SRead 0 true; SRead 0 true]))).
Proof.
  split; [vm_compute; reflexivity|]. split.
  - intros t (o & en & I & E & <-). vm_compute in I. repeat destruct I as [<-|I]; cbn in E; try discriminate; try (injection E as <-; vm_compute; reflexivity). destruct I.
  - vm_compute. auto 20.
Qed.
End Examples.

Print Assumptions C12_worker_that_left_does_not_hold_up.
Print Assumptions C12_worker_at_work_is_waited_for.
Print Assumptions C12_stream_only_when_nobody_is_at_work.
Print Assumptions C12_results_once_everyone_left.
