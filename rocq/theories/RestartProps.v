(* Property theorems about queue processes that follow each other on one store (C83). *)
From Verif Require Import Base JobQueueModel WorkerSetModel ManifestViewModel RunModel RunSpec RunAnswers RunParts
  ServerModel ServerSpec ServerProofs ServerLemmas ServerProps RestartModel RestartSpec RestartProofs.
From Verif Require WorkerSetProofs.
From Coq Require Import Permutation.

Section Props.
Context {T M L : Type}.
Implicit Types (st : qstate T M L) (r : run_id) (es : list (qevent T M L)) (os : list (qobs T M L)).

(* A run whose state was stored is over for good: whatever processes come after, with whatever
   disk, and wherever they crash, all that is said about the run is said of an ended run, with
   the exit code, metadata, workers and command that were stored. *)
Theorem C83_ended_run_stays_ended st r p es os o : qreachable st -> state_kept st r p ->
  q_log (run qstep st es) = q_log st ++ os -> In (QRun o) os -> about r o = true -> as_ended (pl_state p) o.
Proof.
  intros HR HK H I A. destruct (known_run es st r (pl_state p) false (qreach_sound _ HR) (state_kept_known _ _ _ HR HK)) as [_ X].
  exact (proj1 (X os H o I A)).
Qed.

(* A worker is told of a fatal error only if the store could not be consulted. *)
Theorem C83_only_an_unreachable_store_is_fatal st es os q :
  q_log (run qstep st es) = q_log st ++ os -> In (QRun (OAssigned q FatalError)) os ->
  exists k now, In (QConsult k false now) es.
Proof. exact (fatal_run es st os q). Qed.

(* Who had a place in the run before its last test was given out is, in every later process,
   told to go on with the tests they had, never that the run is done. *)
Theorem C83_workers_come_back_to_their_run st l1 h1 k r e ts eow p h2 es os q kd d q' a : qreachable st ->
  q_log st = l1 ++ QStarted :: h1 ++ QRun (OWork k r e ts eow (Some p)) :: h2 -> one_life (h1 ++ h2) ->
  In (QRun (OAssigned q (AssignedRun kd d))) h1 -> fp_run q = r ->
  state_kept st r p -> q_log (run qstep st es) = q_log st ++ os ->
  In (QRun (OAssigned q' a)) os -> fp_run q' = r -> en_tag (fp_entity q') = en_tag (fp_entity q) ->
  a = FatalError \/
  a = AssignedRun RetryAndContinue (match sv_hash (pl_state p) with Some h => negb (Nat.eqb h (fp_hash q')) | None => false end).
Proof.
  intros HR H O I Hr HK HL I' Hr' Ht.
  destruct (placed_took_part st l1 h1 k r e ts eow p h2 q kd d HR H O I Hr) as (x & Hx & E).
  assert (A : as_ended (pl_state p) (@OAssigned T M q' a)).
  { eapply C83_ended_run_stays_ended; eauto. unfold about. simpl. rewrite Hr'. apply Nat.eqb_refl. }
  simpl in A. destruct A as [->|[->|[-> A]]]; auto. exfalso. apply (A x Hx). congruence.
Qed.

(* A process that starts when the state of a run is stored answers the first worker that asks
   for the run: one that took part goes on, any other is told that the run is done, and how. *)
Theorem C83_first_answer_after_a_restart st r p same first q now now' : qreachable st -> state_kept st r p ->
  fp_run q = r -> fp_batch q <> 0 ->
  exists a, q_log (run qstep st [QRestart same first; QServer (SCore (EFind q)); QConsult 0 true now; QServer (SCore (EFindLookup 0 now'))]) =
            q_log st ++ [QStarted; QRun (OAssigned q a)] /\
    (took_part p (en_tag (fp_entity q)) ->
       a = AssignedRun RetryAndContinue (match sv_hash (pl_state p) with Some h => negb (Nat.eqb h (fp_hash q)) | None => false end)) /\
    (~ took_part p (en_tag (fp_entity q)) -> a = AlreadyDone (sv_exit (pl_state p))).
Proof.
  intros HR HK Hr Hb. destruct (state_kept_known _ _ _ HR HK) as (K & _ & _).
  destruct q as [fr fe [|fb] fs fh]; simpl in Hr, Hb; [congruence|]. subst fr. set (s := pl_state p) in *.
  eexists. split; [|split].
  - cbn. unfold consult. cbn. rewrite K. cbn. rewrite !Nat.eqb_refl. cbn. rewrite !app_nil_r, <- app_assoc. reflexivity.
  - intros (x & Hx & E). rewrite (proj2 (WorkerSetProofs.contains_tags _ _)); [reflexivity|].
    rewrite in_tags_from_iter, map_map. simpl in *. rewrite <- E. now apply (in_map en_tag).
  - intros N. destruct (contains_by_tag _ _) eqn:E; [|reflexivity]. exfalso. apply N.
    apply WorkerSetProofs.contains_tags in E. rewrite in_tags_from_iter, map_map in E. simpl in E.
    apply in_map_iff in E as (x & E & Hx). exists x. auto.
Qed.

(* If its state was never stored, the run starts over in a new process: the first worker that
   asks for it is to generate a manifest. *)
Theorem C83_not_stored_starts_over st r same first q now : qreachable st -> (forall p, ~ state_kept st r p) ->
  fp_run q = r -> fp_batch q <> 0 ->
  q_log (run qstep st [QRestart same first; QServer (SCore (EFind q)); QConsult 0 true now]) =
  q_log st ++ [QStarted; QRun (OAssigned q (AssignedRun (Fresh true) false))].
Proof.
  intros HR N Hr Hb.
  assert (K : q_states st r = None).
  { destruct (q_states st r) as [s|] eqn:E; auto. exfalso. destruct (state_was_kept _ _ _ HR E) as (p & Hp & _). eapply N; eauto. }
  destruct q as [fr fe [|fb] fs fh]; simpl in Hr, Hb; [congruence|]. subst fr.
  cbn. unfold consult. cbn. rewrite K. cbn. rewrite ?app_nil_r, <- app_assoc. reflexivity.
Qed.

(* If a process stored both the state and the manifest of a run, a worker that asks for the
   tests it had is told, by that process from then on and by all later ones, to have them
   loaded; it is then given exactly what it was sent, or was about to be sent, while that
   process ran, unless loading fails.  Missing: the case in which only the state was stored
   (refuted below). *)
Theorem C83_tests_are_given_back_partial st l1 life r p es os e a : qreachable st ->
  q_log st = l1 ++ QStarted :: life -> one_life life ->
  In (QStateKept r p true) life -> In (QManifestKept r p true) life ->
  q_log (run qstep st es) = q_log st ++ os -> In (QManifest r e a) os -> en_tag e <> TExternalClient ->
  (exists work, a = LTests work /\
     forall x, In x work <->
       (exists k' e' ts' eow' p', In (QRun (OWork k' r e' ts' eow' p')) life /\ en_tag e' = en_tag e /\ In x ts') \/
       (exists k' e' j ts', nth_error (s_reqs (sv_core (q_server st))) k' = Some (QNext r e' (NEnd j ts')) /\
                            en_tag e' = en_tag e /\ In x ts')) \/
  (a = LFailed /\ exists i o, In (QLoad i o) es /\ o <> FOk).
Proof.
  intros HR H O I1 I2 HL I NE. assert (S := qreach_sound _ HR).
  assert (HK : kept st r p).
  { exists (l1 ++ [QStarted]), life, []. rewrite app_nil_r, <- app_assoc. auto. }
  destruct (kept_mknown _ _ _ HR HK) as [K MK].
  destruct (mknown_run es st r _ _ _ S K MK os HL e a I) as [->|X]; [|auto]. left.
  destruct (kept_has_plan st l1 life r p HR H O) as (k & e0 & ts & eow & W); [exists true; auto|].
  assert (E := current_log st l1 life HR H O).
  assert (Wh : In (OWork k r e0 ts eow (Some p)) (history (sv_core (q_server st)) r)).
  { apply in_hist; [|reflexivity]. rewrite E. now apply in_runs_seen. }
  destruct (persisted_partition _ _ _ _ _ _ _ (en_tag e) (so_core _ S) Wh NE) as (work & Hw & Hx).
  exists work. split; [unfold part; now rewrite Hw|]. intros x. rewrite Hx, E.
  split; (intros [(k' & e' & ts' & eow' & p' & A & B)|A]; [left; exists k', e', ts', eow', p'; split; auto; now apply in_runs_seen|right; exact A]).
Qed.

(* Each worker that is told to have its tests loaded is answered once, for its run, or still
   waits; who waits is answered when the load ends, however it does. *)
Theorem C83_awaited_loads_are_answered_once st l1 life : qreachable st -> q_log st = l1 ++ QStarted :: life -> one_life life ->
  Permutation (to_be_loaded life) (answered life ++ q_loads st).
Proof. exact (loads_log st l1 life). Qed.
Theorem C83_awaited_load_is_answered st i r e o : nth_error (q_loads st) i = Some (r, e) ->
  exists a, q_log (qstep st (QLoad i o)) = q_log st ++ [QManifest r e a] /\ q_loads (qstep st (QLoad i o)) = remove_at i (q_loads st).
Proof.
  intros H. cbn [qstep]. rewrite H. destruct (q_disk st r); [|destruct (q_manifests st r), o]; eexists; split; reflexivity.
Qed.

(* It is never told to wait. *)
Theorem C83_stored_tests_are_at_hand_partial st r p es os e a : qreachable st -> kept st r p ->
  q_log (run qstep st es) = q_log st ++ os -> In (QRun (ORetry r e a)) os ->
  a = RFetchFromPersistence \/ a = RRunDoesNotExist.
Proof.
  intros HR HK HL I. destruct (kept_mknown _ _ _ HR HK) as [K _].
  destruct (known_run es st r _ _ (qreach_sound _ HR) K) as [_ X].
  destruct (X os HL _ I) as [A B]; [unfold about; simpl; apply Nat.eqb_refl|]. simpl in A, B.
  destruct A as [->|[->| ->]]; auto. exfalso. now apply B.
Qed.

(* What the store has of the results of a run is the first part of all that is streamed for the
   run later, by the same process or another, as long as no process fails to load it. *)
Theorem C83_stored_results_are_streamed r es1 es2 ls os k a :
  let st := run qstep (@qinit T M L) es1 in
  Forall (loads_well r) (es1 ++ es2) -> sv_remote (q_server st) r = Some ls ->
  q_log (run qstep st es2) = q_log st ++ os -> In (QRes (SAnswer k r (AStream a))) os -> exists more, a = ls ++ more.
Proof.
  intros st W H HL I. apply Forall_app in W as [W1 W2].
  destruct (backed_run es1 qinit r W1) as [B _]; [intros ? X; discriminate|].
  destruct (backed_run es2 st r W2 B) as [_ A]. destruct (A ls H) as [_ A']. eapply A'; eauto.
Qed.

(* So a process that ends with nothing left to write leaves every acknowledged batch to later
   ones, if the last of its writes was taken when the tests were exhausted (see C17 for when it
   is not).  Missing: a process that ends earlier (refuted below). *)
Theorem C83_acknowledged_results_survive_partial r es1 es2 l k0 os k a :
  let st := run qstep (@qinit T M L) es1 in
  let s := q_server st in
  Forall (loads_well r) (es1 ++ es2) ->
  small s -> quiet s r -> finish_order s r = l ++ [k0] -> taken_at_end s k0 -> ~ In (SStoreFailed k0) (sv_log s) ->
  q_log (run qstep st es2) = q_log st ++ os -> In (QRes (SAnswer k r (AStream a))) os ->
  exists rest, Permutation a (acked_lines (sv_log s) r (sv_log s) ++ rest).
Proof.
  intros st s W HS HQ HO HT HF HL I.
  destruct (so_server st) as (f & g & es & E); [apply qreach_sound; eexists; reflexivity|]. change (q_server st) with s in E.
  destruct (C17_remote_is_complete_partial f g es r l k0) as [HR [rest HP]]; try (rewrite <- E; assumption).
  rewrite <- E in HR, HP.
  destruct (C83_stored_results_are_streamed r es1 es2 (sv_file s r) os k a W HR HL I) as [more ->].
  exists (f r ++ rest ++ more). set (x := acked_lines _ _ _) in *.
  rewrite HP, <- !app_assoc. apply Permutation_app_swap_app.
Qed.
End Props.

(* ---- concrete histories ---- *)
Section Examples.
Let w1 : entity := {| en_id := 1; en_tag := TRunner 0 1 |}.
Let w2 : entity := {| en_id := 2; en_tag := TRunner 1 1 |}.
Let for_run (e : entity) : find_params := {| fp_run := 0; fp_entity := e; fp_batch := 1; fp_strategy := ByTest; fp_hash := 0 |}.
Let sv (es : list (sevent nat unit nat)) : list (qevent nat unit nat) := map QServer es.
Let ask e k := sv (SCore (ENext 0 e) :: repeat (SCore (EQueueStep k)) 6 ++ [SCore (ENextFinish k); SCore (ENextFinish k)]).
Let writes k n := sv (repeat (SWrite k true) n).
Let restart : qevent nat unit nat := QRestart true (fun _ => None).       (* on the same disk *)
Let elsewhere : qevent nat unit nat := QRestart false (fun _ => None).    (* on another one *)

(* Worker w1 has the run of tests 7 and 8, and the result of 7 (line 7, after the summary, line
   100) is written; it is given the last test. *)
Let opening : list (qevent nat unit nat) :=
  sv [SCore (EFind (for_run w1))] ++ [QConsult 0 true 0] ++ sv [SManifest 0 [(7, 0); (8, 1)] tt 100] ++
  writes 0 4 ++ ask w1 1 ++ sv [SResults 0 w1 7] ++ writes 1 4 ++ ask w1 2.
Let store : list (qevent nat unit nat) := [QAnswered 0 true; QStore 0 true].
Let closing : list (qevent nat unit nat) :=
  sv [SResults 0 w1 8] ++ writes 2 5 ++ sv [SCore (EWorkerComplete 0 w1 5)].
Let again e : list (qevent nat unit nat) :=
  sv [SCore (EFind (for_run e))] ++ [QConsult 0 true 9] ++ sv [SCore (EFindLookup 0 9)].
Let fetched : list (qevent nat unit nat) := sv [SFetch 0; SRead 0 true; SRead 0 true].
Let test n : worker_test nat := {| wt_spec := n; wt_run_number := INIT_RUN_NUMBER |}.
Let the_plan : plan nat unit :=
  {| pl_view := ([test 7; test 8], [TRunner 0 1; TRunner 0 1]);
     pl_state := {| sv_exit := 0; sv_meta := Some tt; sv_seen := [w1]; sv_hash := Some 0 |} |}.
Let after (es : list (qevent nat unit nat)) := run qstep qinit es.

(* The hypotheses of the theorems above are met, and what they say happens: w1 is given its two
   tests by a process on another disk, w2 is told that the run is done. *)
Example C83_example : let st := after (opening ++ store ++ [QDump 0 DOk] ++ closing) in
  (exists l1 life, q_log st = l1 ++ QStarted :: life /\ one_life life /\
     In (QStateKept 0 the_plan true) life /\ In (QManifestKept 0 the_plan true) life /\
     In (QRun (OAssigned (for_run w1) (AssignedRun (Fresh true) false))) life) /\
  state_kept st 0 the_plan /\ kept st 0 the_plan /\
  q_log (run qstep st ([elsewhere] ++ again w1 ++ sv [SCore (ERetryManifest 0 w1)] ++ [QLoad 0 FOk])) =
    q_log st ++ [QStarted; QRun (OAssigned (for_run w1) (AssignedRun RetryAndContinue false));
                 QRun (ORetry 0 w1 RFetchFromPersistence); QManifest 0 w1 (LTests [test 7; test 8])] /\
  q_log (run qstep st ([elsewhere] ++ again w2 ++ fetched)) =
    q_log st ++ [QStarted; QRun (OAssigned (for_run w2) (AlreadyDone 0)); QRes (SAsked 0 0); QRes (SAnswer 0 0 (AStream [100; 7; 8]))].
Proof.
  set (st := after _). vm_compute in st. subst st. intros st.
  assert (X : exists life, q_log st = [] ++ QStarted :: life /\ one_life life /\
     In (QStateKept 0 the_plan true) life /\ In (QManifestKept 0 the_plan true) life /\
     In (QRun (OAssigned (for_run w1) (AssignedRun (Fresh true) false))) life).
  { eexists. split; [reflexivity|]. split; [intros H; repeat destruct H as [H|H]; try discriminate; destruct H|].
    split; [|split]; repeat (try (left; reflexivity); right). }
  split; [exists []; exact X|]. destruct X as (life & H & O & I1 & I2 & _).
  split; [unfold state_kept; rewrite H; right; exact I1|].
  split; [exists [QStarted], life, []; rewrite app_nil_r; auto|]. split; reflexivity.
Qed.

Example C83_results_example : let st := after (opening ++ store ++ closing) in let s := q_server st in
  Forall (loads_well 0) ((opening ++ store ++ closing) ++ [elsewhere] ++ again w2 ++ fetched) /\
  small s /\ quiet s 0 /\ finish_order s 0 = [0; 1] ++ [2] /\ taken_at_end s 2 /\ ~ In (SStoreFailed 2) (sv_log s) /\
  acked_lines (sv_log s) 0 (sv_log s) = [7; 8].
Proof.
  intros st s. split; [repeat constructor|]. subst s. vm_compute in st. subst st.
  split; [vm_compute; reflexivity|]. split; [|split; [reflexivity|split; [|split; [|reflexivity]]]].
  - intros w H _. vm_compute in H. repeat destruct H as [<-|H]; try (eexists; reflexivity). destruct H.
  - eexists; split; reflexivity.
  - vm_compute. intuition discriminate.
Qed.

(* A run that was cancelled is one whose state is never stored: it starts over. *)
Example C83_cancelled_run_starts_over :
  let st := after (sv [SCore (EFind (for_run w1))] ++ [QConsult 0 true 0] ++ sv [SCore (ECancel 0 w1)]) in
  (exists o, In (QRun o) (q_log st) /\ o = OCancel 0 w1) /\ (forall p, ~ state_kept st 0 p) /\
  q_log (run qstep st (restart :: again w1)) =
    q_log st ++ [QStarted; QRun (OAssigned (for_run w1) (AssignedRun (Fresh true) false))].
Proof.
  set (st := after _). vm_compute in st. subst st. intros st. split; [|split; [|reflexivity]].
  - eexists. split; [|reflexivity]. repeat (try (left; reflexivity); right).
  - intros p H. repeat destruct H as [H|H]; try discriminate; destruct H.
Qed.

(* The state of the run is stored, but the process ends before the manifest is: the worker that
   comes back is told to have its tests loaded, and cannot have them, although nothing failed. *)
Theorem C83_tests_are_given_back_refuted : exists es1 es2 p,
  let st := after es1 in
  state_kept st 0 p /\ In (QRun (OWork 2 0 w1 [test 8] true (Some p))) (q_log st) /\
  q_log (run qstep st es2) = q_log st ++ [QStarted; QRun (OAssigned (for_run w1) (AssignedRun RetryAndContinue false));
     QRun (ORetry 0 w1 RFetchFromPersistence); QManifest 0 w1 LFailed] /\
  (forall i o, In (QLoad i o) es2 -> o = FOk).
Proof.
  exists (opening ++ store), ([restart] ++ again w1 ++ sv [SCore (ERetryManifest 0 w1)] ++ [QLoad 0 FOk]), the_plan.
  set (st := after _). vm_compute in st. subst st. intros st.
  split; [repeat (try (left; reflexivity); right)|]. split; [repeat (try (left; reflexivity); right)|].
  split; [reflexivity|]. intros i o H. repeat destruct H as [H|H]; try discriminate; [congruence|destruct H].
Qed.

(* The manifest is stored, but the process ends before the state is; in the next process the run
   starts over with another test, 9, and its state is stored, but its manifest cannot be.  A
   third process, on another disk, gives the worker the tests of the first run. *)
Theorem C83_stored_manifest_of_another_life_refuted : exists es1 es2 es3 p,
  let st := after (es1 ++ es2) in
  state_kept st 0 p /\
  (forall k e ts eow q, In (QRun (OWork k 0 e ts eow q)) (skipn (length (q_log (after es1))) (q_log st)) -> ts = [test 9]) /\
  q_log (run qstep st es3) = q_log st ++ [QStarted; QRun (OAssigned (for_run w1) (AssignedRun RetryAndContinue false));
     QRun (ORetry 0 w1 RFetchFromPersistence); QManifest 0 w1 (LTests [test 7; test 8])].
Proof.
  exists (opening ++ [QAnswered 0 true; QDump 0 DOk; elsewhere]),
    (sv [SCore (EFind (for_run w1))] ++ [QConsult 0 true 0] ++ sv [SManifest 0 [(9, 0)] tt 100] ++ ask w1 1 ++
      [QAnswered 0 true; QStore 0 true; QDump 0 DNotStored]),
    ([elsewhere] ++ again w1 ++ sv [SCore (ERetryManifest 0 w1)] ++ [QLoad 0 FOk]).
  exists {| pl_view := ([test 9], [TRunner 0 1]); pl_state := pl_state the_plan |}.
  set (a1 := after _). vm_compute in a1. set (st := after _). vm_compute in st. subst st a1. intros st.
  split; [repeat (try (left; reflexivity); right)|]. split; [|reflexivity].
  intros k e ts eow q H. vm_compute in H. repeat destruct H as [H|H]; try discriminate; [injection H; intros; subst; reflexivity|destruct H].
Qed.

(* A batch is acknowledged before it is written: if the process ends in between, a later one
   streams results without it, as those of a run that is done. *)
Theorem C83_acknowledged_results_survive_refuted : exists es1 es2 k,
  let st := after es1 in
  In (QRes (SAck (Some k) 0 w1 8)) (q_log st) /\ state_kept st 0 the_plan /\ Forall (loads_well 0) (es1 ++ es2) /\
  q_log (run qstep st es2) = q_log st ++ [QStarted; QRun (OAssigned (for_run w2) (AlreadyDone 0));
     QRes (SAsked 0 0); QRes (SAnswer 0 0 (AStream [100; 7]))].
Proof.
  exists (opening ++ store ++ [QDump 0 DOk] ++ sv [SResults 0 w1 8] ++ writes 2 2), (restart :: again w2 ++ fetched), 2.
  set (st := after _). vm_compute in st. subst st. intros st.
  split; [repeat (try (left; reflexivity); right)|]. split; [repeat (try (left; reflexivity); right)|].
  split; [repeat constructor|reflexivity].
Qed.

Let before : list (qevent nat unit nat) := opening.
Let anew : list (qevent nat unit nat) :=
  [restart] ++ sv [SCore (EFind (for_run w1))] ++ [QConsult 0 true 0] ++ sv [SManifest 0 [(9, 0)] tt 101] ++ writes 0 4 ++
  ask w1 1 ++ sv [SResults 0 w1 9] ++ writes 1 5 ++ sv [SCore (EWorkerComplete 0 w1 0)] ++ fetched.
Example C83_before_is_not_stored : forall p, ~ state_kept (after before) 0 p.
Proof.
  let v := eval vm_compute in (q_log (after before)) in assert (E : q_log (after before) = v) by (vm_cast_no_check (eq_refl v)).
  intros p H. apply state_kept_in in H. rewrite E in H. clear E. repeat destruct H as [H|H]; try discriminate; destruct H.
Qed.
Example C83_anew_reports : exists os, q_log (after (before ++ anew)) = q_log (after before) ++ os /\
  (forall k line, In (QRes (SSent k 0 line)) os -> line = 101 \/ line = 9) /\
  In (QRes (SAnswer 0 0 (AStream [100; 7; 101; 9]))) os.
Proof.
  let v := eval vm_compute in (skipn (length (q_log (after before))) (q_log (after (before ++ anew)))) in exists v.
  split; [vm_compute; reflexivity|]. split; [|repeat (try (left; reflexivity); right)].
  intros k line H. repeat destruct H as [H|H]; try discriminate; try (injection H; intros; subst; auto); destruct H.
Qed.
(* A run that starts over in a process on the same disk reports the results of before it too:
   here those of test 7, which is not in it. *)
Theorem C83_started_over_run_reports_only_its_own_refuted : exists es1 es2,
  (forall p, ~ state_kept (after es1) 0 p) /\ Forall (loads_well 0) (es1 ++ es2) /\
  exists os, q_log (after (es1 ++ es2)) = q_log (after es1) ++ os /\
  (forall k line, In (QRes (SSent k 0 line)) os -> line = 101 \/ line = 9) /\
  In (QRes (SAnswer 0 0 (AStream [100; 7; 101; 9]))) os.
Proof.
  exists before, anew. split; [exact C83_before_is_not_stored|]. split; [repeat constructor|exact C83_anew_reports].
Qed.
End Examples.

Print Assumptions C83_ended_run_stays_ended.
Print Assumptions C83_only_an_unreachable_store_is_fatal.
Print Assumptions C83_workers_come_back_to_their_run.
Print Assumptions C83_first_answer_after_a_restart.
Print Assumptions C83_not_stored_starts_over.
Print Assumptions C83_tests_are_given_back_partial.
Print Assumptions C83_awaited_loads_are_answered_once.
Print Assumptions C83_awaited_load_is_answered.
Print Assumptions C83_stored_tests_are_at_hand_partial.
Print Assumptions C83_stored_results_are_streamed.
Print Assumptions C83_acknowledged_results_survive_partial.
Print Assumptions C83_tests_are_given_back_refuted.
Print Assumptions C83_stored_manifest_of_another_life_refuted.
Print Assumptions C83_acknowledged_results_survive_refuted.
Print Assumptions C83_started_over_run_reports_only_its_own_refuted.
