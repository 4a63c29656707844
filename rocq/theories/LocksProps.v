(* Property theorems about the locks of a queue (C81). *)
From Verif Require Import Base LocksModel LocksSpec LocksProofs.
From Coq Require Import Lia.

(* Whatever requests there are and in whatever order they go on: who has a lock exclusively is the only one who has it. *)
Theorem C81_exclusive_is_alone pool pass stalled progs sched i j t t' l m :
  let st := take_turns pool pass stalled (start progs) sched in
  nth_error (threads st) i = Some t -> nth_error (threads st) j = Some t' -> In (l, Exclusive) (held t) -> In (l, m) (held t') -> i = j.
Proof.
  intros st Ei Ej Hi Hj. destruct (Nat.eq_dec i j) as [E|N]; [exact E|exfalso].
  assert (X : excl st) by (apply turns_inv; [intros; eapply excl_step; eauto|apply excl_start]).
  assert (M : forall u m, In (l, m) (held u) -> In m (mine l u)).
  { intros u m0 H. unfold mine. apply in_map_iff. exists (l, m0). split; [reflexivity|]. apply filter_In. split; [exact H|apply lock_eqb_refl]. }
  apply M in Hi, Hj. specialize (X l). destruct (split_at _ _ _ Ei) as (a & b & T & La & _). destruct st as [ths q]. cbn [threads] in *. subst ths.
  rewrite holders_split in X. rewrite nth_mid in Ej. rewrite La in Ej. apply not_eq_sym, Nat.eqb_neq in N. rewrite N in Ej. apply nth_error_In in Ej.
  assert (Y : In m (flat_map (mine l) a ++ flat_map (mine l) b)).
  { rewrite <- flat_map_app. apply in_flat_map. eauto. }
  assert (Z : flat_map (mine l) a ++ mine l t ++ flat_map (mine l) b = [Exclusive]) by (apply X; rewrite !in_app_iff; auto).
  apply (f_equal (@length _)) in Z. rewrite !app_length in Z. change (length [Exclusive]) with 1 in Z.
  assert (L1 : length (mine l t) <> 0) by (destruct (mine l t); [destruct Hi|discriminate]).
  assert (L2 : length (flat_map (mine l) a ++ flat_map (mine l) b) <> 0) by (destruct (flat_map (mine l) a ++ flat_map (mine l) b); [destruct Y|discriminate]).
  rewrite app_length in L2. lia.
Qed.

Lemma reached pool pass stalled progs sched : Forall request progs ->
  let st := take_turns pool pass stalled (start progs) sched in
  inv st /\ length (threads st) = length progs /\ rest_of progs st /\ total st <= turns progs.
Proof.
  intros R st. split; [apply turns_inv; [intros; eapply inv_step; eauto|apply inv_start, R]|].
  split; [apply turns_inv; [intros; eapply len_step; eauto|apply map_length]|].
  split; [apply turns_inv; [intros; eapply rest_step; eauto|apply rest_start]|]. apply total_turns, total_start.
Qed.
Lemma reached_schedule pool pass stalled pick progs n st : inv st /\ length (threads st) = length progs /\ rest_of progs st ->
  let st' := schedule pool pass stalled pick n st in inv st' /\ length (threads st') = length progs /\ rest_of progs st'.
Proof.
  intros (A & B & C) st'. split; [apply schedule_inv; [intros; eapply inv_step; eauto|exact A]|].
  split; [apply schedule_inv; [intros; eapply len_step; eauto|exact B]|]. apply schedule_inv; [intros; eapply rest_step; eauto|exact C].
Qed.

(* As long as there are no more requests at once than threads in the pool: if clients and the remote store answer, the requests do
   not wait for each other for ever. *)
Theorem C81_no_deadlock_partial pool pass progs sched : Forall request progs -> length progs <= pool ->
  let st := take_turns pool pass nobody (start progs) sched in
  stuck pool pass nobody st -> all_finished st /\ forall l, holders st l = [].
Proof.
  intros R Le st S'. destruct (reached pool pass nobody progs sched R) as (I & L & _ & _). fold st in I, L.
  assert (F : forall i t, nth_error (threads st) i = Some t -> t = {| todo := []; held := [] |}).
  { intros i t E. destruct (stuck_at pool pass nobody st I ltac:(lia) S' i t E) as [X|[(X & _)|(l & m & ops & T & _ & _)]]; [exact X|discriminate|exfalso].
    destruct t as [td h]. cbn in T. subst td.
    destruct (blamed pool pass nobody st I ltac:(lia) S' _ i l (Nat.le_refl _)) as (_ & k & t & l' & m' & _ & X & _); [|discriminate].
    exists m, ops, h. exact E. }
  split.
  - intros i Li. apply nth_error_Some in Li. destruct (nth_error (threads st) i) as [t|] eqn:E; [|congruence]. rewrite (F i t E) in E. exists []. exact E.
  - intro l. unfold holders. destruct (flat_map _ (threads st)) as [|x r] eqn:E; [reflexivity|exfalso].
    assert (X : In x (x :: r)) by (left; reflexivity). rewrite <- E in X. apply in_flat_map in X. destruct X as (t & T & X). apply In_nth_error in T.
    destruct T as (i & T). rewrite (F i t T) in X. destruct X.
Qed.

(* And each of them comes to its end, in a number of turns known before, with any scheduler that lets someone go on who can. *)
Theorem C81_all_finish_partial pool pass progs sched pick : Forall request progs -> length progs <= pool -> willing pool pass nobody pick ->
  all_finished (schedule pool pass nobody pick (turns progs) (take_turns pool pass nobody (start progs) sched)).
Proof.
  intros R Le W. destruct (reached pool pass nobody progs sched R) as (I & L & C & T).
  destruct (reached_schedule pool pass nobody pick progs (turns progs) _ (conj I (conj L C))) as (I' & L' & C').
  pose proof (schedule_stuck pool pass nobody pick W (turns progs) _ T) as S'.
  set (st := schedule _ _ _ _ _ _) in *. intros i Li. apply nth_error_Some in Li. destruct (nth_error (threads st) i) as [t|] eqn:E; [|congruence].
  destruct (stuck_at pool pass nobody st I' ltac:(lia) S' i t E) as [->|[(X & _)|(l & m & ops & Tt & _ & _)]]; [exists []; exact E|discriminate|exfalso].
  destruct t as [td h]. cbn in Tt. subst td.
  destruct (blamed pool pass nobody st I' ltac:(lia) S' _ i l (Nat.le_refl _)) as (_ & k & t & l' & m' & _ & X & _); [|discriminate].
  exists m, ops, h. exact E.
Qed.

(* If some clients do not read or write, or the remote store does not answer some requests: the others come to their end, or wait for
   a file that such a request has, and for the manifest file of a run only behind one that has the same file.  Missing: they wait for
   the results of other runs too, see below. *)
Theorem C81_silent_peers_partial pool pass stalled progs sched pick : Forall request progs -> length progs <= pool -> willing pool pass stalled pick ->
  let st := schedule pool pass stalled pick (turns progs) (take_turns pool pass stalled (start progs) sched) in
  forall i, i < length progs ->
    finished st i \/ (stalled i = true /\ at_peer st i) \/
    exists l, blocked_on st i l /\ of_files l = true /\
      exists k t l' m, nth_error (threads st) k = Some t /\ stalled k = true /\ at_peer st k /\ In (l', m) (held t) /\ of_files l' = true /\
        (forall r, l = ManifestFile r -> l' = ManifestFile r).
Proof.
  intros R Le W st i Li. destruct (reached pool pass stalled progs sched R) as (I & L & C & T).
  destruct (reached_schedule pool pass stalled pick progs (turns progs) _ (conj I (conj L C))) as (I' & L' & C').
  pose proof (schedule_stuck pool pass stalled pick W (turns progs) _ T) as S'. fold st in I', L', C', S'.
  rewrite <- L' in Li. apply nth_error_Some in Li. destruct (nth_error (threads st) i) as [t|] eqn:E; [|congruence].
  destruct (stuck_at pool pass stalled st I' ltac:(lia) S' i t E) as [->|[(X & P & _)|(l & m & ops & Tt & _ & _)]]; [left; exists []; exact E|right; left; auto|].
  right. right. exists l. destruct t as [td h]. cbn in Tt. subst td. assert (B : blocked_on st i l) by (exists m, ops, h; exact E).
  split; [exact B|]. destruct (blamed pool pass stalled st I' ltac:(lia) S' _ i l (Nat.le_refl _) B) as (F & k & t & l' & m' & Ek & Sk & Pk & Hk & Fk & _ & Eq).
  split; [exact F|]. exists k, t, l', m'. repeat (split; [assumption|]). intros r ->. apply Eq. reflexivity.
Qed.

(* So a request that does not use files, and whose own client and remote store answer, comes to its end, whoever else is silent. *)
Theorem C81_others_finish_partial pool pass stalled progs sched pick i p : Forall request progs -> length progs <= pool -> willing pool pass stalled pick ->
  nth_error progs i = Some p -> no_files p -> stalled i = false ->
  finished (schedule pool pass stalled pick (turns progs) (take_turns pool pass stalled (start progs) sched)) i.
Proof.
  intros R Le W Ep NF NS. assert (Li : i < length progs) by (apply nth_error_Some; congruence).
  destruct (C81_silent_peers_partial pool pass stalled progs sched pick R Le W i Li) as [F|[(X & _)|(l & B & F & _)]]; [exact F|congruence|exfalso].
  destruct (reached pool pass stalled progs sched R) as (I & L & C & _).
  destruct (reached_schedule pool pass stalled pick progs (turns progs) _ (conj I (conj L C))) as (_ & _ & C').
  destruct B as (m & ops & h & E). destruct (C' i _ E) as (p' & d & Ep' & Eq). cbn [todo] in Eq. rewrite Ep in Ep'. injection Ep' as <-.
  rewrite (NF l m) in F; [discriminate|]. rewrite Eq. apply in_app_iff. right. left. reflexivity.
Qed.

(* ---- what is not so ---- *)

(* A client asks for the results of run 1 and does not read them.  The first results of run 2 then wait, and behind them the results
   of run 3, whose file is open: those of all runs. *)
Definition slow_reader : list op := talk ++ read_cell 1 Done ++ with_look 1 (Open, false, Open) (stream_body 1).
Definition first_results : list op := talk ++ write_cell 2 HasWork ++ talk ++ execute_plan 2 (Missing, false, Open) None.
Definition more_results : list op := talk ++ write_cell 3 HasWork ++ talk ++ execute_plan 3 (Open, false, Open) None.
Definition alone (i : nat) : bool := Nat.eqb i 0.
(* each in turn until it cannot go on; the client of the first takes the request and then nothing *)
Definition one_by_one (n : nat) : list nat := flat_map (fun i => repeat i 100) (seq 0 n).
Theorem C81_results_of_other_runs_go_on_refuted : exists sched1 sched2 st,
  Forall request [slow_reader; first_results; more_results] /\
  st = take_turns 512 in_order alone (take_turns 512 in_order nobody (start [slow_reader; first_results; more_results]) sched1) sched2 /\
  stuck 512 in_order alone st /\ ~ finished st 2 /\ blocked_on st 2 Cache.
Proof.
  exists (repeat 0 20), (one_by_one 3). eexists. split.
  - constructor; [apply (ResultsStream 1 (Open, false, Open) 1)|]. constructor; [apply (WorkerResults 2 HasWork (Some ((Missing, false, Open), None)))|].
    constructor; [apply (WorkerResults 3 HasWork (Some ((Open, false, Open), None)))|constructor].
  - split; [vm_compute; reflexivity|]. split; [|split].
    + intro i. destruct i as [|[|[|i]]]; try (vm_compute; reflexivity). unfold step_if, alone, step. cbn [Nat.eqb andb threads nth_error]. destruct i; reflexivity.
    + intros (h & E). cbn [threads nth_error] in E. discriminate.
    + eexists _, _, _. reflexivity.
Qed.

(* With one request more than the pool has threads (512 unless configured otherwise): the requests for the manifest of one run can
   come to wait for each other for ever, though all clients and the remote store answer and locks are given in the order asked for. *)
Theorem C81_no_deadlock_refuted pool : 0 < pool -> exists progs sched, length progs = S pool /\ Forall request progs /\
  let st := take_turns pool in_order nobody (start progs) sched in
  (forall pass, stuck pool pass nobody st) /\ forall i, i < length progs -> ~ finished st i.
Proof.
  intro P. destruct pool as [|n]; [lia|]. exists (repeat retry_prog (S (S n))), (jam_schedule (S n)).
  split; [apply repeat_length|]. split; [apply Forall_forall; intros p X; apply repeat_spec in X; subst p; apply (RetryFetch 1 FromDisk)|].
  cbv zeta. rewrite jam_reached by lia. split; [intro pass; apply jam_stuck|]. rewrite repeat_length. intros i Li (h & E). unfold jammed in E. cbn [threads] in E.
  destruct i as [|i]; cbn [nth_error] in E; [injection E as E; discriminate|]. rewrite nth_error_repeat in E by lia. injection E as E. discriminate.
Qed.

(* ---- the hypotheses can be met ---- *)

(* a scheduler that lets someone go on who can *)
Definition able pool pass stalled (st : state) : nat :=
  match find (fun i => match step_if pool pass stalled st i with Some _ => true | None => false end) (seq 0 (length (threads st))) with Some i => i | None => 0 end.
Example C81_willing pool pass stalled : willing pool pass stalled (able pool pass stalled).
Proof.
  intros st i X. unfold able. destruct (find _ _) as [j|] eqn:F.
  - apply find_some in F. destruct F as (_ & F). destruct (step_if pool pass stalled st j); [discriminate|discriminate F].
  - exfalso. apply X. destruct (Nat.lt_ge_cases i (length (threads st))) as [L|L].
    + pose proof (find_none _ _ F i ltac:(apply in_seq; lia)) as Y. cbn in Y. destruct (step_if pool pass stalled st i); [discriminate|reflexivity].
    + unfold step_if. destruct (stalled i && at_peer_b st i); [reflexivity|]. unfold step. apply nth_error_None in L. rewrite L. reflexivity.
Qed.
Definition some_requests : list (list op) :=
  [slow_reader; first_results; more_results;
   talk ++ get_assigned_run 1 CreatedFresh ++ talk;
   talk ++ retry_manifest 1 Done true ++ fetch_manifest 1 (FromRemote true) ++ talk;
   disk ++ concat (map (fun f => offload_results (fst f) (snd f)) [(1, Offloading); (2, NotEligible)]);
   talk ++ concat (map (give_batch 2) [(HasWork, false, Done); (HasWork, true, HasWork)]) ++ dump_manifest 2 ++ [Wait Remote];
   check_progress 2 true true].
Example C81_example : Forall request some_requests /\ no_files (talk ++ get_assigned_run 1 CreatedFresh ++ talk) /\
  (* the offload of run 1 waits for the cache while run 1 is read *)
  (let st := take_turns 512 in_order nobody (start some_requests) (repeat 0 20 ++ repeat 5 20) in blocked_on st 5 Cache /\ step 512 in_order st 5 = None) /\
  (* all finish, although one after another *)
  threads (take_turns 512 in_order nobody (start some_requests) (repeat 0 20 ++ repeat 5 20 ++ one_by_one 8 ++ one_by_one 8 ++ one_by_one 8)) = repeat {| todo := []; held := [] |} 8 /\
  (* the client of the first is silent: assigning run 1 goes on *)
  finished (take_turns 512 in_order alone (take_turns 512 in_order nobody (start some_requests) (repeat 0 20)) (one_by_one 8 ++ one_by_one 8)) 3.
Proof.
  split; [|split; [|split; [|split]]].
  - constructor; [apply (ResultsStream 1 (Open, false, Open) 1)|]. constructor; [apply (WorkerResults 2 HasWork (Some ((Missing, false, Open), None)))|].
    constructor; [apply (WorkerResults 3 HasWork (Some ((Open, false, Open), None)))|]. constructor; [apply Assign|]. constructor; [apply (RetryFetch 1 (FromRemote true))|].
    constructor; [apply OffloadResults|]. constructor; [apply (NextTests 2 [(HasWork, false, Done); (HasWork, true, HasWork)] true)|].
    constructor; [apply (TimedOut 2 true true false)|constructor].
  - intros l m. vm_compute. intuition (try discriminate); match goal with H : Acq _ _ = Acq _ _ |- _ => injection H as <- <- end; reflexivity.
  - vm_compute. split; [eexists _, _, _; reflexivity|reflexivity].
  - vm_compute. reflexivity.
  - exists []. vm_compute. reflexivity.
Qed.

Print Assumptions C81_exclusive_is_alone.
Print Assumptions C81_no_deadlock_partial.
Print Assumptions C81_all_finish_partial.
Print Assumptions C81_silent_peers_partial.
Print Assumptions C81_others_finish_partial.
Print Assumptions C81_results_of_other_runs_go_on_refuted.
Print Assumptions C81_no_deadlock_refuted.
