(* Property theorems about the results plane (C12, C17, C18). *)
From Verif Require Import Base JobQueueModel WorkerSetModel RunModel RunSpec RunProofs RunLemmas RunAnswers
  ServerModel ServerSpec ServerProofs ServerLemmas.
From Coq Require Import Permutation.

Section Props.
Context {T M L : Type}.
Implicit Types (es : list (sevent T M L)) (r : run_id).
Context (f : run_id -> list L) (g : run_id -> option (list L)).   (* what the stores held before *)
Let after es : sstate T M L := run sstep (sinit f g) es.

(* ---- C12 ---- *)

(* Results are streamed only to a request that arrived when the run's tests were
   exhausted and no participating worker was active, and that then saw a moment
   without any pending write. *)
Theorem C12_stream_is_gated es k r ls : small (after es) ->
  In (SAnswer k r (AStream ls)) (sv_log (after es)) ->
  exists es1 es2 es3, es = es1 ++ SFetch r :: es2 ++ es3 /\
    k = length (sv_reads (after es1)) /\
    finished_and_idle (sv_core (after es1)) r /\
    pending_writes (after (es1 ++ SFetch r :: es2)) r = 0.
Proof.
  intros HS H. destruct (stream_trace f g es k r ls H) as (es1 & es2 & ok & es3 & es4 & E & Hk & HF & HC & _).
  exists es1, es2, (SRead k ok :: es3 ++ SRead k true :: es4). repeat split; auto.
  rewrite (count_exact _ r (count_run f g _)) in HC; [unfold after; lia|].
  apply (small_prefix f g _ (SRead k ok :: es3 ++ SRead k true :: es4)).
  unfold after in HS. rewrite E in HS. rewrite <- app_assoc. exact HS.
Qed.

(* The stream has every batch acknowledged before the request arrived and taken for
   writing (whose write did not fail), as often as it was acknowledged, after what
   the store held before; and it has only lines that were sent. *)
Theorem C12_stream_has_every_acknowledged_batch es k r ls : small (after es) ->
  In (SAnswer k r (AStream ls)) (sv_log (after es)) ->
  exists es1 es2, es = es1 ++ SFetch r :: es2 /\ k = length (sv_reads (after es1)) /\
    (exists rest, Permutation ls (f r ++ acked_lines (sv_log (after es)) r (sv_log (after es1)) ++ rest)) /\
    (exists rest, Permutation (ls ++ rest) (f r ++ sent_lines r (sv_log (after es)))).
Proof.
  intros HS H. destruct (stream_trace f g es k r ls H) as (es1 & es2 & ok & es3 & es4 & E & Hk & HF & HC & HL).
  exists es1, (es2 ++ SRead k ok :: es3 ++ SRead k true :: es4). split; [exact E|]. split; [exact Hk|].
  set (mid := es1 ++ SFetch r :: es2) in *.
  assert (Em : es = mid ++ SRead k ok :: es3 ++ SRead k true :: es4).
  { unfold mid. rewrite E, <- app_assoc. reflexivity. }
  assert (HP : pending_writes (after mid) r = 0).
  { rewrite (count_exact _ r (count_run f g _)) in HC; [unfold after; lia|].
    apply (small_prefix f g _ (SRead k ok :: es3 ++ SRead k true :: es4)). rewrite <- Em. exact HS. }
  split.
  - destruct (acked_stored f (after mid) r (sv_log (after es)) (file_run f g mid) (log_run f g mid) HP) as [rest HR].
    { intros j Hj. apply failed_in. 
      destruct (log_grows_run (run sstep (sinit f g) mid) (SRead k ok :: es3 ++ SRead k true :: es4)) as [more Hm].
      rewrite <- run_app, <- Em in Hm. unfold after. rewrite Hm. apply in_app_iff; auto. }
    replace (es1 ++ SFetch r :: es2 ++ SRead k ok :: es3) with (mid ++ SRead k ok :: es3) in HL
      by (unfold mid; rewrite <- app_assoc; reflexivity).
    rewrite run_app in HL.
    destruct (file_grows_run (run sstep (sinit f g) mid) (SRead k ok :: es3) r) as [more Hm].
    rewrite Hm in HL. subst ls.
    assert (Ha : exists h2, sv_log (after mid) = sv_log (after es1) ++ h2).
    { unfold after, mid. rewrite run_app. apply log_grows_run. }
    destruct Ha as [h2 Ha]. rewrite Ha in HR. unfold acked_lines in HR. rewrite flat_map_app in HR.
    fold (acked_lines (sv_log (after es)) r (sv_log (after es1))) in HR.
    eexists. unfold after in HR |- *. rewrite HR, <- !app_assoc. reflexivity.
  - set (mid2 := es1 ++ SFetch r :: es2 ++ SRead k ok :: es3) in *.
    assert (Em2 : es = mid2 ++ SRead k true :: es4).
    { unfold mid2. rewrite E. repeat (rewrite <- app_assoc; simpl). reflexivity. }
    destruct (file_sent f g mid2 r) as [rest HR]. rewrite <- HL in HR.
    destruct (log_grows_run (run sstep (sinit f g) mid2) (SRead k true :: es4)) as [more Hm].
    rewrite <- run_app, <- Em2 in Hm. unfold after. rewrite Hm.
    unfold sent_lines. rewrite flat_map_app. fold (sent_lines r (sv_log (run sstep (sinit f g) mid2))).
    eexists. rewrite (app_assoc (f r)), <- HR, <- app_assoc. reflexivity.
Qed.

(* A request made when all is in place is answered with the stream. *)
Theorem C12_ready_results_are_served st r : finished_and_idle (sv_core st) r -> sv_count st r = 0%Z ->
  let k := length (sv_reads st) in
  sv_log (run (@sstep T M L) st [SFetch r; SRead k true; SRead k true]) =
  sv_log st ++ [SAsked k r; SAnswer k r (AStream (sv_file st r))].
Proof.
  intros H HC k. apply idle_read_cell in H. simpl. unfold fetch. rewrite H. unfold set_reads, smk; simpl.
  rewrite nth_error_app2, Nat.sub_diag by auto. simpl. unfold read_step; simpl. rewrite HC. simpl.
  rewrite nth_error_upd_eq by (rewrite app_length; simpl; unfold k; lia). unfold set_reads, smk; simpl.
  now rewrite app_nil_r, <- app_assoc.
Qed.

(* Any other request is told that the run goes on or that there are no results. *)
Theorem C12_otherwise_refused st r : ~ finished_and_idle (sv_core st) r ->
  let k := length (sv_reads st) in
  exists a, sv_log (@sstep T M L st (SFetch r)) = sv_log st ++ [SAsked k r; SAnswer k r a] /\
    (a = AError \/ exists ts, a = AInProgress ts).
Proof.
  intros H k. simpl. unfold fetch. destruct (read_cell (sv_core st) r) as [|ts|] eqn:E; simpl; eauto.
  destruct H. now apply read_cell_idle.
Qed.

(* A batch is taken for writing iff its run has its manifest and is not cancelled.
   Any other batch is acknowledged and dropped. *)
Theorem C12_batch_taken_iff_run_has_manifest st r e line :
  let st' := @sstep T M L st (SResults r e line) in
  match phase_of (sv_core st) r with
  | Some PhOpen | Some PhOver => sv_log st' = sv_log st ++ [SSent (length (sv_writes st)) r line]
  | _ => sv_log st' = sv_log st ++ [SAck None r e line] /\ sv_writes st' = sv_writes st
  end.
Proof.
  simpl. unfold write_cell, phase_of. destruct (get r (s_runs (sv_core st))) as [[]|]; simpl; auto.
Qed.

(* ---- C18 ---- *)

Theorem C18_counter_is_exact es r : small (after es) ->
  sv_count (after es) r = Z.of_nat (pending_writes (after es) r).
Proof. intros HS. exact (count_exact _ r (count_run f g es) HS). Qed.

(* It is at least one whenever a write leaves it. *)
Theorem C18_no_underflow es k w ok : small (after es) -> nth_error (sv_writes (after es)) k = Some w ->
  w_pc w = WDumped ok -> (1 <= sv_count (after es) (w_run w))%Z.
Proof.
  intros HS HW HP. rewrite (count_exact _ _ (count_run f g es) HS).
  assert (Q := counted_pending (after es) (w_run w) k w HW eq_refl). rewrite HP in Q. specialize (Q eq_refl).
  fold (after es). lia.
Qed.

(* A request past the gate is told to wait iff a write is pending. *)
Theorem C18_pending_iff_writes_pending es k r ok : small (after es) ->
  nth_error (sv_reads (after es)) k = Some {| rd_run := r; rd_pc := RdGot |} ->
  (sv_log (after (es ++ [SRead k ok])) = sv_log (after es) ++ [SAnswer k r APending] <-> pending_writes (after es) r <> 0).
Proof.
  intros HS HR. unfold after. rewrite run_app. simpl. unfold after in HR. rewrite HR. unfold read_step. simpl.
  rewrite (count_exact _ _ (count_run f g es) HS).
  destruct (Z.eqb_spec (Z.of_nat (pending_writes (run sstep (sinit f g) es) r)) 0); simpl.
  - split; [|lia]. intros H. apply app_inv_head in H. discriminate.
  - split; [lia|auto].
Qed.

(* ---- C17 ---- *)

(* Missing: the case in which the last write to finish was taken before the tests
   were exhausted; there the claim is false (below). *)
Theorem C17_remote_is_complete_partial es r l k : small (after es) -> quiet (after es) r ->
  finish_order (after es) r = l ++ [k] -> taken_at_end (after es) k ->
  ~ In (SStoreFailed k) (sv_log (after es)) ->
  sv_remote (after es) r = Some (sv_file (after es) r) /\
  exists rest, Permutation (sv_file (after es) r)
    (f r ++ acked_lines (sv_log (after es)) r (sv_log (after es)) ++ rest).
Proof.
  intros HS HQ HO HT HF. split; [now apply (remote_complete f g es r l k)|].
  apply (acked_stored f); [apply file_run|apply log_run|now apply quiet_pending|].
  intros j Hj. now apply failed_in.
Qed.

(* taken_at_end means what it says: a write is so marked iff the run's tests are
   exhausted when it is taken. *)
Theorem C17_taken_at_end_iff_over st ev w :
  sv_writes (@sstep T M L st ev) = sv_writes st ++ [w] ->
  (w_elig w = true <-> phase_of (sv_core (sstep st ev)) (w_run w) = Some PhOver).
Proof.
  intros H. assert (HL : length (sv_writes (sstep st ev)) = S (length (sv_writes st))).
  { rewrite H, app_length. simpl. lia. }
  destruct ev as [ev|r0 flat meta s0|r0 e l|k ok|r0|k ok]; simpl in *.
  - destruct ev; simpl in HL; lia.
  - unfold manifest_accepted in *. destruct (get r0 (s_runs (sv_core st))) as [[]|] eqn:G; simpl in *; try lia.
    destruct (busy (sv_core st) r0) eqn:B; simpl in *; try lia.
    apply app_inv_head in H. injection H as <-. simpl. unfold exclusive. rewrite G, B.
    destruct flat as [|p flat]; simpl; unfold phase_of, set_run, mk; simpl; rewrite get_put, Nat.eqb_refl; simpl;
      split; congruence.
  - unfold write_cell in *. destruct (get r0 (s_runs (sv_core st))) as [[]|] eqn:G; simpl in *; try lia;
      apply app_inv_head in H; injection H as <-; simpl; unfold phase_of; rewrite G; simpl; split; congruence.
  - destruct (nth_error (sv_writes st) k) as [w0|]; [|lia]. unfold write_step in HL.
    destruct (w_pc w0), ok; simpl in HL; rewrite ?upd_length in HL; lia.
  - unfold fetch in HL. destruct (read_cell (sv_core st) r0); simpl in HL; lia.
  - destruct (nth_error (sv_reads st) k) as [rd|]; [|lia]. unfold read_step in HL.
    destruct (rd_pc rd), ok; try destruct (Z.eqb _ _); simpl in HL; lia.
Qed.
End Props.

(* ---- concrete histories ---- *)
Section Examples.
Let e : entity := {| en_id := 1; en_tag := TRunner 0 1 |}.
Let p : find_params := {| fp_run := 0; fp_entity := e; fp_batch := 1; fp_strategy := ByTest; fp_hash := 0 |}.
Let none : run_id -> list nat := fun _ => [].
Let noremote : run_id -> option (list nat) := fun _ => None.
Let ask k : list (sevent nat unit nat) :=
  SCore (ENext 0 e) :: repeat (SCore (EQueueStep k)) 6 ++ [SCore (ENextFinish k); SCore (ENextFinish k)].
Let writes k n : list (sevent nat unit nat) := repeat (SWrite k true) n.

(* A run of two tests: a summary (line 100) and the first result (line 7, write 1)
   are taken while there is work, the second result (line 8, write 2) afterwards. *)
Let opening : list (sevent nat unit nat) :=
  [SCore (EFind p); SCore (EFindRemote 0 RemoteNotFound 0); SManifest 0 [(7, 0); (8, 1)] tt 100] ++
  writes 0 4 ++ ask 1 ++ [SResults 0 e 7; SWrite 1 true; SWrite 1 true] ++ ask 2 ++
  [SResults 0 e 8; SWrite 2 true; SWrite 2 true; SCore (EWorkerComplete 0 e 5)].
Let good : list (sevent nat unit nat) := opening ++ writes 1 3 ++ writes 2 3 ++ [SFetch 0; SRead 0 true; SRead 0 true].
Let bad : list (sevent nat unit nat) := opening ++ writes 2 3 ++ writes 1 3.

Example C12_example :
  In (SAnswer 0 0 (AStream [100; 7; 8])) (sv_log (run sstep (sinit none noremote) good)) /\
  small (run sstep (sinit none noremote) good).
Proof. split; vm_compute; [|reflexivity]. repeat (try (left; reflexivity); right). Qed.

(* While writes are pending the answer is to wait. *)
Example C12_pending_example :
  sv_log (run sstep (sinit none noremote) (opening ++ [SFetch 0; SRead 0 true])) =
  [SSent 0 0 100; SFinished 0 0; SSent 1 0 7; SAck (Some 1) 0 e 7; SSent 2 0 8; SAck (Some 2) 0 e 8;
   SAsked 0 0; SAnswer 0 0 APending].
Proof. reflexivity. Qed.

(* Results of a run that still waits for its manifest are acknowledged and dropped:
   they are not in what is streamed later. *)
Example C12_early_batch_is_dropped :
  let es := [SCore (EFind p); SCore (EFindRemote 0 RemoteNotFound 0); SResults 0 e 5; SManifest 0 [] tt 100] ++
            writes 0 4 ++ [SFetch 0; SRead 0 true; SRead 0 true] in
  sv_log (run sstep (sinit none noremote) es) =
  [SAck None 0 e 5; SSent 0 0 100; SFinished 0 0; SAsked 0 0; SAnswer 0 0 (AStream [100])].
Proof. reflexivity. Qed.

Example C17_example : let st := run sstep (sinit none noremote) good in
  quiet st 0 /\ finish_order st 0 = [0; 1; 2] /\ taken_at_end st 2 /\ ~ In (SStoreFailed 2) (sv_log st) /\
  sv_remote st 0 = Some [100; 7; 8].
Proof.
  intros st. vm_compute in st. subst st. split; [|split; [reflexivity|split; [|split; [|reflexivity]]]].
  - intros w H _. vm_compute in H. repeat destruct H as [<-|H]; try (eexists; reflexivity). destruct H.
  - eexists; split; reflexivity.
  - vm_compute. intuition discriminate.
Qed.

(* The write of the first result finishes last: nothing is stored in the remote,
   although the run is over, no worker is active and every write has finished
   without any failure. *)
Theorem C17_remote_is_complete_refuted : exists (es : list (sevent nat unit nat)) r,
  let st := run sstep (sinit none noremote) es in
  small st /\ finished_and_idle (sv_core st) r /\ quiet st r /\
  (forall k, ~ In (SStoreFailed k) (sv_log st) /\ ~ In (SFailed k) (sv_log st)) /\
  sv_file st r = [100; 8; 7] /\ sv_remote st r = None.
Proof.
  exists bad, 0. set (st := run sstep (sinit none noremote) bad). vm_compute in st. subst st.
  split; [vm_compute; reflexivity|]. split; [eexists; split; vm_compute; reflexivity|]. split; [|split; [|split; reflexivity]]; [|intros k; split].
  - intros w H _. vm_compute in H. repeat destruct H as [<-|H]; try (eexists; reflexivity). destruct H.
  - vm_compute. intuition discriminate.
  - vm_compute. intuition discriminate.
Qed.
End Examples.

Print Assumptions C12_stream_is_gated.
Print Assumptions C12_stream_has_every_acknowledged_batch.
Print Assumptions C12_ready_results_are_served.
Print Assumptions C12_otherwise_refused.
Print Assumptions C12_batch_taken_iff_run_has_manifest.
Print Assumptions C17_remote_is_complete_partial.
Print Assumptions C17_taken_at_end_iff_over.
Print Assumptions C17_remote_is_complete_refuted.
Print Assumptions C18_counter_is_exact.
Print Assumptions C18_no_underflow.
Print Assumptions C18_pending_iff_writes_pending.
