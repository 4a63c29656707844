(* Answers to connecting workers, persisted runs, refused manifests. *)
From Verif Require Import Base JobQueueModel WorkerSetModel ManifestViewModel ManifestViewProofs RunModel RunSpec RunProofs RunInv RunNext RunLemmas RunParts RunCount RunTimers RunLift.
From Verif Require JobQueueSpec JobQueueProofs JobQueueLemmas WorkerSetProofs.

Lemma replaced_contains {A} e (s : wset A) : match replaced_by_tag e s with Some _ => contains_by_tag s e = true | None => contains_by_tag s e = false end.
Proof.
  unfold replaced_by_tag, contains_by_tag. induction s as [|[e' a] s IH]; simpl; auto.
  destruct (tag_eqb (en_tag e') (en_tag e)); simpl; auto.
Qed.

Section Answers.
Context {T M : Type}.
Implicit Types (st : state T M) (r : run_id) (h : list (obs T M)).

Lemma put_same r s (m : list (run_id * run_state T M)) : get r m = Some s -> put r s m = m.
Proof.
  induction m as [|[r0 s0] m IH]; simpl; [discriminate|].
  destruct (Nat.eqb r0 r); [now intros [= ->]|]. intros H. now rewrite IH.
Qed.

Lemma history_assigned st st' p a : s_log st' = s_log st ++ [OAssigned p a] ->
  history st' (fp_run p) = history st (fp_run p) ++ [OAssigned p a].
Proof. unfold history. intros ->. rewrite filter_app. simpl. unfold about; simpl. now rewrite Nat.eqb_refl. Qed.

Lemma lookup_answer st k p now : reachable st -> nth_error (s_reqs st) k = Some (QFind p FLookup) ->
  let h := history st (fp_run p) in let w := en_tag (fp_entity p) in
  exists a, s_log (step st (EFindLookup k now)) = s_log st ++ [OAssigned p a] /\
  match phase_of st (fp_run p) with
  | None => False
  | Some PhWaiting => exists d, a = AssignedRun (Fresh false) d
  | Some PhOpen => (was_placed w h -> exists d, a = AssignedRun RetryAndContinue d) /\
                   (~ spoke w h -> exists d, a = AssignedRun (Fresh false) d) /\
                   exists k d, a = AssignedRun k d
  | Some PhOver => (was_placed w h -> (forall r, ~ In (OManifest r 0 true) h) -> exists d, a = AssignedRun RetryAndContinue d) /\
                   (~ spoke w h -> count told_to_generate h = 1 -> a = AlreadyDone 0) /\
                   ((exists d, a = AssignedRun RetryAndContinue d) \/ exists c, a = AlreadyDone c)
  | Some PhCancelled => exists c, a = AssignedCancelled c /\ reason_seen c h
  end.
Proof.
  intros HR Hk h w. unfold step. rewrite Hk.
  assert (P := pinv_ok (fp_run p) st HR). assert (G := ginv_ok (fp_run p) st HR). fold h in P, G.
  unfold phase_of.
  destruct (get (fp_run p) (s_runs st)) as [[conns b sg hh|q m b active hh|ec m seen mp hh old|c old]|] eqn:Eg; simpl in *.
  - eexists; split; [reflexivity|eauto].
  - eexists; split; [reflexivity|]. assert (HC := replaced_contains (fp_entity p) active).
    destruct (P w) as [P1 P2].
    destruct (replaced_by_tag (fp_entity p) active) eqn:Er.
    + repeat split; eauto. intros Hs. exfalso. apply Hs, P2. now apply WorkerSetProofs.contains_tags in HC.
    + repeat split; eauto. intros Hp. exfalso. apply P1 in Hp.
      apply WorkerSetProofs.contains_tags in Hp. congruence.
  - eexists; split; [reflexivity|]. destruct P as [P HE]. destruct (P w) as [P1 P2].
    destruct (contains_by_tag seen (fp_entity p)) eqn:Ec; repeat split; eauto.
    + intros Hs Hg. exfalso. apply WorkerSetProofs.contains_tags in Ec. destruct (P2 Ec); [auto|lia].
    + intros Hp Hne. exfalso. destruct (P1 Hp) as [->|Hin].
      * destruct (HE eq_refl) as [r' Hr']. eapply Hne; eauto.
      * apply WorkerSetProofs.contains_tags in Hin. congruence.
    + intros _ Hg. f_equal. unfold count in Hg.
      destruct (filter told_to_generate h) as [|o l] eqn:Ef; [simpl in Hg; lia|].
      assert (Ho : In o h /\ told_to_generate o = true) by (apply filter_In; rewrite Ef; simpl; auto).
      destruct Ho as [Ho1 Ho2]. destruct o as [p' [|[[]|] d| | |]| | | | | | | | | | | |]; try discriminate.
      now destruct (G _ _ Ho1) as [-> _].
  - eexists; split; [reflexivity|eauto].
  - exfalso. eapply unknown_impossible; eauto.
Qed.

Lemma lookup_command st k p now pg d0 kd d : reachable st -> nth_error (s_reqs st) k = Some (QFind p FLookup) ->
  In (OAssigned pg (AssignedRun (Fresh true) d0)) (history st (fp_run p)) ->
  s_log (step st (EFindLookup k now)) = s_log st ++ [OAssigned p (AssignedRun kd d)] ->
  d = negb (Nat.eqb (fp_hash pg) (fp_hash p)).
Proof.
  intros HR Hk Hg. assert (G := ginv_ok (fp_run p) st HR _ _ Hg).
  unfold step. rewrite Hk.
  destruct (get (fp_run p) (s_runs st)) as [[conns b sg hh|q m b active hh|ec m seen mp hh old|c old]|] eqn:Eg; simpl in *;
    intros H; apply app_inv_head in H; try discriminate.
  - destruct G as (_ & _ & ->). congruence.
  - destruct G as (_ & _ & -> & _). congruence.
  - destruct G as (_ & -> & _). destruct (contains_by_tag _ _); [congruence|discriminate].
Qed.

(* A run that neither the queue nor the remote store knows. *)
Lemma first_generates st k p a now : nth_error (s_reqs st) k = Some (QFind p FRemote) ->
  get (fp_run p) (s_runs st) = None -> a = RemoteNotFound \/ a = RemoteIncompatible ->
  s_log (step st (EFindRemote k a now)) = s_log st ++ [OAssigned p (AssignedRun (Fresh true) false)].
Proof. intros Hk Hg Ha. unfold step. rewrite Hk, Hg. destruct Ha as [-> | ->]; reflexivity. Qed.

Lemma connect_pc st p : fp_batch p <> 0 ->
  nth_error (s_reqs (step st (EFind p))) (length (s_reqs st)) =
  Some (QFind p (match phase_of st (fp_run p) with Some _ => FLookup | None => FRemote end)).
Proof.
  intros Hb. simpl. destruct (Nat.eqb_spec (fp_batch p) 0); [congruence|]. simpl.
  rewrite nth_error_app2, Nat.sub_diag by lia. simpl. unfold phase_of. now destruct (get (fp_run p) (s_runs st)).
Qed.

(* Refused manifests. *)
Lemma refused_nothing st r flat meta n : reachable st ->
  s_log (step st (EManifest r flat meta)) = s_log st ++ [OManifest r n false] ->
  s_runs (step st (EManifest r flat meta)) = s_runs st /\ s_active (step st (EManifest r flat meta)) = s_active st /\
  s_timers (step st (EManifest r flat meta)) = s_timers st /\ s_reqs (step st (EManifest r flat meta)) = s_reqs st.
Proof.
  intros HR. assert (HA := active_range _ HR). unfold step, exclusive.
  destruct (get r (s_runs st)) as [s|] eqn:Eg; [|auto]. destruct (busy st r); [auto|].
  destruct flat as [|x flat].
  - destruct s; cbn [mark_empty]; simpl; intros H; apply app_inv_head in H; try discriminate;
      rewrite put_same by auto; rewrite Z.add_0_r; auto.
  - destruct s; cbn [add_manifest]; simpl; intros H; apply app_inv_head in H; try discriminate;
      rewrite put_same by auto; rewrite Z.add_0_r; auto.
Qed.

Lemma accepted_iff_waiting st r flat meta : busy st r = false -> phase_of st r <> None ->
  s_log (step st (EManifest r flat meta)) = s_log st ++
    [OManifest r (length flat) (match phase_of st r with Some PhWaiting => true | _ => false end)].
Proof.
  intros Hb Hp. unfold step, exclusive, phase_of in *. rewrite Hb.
  destruct (get r (s_runs st)) as [s|] eqn:Eg; [|simpl in *; congruence].
  destruct flat as [|x flat]; destruct s; reflexivity.
Qed.

Lemma late_failure_nothing st r : reachable st -> phase_of st r <> Some PhWaiting ->
  s_runs (step st (EManifestFailed r)) = s_runs st /\ s_active (step st (EManifestFailed r)) = s_active st /\
  s_timers (step st (EManifestFailed r)) = s_timers st /\ s_reqs (step st (EManifestFailed r)) = s_reqs st.
Proof.
  intros HR Hp. assert (HA := active_range _ HR). unfold step, exclusive, phase_of in *.
  destruct (get r (s_runs st)) as [s|] eqn:Eg; [|auto]. destruct (busy st r); [auto|].
  destruct s; simpl in *; try congruence; rewrite put_same by auto; rewrite Z.add_0_r; auto.
Qed.

(* An accepted manifest is what the run hands out. *)
Lemma accepted_is_the_manifest st r flat meta : 
  s_log (step st (EManifest r flat meta)) = s_log st ++ [OManifest r (length flat) true] -> flat <> [] ->
  manifest_of (step st (EManifest r flat meta)) r = map (fun t => {| wt_spec := fst t; wt_run_number := 1 |}) flat.
Proof.
  unfold step, exclusive, manifest_of, the_queue.
  destruct (get r (s_runs st)) as [s|] eqn:Eg; [|simpl; intros H; apply app_inv_head in H; discriminate].
  destruct (busy st r).
  { intros H. exfalso. apply (f_equal (@length _)) in H. rewrite app_length in H. simpl in H. lia. }
  destruct flat as [|x flat]; [congruence|].
  destruct s; cbn [add_manifest]; intros H _; try (simpl in H; apply app_inv_head in H; discriminate).
  unfold set_run. cbn [mk s_runs]. rewrite get_put, Nat.eqb_refl. cbn [queue_of]. cbn [cf_queue].
  rewrite map_map. reflexivity.
Qed.

(* The persisted partition of a finished run. *)
Lemma persisted_partition st r k e ts eow p who : reachable st ->
  In (OWork k r e ts eow (Some p)) (history st r) -> who <> TExternalClient ->
  exists work, view_partition {| v_items := fst (pl_view p); v_entities := snd (pl_view p) |} who = Some work /\
  forall x, In x work <->
    (exists k' e' ts' eow' p', In (OWork k' r e' ts' eow' p') (s_log st) /\ en_tag e' = who /\ In x ts') \/
    (exists k' e' j ts', nth_error (s_reqs st) k' = Some (QNext r e' (NEnd j ts')) /\ en_tag e' = who /\ In x ts').
Proof.
  intros HR Hin Hwho. destruct (plan_inv _ _ HR _ _ _ _ _ Hin) as (ec & m & seen & mp & hh & c & js & Hg & Hv & _).
  assert (I := i_n _ (reachable_inv _ HR)).
  assert (Hqa : qa st r = Some (c, js)) by (unfold qa; now rewrite Hg).
  assert (HRq := n_q _ I _ _ _ Hqa). assert (HI := JobQueueLemmas.reachable_inv _ _ HRq).
  assert (HC : closed st r) by (left; unfold phase_of; now rewrite Hg).
  assert (Hb := closed_not_busy _ _ HR HC).
  assert (HQ := not_busy_quiescent _ _ _ _ HR Hqa Hb).
  exists (partition_for c js who). rewrite Hv. split; [now apply JobQueueLemmas.live_equals_view|].
  intros x. rewrite (JobQueueLemmas.partition_exact _ _ _ HRq HQ Hwho). rewrite in_concat. split.
  - intros (l & Hl & Hx). apply in_map_iff in Hl as (j & <- & Hj). apply filter_In in Hj as [Hj Hw].
    unfold JobQueueSpec.requester, JobQueueSpec.response in *.
    destruct (nth_error (st_threads js) j) as [t|] eqn:Ht; [|discriminate]. simpl in Hw.
    apply tag_eqb_true in Hw.
    assert (Hlt : j < length (st_threads js)) by (apply nth_error_Some; congruence).
    destruct (n_sur _ I _ _ _ _ Hqa Hlt) as (k' & e' & pc & Hk' & Hth).
    destruct (n_thr _ I _ _ _ _ _ Hk' Hth) as (c' & js' & t' & Hq' & Ht' & Htag & Hpc).
    rewrite Hqa in Hq'. injection Hq' as <- <-. assert (t' = t) by congruence; subst t'.
    destruct pc as [j0|j0 ts'|jo]; simpl in Hth, Hpc.
    + exfalso. eapply busy_false; eauto.
    + right. destruct Hpc as [Hbd _]. exists k', e', j0, ts'. repeat split; auto; congruence.
    + left. subst jo. destruct (n_logc _ I _ _ _ _ Hk') as (ts' & eow' & p' & Hin').
      destruct (n_log _ I _ _ _ _ _ _ Hin') as (jo & Hk'' & H).
      rewrite Hk' in Hk''. injection Hk'' as <-.
      destruct H as (c' & js' & t' & Hq' & Ht'' & Hbd & _). rewrite Hqa in Hq'. injection Hq' as <- <-.
      assert (t' = t) by congruence; subst t'. exists k', e', ts', eow', p'. repeat split; auto; congruence.
  - assert (Hgo : forall k' e' pc j ts', nth_error (s_reqs st) k' = Some (QNext r e' pc) -> thread_of pc = Some j ->
       en_tag e' = who -> In x ts' -> (exists t, nth_error (st_threads js) j = Some t /\ bundle c t = ts' /\ eow_of c t <> None) ->
       exists l, In l (map (JobQueueSpec.response c js) (filter (fun k => match JobQueueSpec.requester js k with Some w => tag_eqb w who | None => false end) (st_log js))) /\ In x l).
    { intros k' e' pc j ts' Hk' Hth Hw Hx (t & Ht & Hbd & He).
      exists ts'. split; auto. apply in_map_iff. exists j. split.
      - unfold JobQueueSpec.response. now rewrite Ht.
      - apply filter_In. split.
        + apply (JobQueueProofs.inv_log _ _ HI _ _ Ht). apply eow_done in He as (? & ? & ? & ->). discriminate.
        + unfold JobQueueSpec.requester. rewrite Ht. simpl. apply tag_eqb_true.
          destruct (n_thr _ I _ _ _ _ _ Hk' Hth) as (c' & js' & t' & Hq' & Ht' & Htag & _).
          rewrite Hqa in Hq'. injection Hq' as <- <-. congruence. }
    intros [(k' & e' & ts' & eow' & p' & Hin' & Hw & Hx)|(k' & e' & j & ts' & Hk' & Hw & Hx)].
    + destruct (n_log _ I _ _ _ _ _ _ Hin') as ([j|] & Hk' & H); [|destruct H as [-> _]; contradiction].
      destruct H as (c' & js' & t & Hq' & Ht & Hbd & He). rewrite Hqa in Hq'. injection Hq' as <- <-.
      eapply Hgo; [exact Hk'|reflexivity|auto|exact Hx|]. exists t. repeat split; auto. congruence.
    + destruct (n_thr _ I _ _ _ _ j Hk' eq_refl) as (c' & js' & t & Hq' & Ht & _ & Hbd & He).
      rewrite Hqa in Hq'. injection Hq' as <- <-.
      eapply Hgo; [exact Hk'|reflexivity|auto|exact Hx|]. exists t. repeat split; auto. congruence.
Qed.

Lemma connect_known st q now s : get (fp_run q) (s_runs st) = Some s -> fp_batch q <> 0 ->
  s_log (run step st [EFind q; EFindLookup (length (s_reqs st)) now]) = s_log st ++ [OAssigned q (snd (find_lookup now q s))].
Proof.
  intros Hg Hb. change (run step st [EFind q; EFindLookup (length (s_reqs st)) now]) with
    (step (step st (EFind q)) (EFindLookup (length (s_reqs st)) now)).
  unfold step at 2. destruct (Nat.eqb_spec (fp_batch q) 0); [congruence|]. rewrite Hg.
  unfold step. cbn [add_req s_reqs s_runs]. rewrite nth_error_app2, Nat.sub_diag by lia. cbn [nth_error].
  rewrite Hg. destruct (find_lookup now q s). reflexivity.
Qed.

Lemma connect_loaded q now sv : fp_batch q <> 0 ->
  s_log (run step (@init_state T M) [EFind q; EFindRemote 0 (RemoteFound sv) now; EFindLookup 0 now]) =
  [OAssigned q (snd (find_lookup now q (loaded_run (T := T) sv)))].
Proof.
  intros Hb. change (run step (@init_state T M) [EFind q; EFindRemote 0 (RemoteFound sv) now; EFindLookup 0 now]) with
    (step (step (step (@init_state T M) (EFind q)) (EFindRemote 0 (RemoteFound sv) now)) (EFindLookup 0 now)).
  unfold step at 3. destruct (Nat.eqb_spec (fp_batch q) 0); [congruence|].
  unfold step at 2. cbn [init_state s_runs get add_req s_reqs app nth_error set_req set_run mk put upd].
  unfold step. cbn [init_state s_runs get add_req s_reqs app nth_error set_req set_run mk put upd].
  rewrite Nat.eqb_refl. destruct (find_lookup now q (loaded_run sv)). reflexivity.
Qed.

(* A queue that reloads the persisted state of a run answers as this one did. *)
Lemma reload_alike st ev k r e ts p q now a : reachable st -> fp_run q = r -> fp_batch q <> 0 ->
  s_log (step st ev) = s_log st ++ [OWork k r e ts true (Some p)] ->
  let st1 := step st ev in
  s_log (run step st1 [EFind q; EFindLookup (length (s_reqs st1)) now]) = s_log st1 ++ [OAssigned q a] ->
  s_log (run step (@init_state T M) [EFind q; EFindRemote 0 (RemoteFound (pl_state p)) now; EFindLookup 0 now]) = [OAssigned q a].
Proof.
  intros HR <- Hbq Hl st1.
  assert (Hst1 : exists ec m seen mp hh old, get (fp_run q) (s_runs st1) = Some (Done ec m seen mp hh old) /\
     pl_state p = {| sv_exit := ec; sv_meta := m; sv_seen := map fst seen; sv_hash := hh |}).
  { destruct (step_effect st ev (fp_run q)) as (os & He & Hh).
    assert (Hos : os = [OWork k (fp_run q) e ts true (Some p)]).
    { unfold history in Hh. rewrite Hl, filter_app in Hh. simpl in Hh. unfold about in Hh; simpl in Hh.
      rewrite Nat.eqb_refl in Hh. now apply app_inv_head in Hh. }
    fold st1 in He. remember (get (fp_run q) (s_runs st1)) as o eqn:Eo. clear Eo.
    destruct He; try discriminate. injection Hos; intros; subst.
    destruct s as [|[c js] m b active hh| |]; cbn [try_mark_end] in *; try congruence.
    match goal with H : (_, _, _) = (_, _, _) |- _ => injection H as <- <- <- end.
    do 6 eexists. split; reflexivity. }
  destruct Hst1 as (ec & m & seen & mp & hh & old & Hg & Hp).
  unfold st1 in *. rewrite (connect_known _ _ _ _ Hg Hbq), connect_loaded by auto.
  intros H. apply app_inv_head in H. injection H as <-. rewrite Hp. f_equal. f_equal.
  cbn [loaded_run sv_exit sv_meta sv_seen sv_hash find_lookup snd].
  match goal with |- (if ?x then _ else _) = (if ?y then _ else _) => assert (Hxy : x = y) end.
  - rewrite map_map. apply Bool.eq_iff_eq_true. rewrite !WorkerSetProofs.contains_tags.
    rewrite in_tags_from_iter. rewrite map_map. simpl. unfold tags. reflexivity.
  - rewrite Hxy. reflexivity.
Qed.

End Answers.

Section Stalled.
Context {T M : Type}.
Implicit Types (st : state T M) (r : run_id).

Lemma stalled_cancelled st i r l : nth_error (s_timers st) i = Some (r, l) -> busy st r = false ->
  (phase_of st r = Some PhWaiting \/
   phase_of st r = Some PhOpen /\ length (claimed_tests st r) <= l /\ length (claimed_tests st r) < length (manifest_of st r)) ->
  let st' := run step st [ETimer i; ETimerCancel (length (s_reqs st))] in
  phase_of st' r = Some PhCancelled /\
  exists p, s_log st' = s_log st ++ [OTimeout r l (Some p)] /\ (p = PCancelledNoManifest \/ p = PCancelledNoProgress).
Proof.
  intros Hi Hb Hp st'. unfold st'. clear st'.
  change (run step st [ETimer i; ETimerCancel (length (s_reqs st))]) with (step (step st (ETimer i)) (ETimerCancel (length (s_reqs st)))).
  unfold step at 2 4. rewrite Hi. unfold phase_of, claimed_tests, manifest_of, the_queue in Hp.
  destruct (get r (s_runs st)) as [s|] eqn:Eg; [|destruct Hp as [|[? _]]; discriminate].
  assert (Hc : is_cancel (query_progress l s) = true).
  { destruct Hp as [Hp|(Hp & Hl & Hm)]; destruct s as [|[c js] m b active hh| |]; try discriminate; auto.
    simpl in *. rewrite firstn_length in *. unfold read_index in *. 
    assert (st_ptr js <= l) by lia. destruct (Nat.ltb_spec l (st_ptr js)); [lia|reflexivity]. }
  assert (Hst : match query_progress l s with PNewProgress _ | PRunComplete => False | _ => True end).
  { destruct (query_progress l s); try discriminate; exact I. }
  set (st0 := mk st (s_runs st) (s_active st) (remove_at i (s_timers st)) (s_reqs st) []).
  assert (Hb' : busy (add_req st0 (QTimeout r l false)) r = false).
  { unfold busy in *. simpl. rewrite existsb_app, Hb. reflexivity. }
  replace (match query_progress l s with
           | PRunComplete => say st0 [OTimeout r l (Some PRunComplete)]
           | PNewProgress idx => add_timer (say st0 [OTimeout r l (Some (PNewProgress idx))]) (r, idx)
           | _ => add_req st0 (QTimeout r l false)
           end) with (add_req st0 (QTimeout r l false)) by (destruct (query_progress l s); tauto).
  assert (E1 : nth_error (s_reqs (add_req st0 (QTimeout r l false))) (length (s_reqs st)) = Some (QTimeout r l false)).
  { simpl. rewrite nth_error_app2, Nat.sub_diag by lia. reflexivity. }
  assert (E2 : get r (s_runs (add_req st0 (QTimeout r l false))) = Some s) by exact Eg.
  unfold step. rewrite E1. unfold exclusive. rewrite E2, Hb', Hc.
  cbn [cancel_help]. unfold phase_of, set_run. cbn [mk s_runs s_log set_req add_req st0]. rewrite get_put, Nat.eqb_refl.
  split; [reflexivity|]. exists (query_progress l s). split.
  - now rewrite app_nil_r.
  - destruct (query_progress l s); try discriminate; auto.
Qed.

End Stalled.
