(* Every event, seen from one run: [effect]. *)
From Verif Require Import Base JobQueueModel WorkerSetModel RunModel RunSpec.

(* Unfold the operation of an effect by cases on the state of the run. *)
Ltac op_cases :=
  match goal with
  | H : find_lookup _ _ ?s = _ |- _ =>
      destruct s; cbn [find_lookup] in H; injection H as <- <-
  | H : add_manifest _ _ ?s = _ |- _ =>
      destruct s; cbn [add_manifest] in H; injection H as <- <-
  | H : mark_empty ?s = _ |- _ =>
      destruct s; cbn [mark_empty] in H; injection H as <- <- <-
  | H : mark_failed ?s = _ |- _ =>
      destruct s; cbn [mark_failed] in H; injection H as <- <-
  | H : init_metadata ?e ?s = _ |- _ =>
      destruct s; cbn [init_metadata] in H;
      [| |match type of H with context [contains_by_tag ?x e] => destruct (contains_by_tag x e) eqn:? end|];
      injection H as <- <-
  | H : try_mark_end ?s = _ |- _ =>
      destruct s as [| [? ?] ? ? ? ?| |]; cbn [try_mark_end] in H; injection H as <- <- <-
  | H : retry_manifest _ ?s = _ |- _ =>
      destruct s as [| [? ?] ? ? ? ?|? ? ? [[]|] ? ?|]; cbn [retry_manifest] in H; injection H as <- <-
  | H : mark_cancelled _ _ ?s = _ |- _ =>
      destruct s; cbn [mark_cancelled cancel_help] in H; injection H as <- <-
  | |- context [worker_complete _ _ ?s] => destruct s; cbn [worker_complete]
  end.

Section Proofs.
Context {T M : Type}.
Implicit Types (st : state T M) (r : run_id) (s : run_state T M).

Lemma get_put r r' s m : get (T := T) (M := M) r' (put r s m) = if Nat.eqb r r' then Some s else get r' m.
Proof.
  induction m as [|[r0 s0] m IH]; simpl.
  - destruct (Nat.eqb_spec r r'); auto.
  - destruct (Nat.eqb_spec r0 r); simpl.
    + subst. destruct (Nat.eqb_spec r r'); auto.
    + rewrite IH. destruct (Nat.eqb_spec r0 r'), (Nat.eqb_spec r r'); subst; congruence.
Qed.

Inductive effect st r : option (run_state T M) -> list (obs T M) -> Prop :=
| EfNone : effect st r (get r (s_runs st)) []
| EfLoad sv : get r (s_runs st) = None -> effect st r (Some (loaded_run sv)) []
| EfFresh k p now : get r (s_runs st) = None -> nth_error (s_reqs st) k = Some (QFind p FRemote) -> fp_run p = r ->
    effect st r (Some (fresh_run now p)) [OAssigned p (AssignedRun (Fresh true) false)]
| EfFatal p : fp_run p = r -> effect st r (get r (s_runs st)) [OAssigned p FatalError]
| EfUnknown k p : get r (s_runs st) = None -> nth_error (s_reqs st) k = Some (QFind p FLookup) -> fp_run p = r ->
    effect st r (get r (s_runs st)) [OAssigned p RunUnknown]
| EfLookup p now s s' a : get r (s_runs st) = Some s -> fp_run p = r -> find_lookup now p s = (s', a) ->
    effect st r (Some s') [OAssigned p a]
| EfManifest flat meta s s' ok : get r (s_runs st) = Some s -> busy st r = false -> flat <> [] ->
    add_manifest flat meta s = (s', ok) ->
    effect st r (Some s') [OManifest r (length flat) ok]
| EfEmpty s s' d ok : get r (s_runs st) = Some s -> busy st r = false -> mark_empty s = (s', d, ok) ->
    effect st r (Some s') [OManifest r 0 ok]
| EfFailed s s' d : get r (s_runs st) = Some s -> busy st r = false -> mark_failed s = (s', d) ->
    effect st r (Some s') [OManifestFailed r]
| EfPanic : get r (s_runs st) = None -> effect st r None [OPanic r]
| EfMeta e s s' a : get r (s_runs st) = Some s -> init_metadata e s = (s', a) ->
    effect st r (Some s') [OMetadata r e a]
| EfAsk e c js m b active h : get r (s_runs st) = Some (HasWork (c, js) m b active h) ->
    effect st r (Some (HasWork (c, JobQueueModel.step c js (Arrive (en_tag e) b)) m b
                         (insert_by_tag_if_missing e None active) h))
      [OAsk (length (s_reqs st)) r e]
| EfAskDone e ec m seen mp h old : get r (s_runs st) = Some (Done ec m seen mp h old) ->
    effect st r (Some (Done ec m (insert_by_tag_if_missing e true seen) mp h old))
      [OAsk (length (s_reqs st)) r e; OWork (length (s_reqs st)) r e [] true None]
| EfAskOther e s : get r (s_runs st) = Some s -> (phase_of_state s = PhWaiting \/ phase_of_state s = PhCancelled) ->
    effect st r (Some s) [OAsk (length (s_reqs st)) r e; OWork (length (s_reqs st)) r e [] true None]
| EfQueueStep k e j c js m b active h : get r (s_runs st) = Some (HasWork (c, js) m b active h) ->
    nth_error (s_reqs st) k = Some (QNext r e (NPull j)) ->
    effect st r (Some (HasWork (c, JobQueueModel.step c js (Step j)) m b active h)) []
| EfAnswer k e j c js m b active h t : get r (s_runs st) = Some (HasWork (c, js) m b active h) ->
    nth_error (s_reqs st) k = Some (QNext r e (NPull j)) ->
    nth_error (st_threads js) j = Some t -> status_of c t = Some MoreTestsRemaining ->
    effect st r (Some (HasWork (c, js) m b active h)) [OWork k r e (bundle c t) false None]
| EfEnd k e j ts s s' d p : get r (s_runs st) = Some s -> busy st r = false ->
    nth_error (s_reqs st) k = Some (QNext r e (NEnd j ts)) -> try_mark_end s = (s', d, p) ->
    effect st r (Some s') [OWork k r e ts true p]
| EfRetryNone e : get r (s_runs st) = None -> effect st r None [ORetry r e RRunDoesNotExist]
| EfRetry e s s' a : get r (s_runs st) = Some s -> retry_manifest e s = (s', a) ->
    effect st r (Some s') [ORetry r e a]
| EfComplete e now s : get r (s_runs st) = Some s -> effect st r (Some (worker_complete e now s)) [OCompleted r e]
| EfCancel e s s' d : get r (s_runs st) = Some s -> busy st r = false -> mark_cancelled e CRUser s = (s', d) ->
    effect st r (Some s') [OCancel r e]
| EfPersisted ec m seen b h old : get r (s_runs st) = Some (Done ec m seen (MPersisted b) h old) ->
    effect st r (Some (Done ec m seen (MPersisted true) h old)) []
| EfTimeoutNone last : get r (s_runs st) = None -> effect st r None [OTimeout r last None]
| EfTimeoutOk last s : get r (s_runs st) = Some s -> is_cancel (query_progress last s) = false ->
    effect st r (Some s) [OTimeout r last (Some (query_progress last s))]
| EfTimeoutCancel k last s : get r (s_runs st) = Some s -> busy st r = false ->
    nth_error (s_reqs st) k = Some (QTimeout r last false) ->
    is_cancel (query_progress last s) = true ->
    effect st r (Some (Cancelled CRManifestHadNoProgress (queue_of s))) [OTimeout r last (Some (query_progress last s))]
| EfStatus : effect st r (get r (s_runs st)) [OStatus r (option_map get_run_status (get r (s_runs st)))].

Lemma filter_about_app r (l1 l2 : list (obs T M)) : filter (about r) (l1 ++ l2) = filter (about r) l1 ++ filter (about r) l2.
Proof. apply filter_app. Qed.

Lemma step_effect st ev r :
  exists os, effect st r (get r (s_runs (step st ev))) os /\ history (step st ev) r = history st r ++ os.
Proof.
  assert (Hsame : forall st', get r (s_runs st') = get r (s_runs st) -> history st' r = history st r ->
     exists os, effect st r (get r (s_runs st')) os /\ history st' r = history st r ++ os).
  { intros st' H1 H2. exists []. rewrite H1, app_nil_r. split; auto. constructor. }
  assert (Hrun : forall r0 s' d os, 
     (r0 = r -> effect st r (Some s') os) ->
     (r0 = r -> filter (about r) os = os) -> (r0 <> r -> filter (about r) os = []) ->
     exists os', effect st r (get r (put r0 s' (s_runs st))) os' /\
        filter (about r) (s_log (set_run st r0 s' d os)) = history st r ++ os').
  { intros r0 s' d os He Hf Hn. simpl. rewrite filter_app, get_put.
    destruct (Nat.eqb_spec r0 r) as [E|E].
    - exists os. rewrite Hf by auto. split; auto.
    - exists []. rewrite Hn by auto. split; auto. constructor. }
  assert (Hsay : forall r0 os, 
     (r0 = r -> effect st r (get r (s_runs st)) os) ->
     (r0 = r -> filter (about r) os = os) -> (r0 <> r -> filter (about r) os = []) ->
     exists os', effect st r (get r (s_runs st)) os' /\
        filter (about r) (s_log (say st os)) = history st r ++ os').
  { intros r0 os He Hf Hn. simpl. rewrite filter_app.
    destruct (Nat.eqb_spec r0 r) as [E|E].
    - exists os. rewrite Hf by auto. split; auto.
    - exists []. rewrite Hn by auto. split; auto. constructor. }
  assert (Ab : forall r0 : run_id, Nat.eqb r0 r0 = true) by (intros; apply Nat.eqb_refl).
  assert (An : forall r0 : run_id, r0 <> r -> Nat.eqb r0 r = false) by (intros; now apply Nat.eqb_neq).
  Ltac fin r0 := 
    intros; subst; simpl; unfold about; simpl;
    repeat match goal with H : _ <> _ |- _ => apply Nat.eqb_neq in H; rewrite H end;
    rewrite ?Nat.eqb_refl; auto.
  unfold step; destruct ev; unfold exclusive.
  - (* EFind *) destruct (Nat.eqb (fp_batch p) 0); apply Hsame; reflexivity.
  - (* EFindRemote *)
    destruct (nth_error (s_reqs st) k) as [[p [] |? ? ?|? ? ?]|] eqn:Eq; try (apply Hsame; reflexivity).
    destruct a as [sv| | |].
    + destruct (get (fp_run p) (s_runs st)) eqn:Eg; [apply Hsame; reflexivity|].
      apply (Hrun (fp_run p) (loaded_run sv) 0%Z []); fin (fp_run p). constructor; auto.
    + destruct (get (fp_run p) (s_runs st)) eqn:Eg; [apply Hsame; reflexivity|].
      apply (Hrun (fp_run p) (fresh_run now p) 1%Z); fin (fp_run p). econstructor; eauto.
    + destruct (get (fp_run p) (s_runs st)) eqn:Eg; [apply Hsame; reflexivity|].
      apply (Hrun (fp_run p) (fresh_run now p) 1%Z); fin (fp_run p). econstructor; eauto.
    + apply (Hsay (fp_run p)); fin (fp_run p). econstructor; eauto.
  - (* EFindLookup *)
    destruct (nth_error (s_reqs st) k) as [[p [] |? ? ?|? ? ?]|] eqn:Eq; try (apply Hsame; reflexivity).
    destruct (get (fp_run p) (s_runs st)) as [s|] eqn:Eg.
    + destruct (find_lookup now p s) as [s' a] eqn:Ef.
      apply (Hrun (fp_run p) s' 0%Z); fin (fp_run p). econstructor; eauto.
    + apply (Hsay (fp_run p)); fin (fp_run p). eapply EfUnknown; eauto.
  - (* EManifest *)
    destruct (get r0 (s_runs st)) as [s|] eqn:Eg.
    + destruct (busy st r0) eqn:Eb; [apply Hsame; reflexivity|].
      destruct flat as [|x flat].
      * destruct (mark_empty s) as [[s' d] ok] eqn:Ef.
        apply (Hrun r0 s' d); fin r0. eapply EfEmpty; eauto.
      * destruct (add_manifest (x :: flat) meta s) as [s' ok] eqn:Ef.
        apply (Hrun r0 s' 0%Z); fin r0. eapply (EfManifest st r (x :: flat)); eauto. discriminate.
    + apply (Hsay r0); fin r0. rewrite Eg. constructor; auto.
  - (* EManifestFailed *)
    destruct (get r0 (s_runs st)) as [s|] eqn:Eg.
    + destruct (busy st r0) eqn:Eb; [apply Hsame; reflexivity|].
      destruct (mark_failed s) as [s' d] eqn:Ef.
      apply (Hrun r0 s' d); fin r0. eapply EfFailed; eauto.
    + apply (Hsay r0); fin r0. rewrite Eg. constructor; auto.
  - (* EInitMetadata *)
    destruct (get r0 (s_runs st)) as [s|] eqn:Eg.
    + destruct (init_metadata e s) as [s' a] eqn:Ef.
      apply (Hrun r0 s' 0%Z); fin r0. eapply EfMeta; eauto.
    + apply (Hsay r0); fin r0. rewrite Eg. constructor; auto.
  - (* ENext *)
    destruct (get r0 (s_runs st)) as [[conns b sg h|[c js] m b active h|ec m seen mp h old|rr old]|] eqn:Eg.
    + apply (Hsay r0); fin r0. rewrite Eg. eapply EfAskOther; eauto.
    + eapply (Hrun r0 _ 0%Z); fin r0. eapply EfAsk; eauto.
    + eapply (Hrun r0 _ 0%Z); fin r0. eapply EfAskDone; eauto.
    + apply (Hsay r0); fin r0. rewrite Eg. eapply EfAskOther; eauto.
    + apply (Hsay r0); fin r0. rewrite Eg. constructor; auto.
  - (* EQueueStep *)
    destruct (nth_error (s_reqs st) k) as [[|r0 e [j|j ts|j]|]|] eqn:Eq; try (apply Hsame; reflexivity).
    destruct (get r0 (s_runs st)) as [[| [c js] m b active h| |]|] eqn:Eg; try (apply Hsame; reflexivity).
    apply (Hrun r0 _ 0%Z []); fin r0. eapply EfQueueStep; eauto.
  - (* ENextFinish *)
    destruct (nth_error (s_reqs st) k) as [[|r0 e [j|j ts|j]|]|] eqn:Eq; try (apply Hsame; reflexivity).
    + destruct (get r0 (s_runs st)) as [[| [c js] m b active h| |]|] eqn:Eg; try (apply Hsame; reflexivity).
      destruct (nth_error (st_threads js) j) as [t|] eqn:Et; [|apply Hsame; reflexivity].
      destruct (status_of c t) as [[]|] eqn:Es; try (apply Hsame; reflexivity).
      apply (Hsay r0); fin r0. rewrite Eg. eapply EfAnswer; eauto.
    + destruct (get r0 (s_runs st)) as [s|] eqn:Eg.
      * destruct (busy st r0) eqn:Eb; [apply Hsame; reflexivity|].
        destruct (try_mark_end s) as [[s' d] p] eqn:Ef.
        apply (Hrun r0 s' d); fin r0. eapply EfEnd; eauto.
      * apply (Hsay r0); fin r0. rewrite Eg. constructor; auto.
  - (* ERetryManifest *)
    destruct (get r0 (s_runs st)) as [s|] eqn:Eg.
    + destruct (retry_manifest e s) as [s' a] eqn:Ef.
      apply (Hrun r0 s' 0%Z); fin r0. eapply EfRetry; eauto.
    + apply (Hsay r0); fin r0. rewrite Eg. constructor; auto.
  - (* EWorkerComplete *)
    destruct (get r0 (s_runs st)) as [s|] eqn:Eg; [|apply Hsame; reflexivity].
    eapply (Hrun r0 _ 0%Z); fin r0. eapply EfComplete; eauto.
  - (* ECancel *)
    destruct (get r0 (s_runs st)) as [s|] eqn:Eg.
    + destruct (busy st r0) eqn:Eb; [apply Hsame; reflexivity|].
      destruct (mark_cancelled e CRUser s) as [s' d] eqn:Ef.
      apply (Hrun r0 s' d); fin r0. eapply EfCancel; eauto.
    + apply (Hsay r0); fin r0. rewrite Eg. constructor; auto.
  - (* EPersisted *)
    destruct (get r0 (s_runs st)) as [[| |ec m seen [b|] h old|]|] eqn:Eg; try (apply Hsame; reflexivity).
    apply (Hrun r0 _ 0%Z []); fin r0. eapply EfPersisted; eauto.
  - (* ETimer *)
    destruct (nth_error (s_timers st) i) as [[r0 last]|] eqn:Et; [|apply Hsame; reflexivity].
    destruct (get r0 (s_runs st)) as [s|] eqn:Eg.
    + destruct (query_progress last s) eqn:Eqp.
      1,2: apply Hsame; unfold history; simpl; rewrite ?app_nil_r; reflexivity.
      * unfold say, mk; unfold history; simpl. rewrite app_nil_r. 
        apply (Hsay r0); fin r0. rewrite Eg, <- Eqp. apply EfTimeoutOk; auto. now rewrite Eqp.
      * unfold say, mk; unfold history; simpl. rewrite app_nil_r. 
        apply (Hsay r0); fin r0. rewrite Eg, <- Eqp. apply EfTimeoutOk; auto. now rewrite Eqp.
    + unfold say, mk; unfold history; simpl. rewrite app_nil_r. 
      apply (Hsay r0); fin r0. rewrite Eg. apply EfTimeoutNone; auto.
  - (* ETimerCancel *)
    destruct (nth_error (s_reqs st) k) as [[| |r0 last []]|] eqn:Eq; try (apply Hsame; reflexivity).
    destruct (get r0 (s_runs st)) as [s|] eqn:Eg.
    + destruct (busy st r0) eqn:Eb; [apply Hsame; reflexivity|].
      destruct (is_cancel (query_progress last s)) eqn:Ec.
      * unfold cancel_help. eapply (Hrun r0 _ (-1)%Z); fin r0. eapply EfTimeoutCancel; eauto.
      * destruct (query_progress last s) eqn:Eqp; simpl in Ec; try discriminate.
        -- apply (Hsay r0); fin r0. rewrite Eg, <- Eqp. apply EfTimeoutOk; auto. now rewrite Eqp.
        -- apply (Hsay r0); fin r0. rewrite Eg, <- Eqp. apply EfTimeoutOk; auto. now rewrite Eqp.
    + apply (Hsay r0); fin r0. rewrite Eg. constructor; auto.
  - (* EStatus *)
    apply (Hsay r0); fin r0. constructor.
  - apply Hsame; unfold history; simpl; rewrite ?filter_app; simpl; rewrite ?app_nil_r; reflexivity.
Qed.

End Proofs.
