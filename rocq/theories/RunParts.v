(* Who takes part in a run, with which parameters, and why it was cancelled. *)
From Verif Require Import Base JobQueueModel WorkerSetModel RunModel RunSpec RunProofs RunInv RunNext RunLemmas.
From Verif Require WorkerSetSpec WorkerSetProofs JobQueueSpec JobQueueProofs JobQueueLemmas.
Notation tags := WorkerSetSpec.tags.

Lemma in_tags_insert {A} t e (v : A) (s : wset A) : In t (tags (insert_by_tag e v s)) <-> en_tag e = t \/ In t (tags s).
Proof.
  rewrite WorkerSetProofs.tags_insert. destruct (contains_by_tag s e) eqn:E.
  - apply WorkerSetProofs.contains_tags in E. split; auto. intros [<-|]; auto.
  - rewrite in_app_iff. simpl. tauto.
Qed.

Lemma in_tags_insert_if_missing {A} t e (v : A) (s : wset A) :
  In t (tags (insert_by_tag_if_missing e v s)) <-> en_tag e = t \/ In t (tags s).
Proof.
  rewrite WorkerSetProofs.tags_insert_if_missing. destruct (contains_by_tag s e) eqn:E.
  - apply WorkerSetProofs.contains_tags in E. split; auto. intros [<-|]; auto.
  - rewrite in_app_iff. simpl. tauto.
Qed.

Lemma in_tags_fold {A B} t (v : B) (conns : wset A) : forall acc,
  In t (tags (fold_left (fun a p => insert_by_tag (fst p) v a) conns acc)) <-> In t (tags conns) \/ In t (tags acc).
Proof.
  induction conns as [|p conns IH]; intros acc; simpl; [tauto|].
  rewrite IH, in_tags_insert. tauto.
Qed.

Lemma in_tags_from_iter {A} t (l : list (entity * A)) :
  In t (tags (from_iter l)) <-> In t (map (fun p => en_tag (fst p)) l).
Proof.
  unfold from_iter. 
  assert (H : forall acc, In t (tags (fold_left (fun s p => insert_by_tag (fst p) (snd p) s) l acc)) <->
      In t (map (fun p => en_tag (fst p)) l) \/ In t (tags acc)).
  { induction l as [|p l IH]; intros acc; simpl; [tauto|]. rewrite IH, in_tags_insert. tauto. }
  rewrite H. simpl. tauto.
Qed.

Lemma in_tags_map {A B} t (f : A -> B) (l : wset A) :
  In t (tags (from_iter (map (fun p => (fst p, f (snd p))) l))) <-> In t (tags l).
Proof. rewrite in_tags_from_iter, map_map. unfold tags. simpl. tauto. Qed.

Ltac solve_unknown := solve [exfalso; eapply unknown_impossible; eauto].
Ltac brk :=
  repeat (match goal with |- context [match ?x with _ => _ end] =>
            match x with context [match _ with _ => _ end] => fail 1 | _ => destruct x eqn:? end
          end; simpl in *).

Section Parts.
Context {T M : Type}.
Implicit Types (st : state T M) (r : run_id) (s : run_state T M) (h : list (obs T M)).

Lemma spoke_app t h os : spoke t (h ++ os) <-> spoke t h \/ spoke t os.
Proof.
  unfold spoke. split.
  - intros (o & e & H & H1 & H2). apply in_app_iff in H as [H|H]; [left|right]; eauto.
  - intros [(o & e & H & H1 & H2)|(o & e & H & H1 & H2)]; exists o, e; rewrite in_app_iff; auto.
Qed.
Lemma placed_app t h os : was_placed t (h ++ os) <-> was_placed t h \/ was_placed t os.
Proof.
  unfold was_placed. split.
  - intros (p & k & d & H & H1). apply in_app_iff in H as [H|H]; [left|right]; eauto.
  - intros [(p & k & d & H & H1)|(p & k & d & H & H1)]; exists p, k, d; rewrite in_app_iff; auto.
Qed.
Lemma placed_nil t : ~ was_placed t ([] : list (obs T M)).
Proof. intros (p & k & d & [] & _). Qed.
Lemma placed_other t (o : obs T M) : is_assignment o = false -> ~ was_placed t [o].
Proof. intros H (p & k & d & [->|[]] & _). discriminate. Qed.
Lemma placed_other2 t (o o' : obs T M) : is_assignment o = false -> is_assignment o' = false -> ~ was_placed t [o; o'].
Proof. intros H H' (p & k & d & [->|[->|[]]] & _); discriminate. Qed.
Lemma placed_one t p a : was_placed t [@OAssigned T M p a] <-> en_tag (fp_entity p) = t /\ exists k d, a = AssignedRun k d.
Proof.
  split.
  - intros (p' & k & d & [H|[]] & H1). injection H as -> ->. eauto.
  - intros (H & k & d & ->). exists p, k, d. simpl; auto.
Qed.
Lemma spoke_one t (o : obs T M) os e : obs_entity o = Some e -> en_tag e = t -> spoke t (o :: os).
Proof. intros H1 H2. exists o, e. simpl; auto. Qed.

Definition pinv (o : option (run_state T M)) h : Prop :=
  match o with
  | None => forall t, ~ was_placed t h
  | Some (Waiting conns _ _ _) =>
      forall t, (was_placed t h -> In t (tags conns)) /\ (In t (tags conns) -> spoke t h)
  | Some (HasWork _ _ _ active _) =>
      forall t, (was_placed t h -> In t (tags active)) /\ (In t (tags active) -> spoke t h)
  | Some (Done _ _ seen mp _ _) =>
      (forall t, (was_placed t h -> mp = MEmpty \/ In t (tags seen)) /\
                 (In t (tags seen) -> spoke t h \/ count told_to_generate h = 0)) /\
      (mp = MEmpty -> exists r, In (OManifest r 0 true) h)
  | Some (Cancelled reason _) => reason_seen reason h
  end.

Lemma reason_app c h os : reason_seen c h -> reason_seen c (h ++ os).
Proof.
  destruct c; simpl.
  - intros (r & e & H). exists r, e. apply in_app_iff; auto.
  - intros (r & l & p & H & H'). exists r, l, p. split; auto. apply in_app_iff; auto.
  - intros (r & H). exists r. apply in_app_iff; auto.
Qed.

Lemma pinv_ok r st : reachable st -> pinv (get r (s_runs st)) (history st r).
Proof.
  apply (history_ind r pinv).
  - intros t. apply placed_nil.
  - intros st0 os o' HR IH He.
    assert (Hgi := gen_inv r st0 HR).
    assert (Hone : forall t e (o : obs T M) l, obs_entity o = Some e -> en_tag e = t -> spoke t (o :: l))
      by (intros; eapply spoke_one; eauto).
    (* adding observations that place nobody and generate nothing *)
    assert (Hkeep : forall os, (forall t, ~ was_placed t os) -> count told_to_generate os = 0 ->
       pinv (get r (s_runs st0)) (history st0 r) -> pinv (get r (s_runs st0)) (history st0 r ++ os)).
    { intros os0 Hp Hc H. unfold pinv in *. destruct (get r (s_runs st0)) as [[| |ec m seen mp hh old|]|].
      - intros t. rewrite placed_app, spoke_app. specialize (H t); specialize (Hp t). tauto.
      - intros t. rewrite placed_app, spoke_app. specialize (H t); specialize (Hp t). tauto.
      - destruct H as [H1 H2]. split.
        + intros t. rewrite placed_app, spoke_app, count_app, Hc, Nat.add_0_r. specialize (H1 t); specialize (Hp t). tauto.
        + intros E. destruct (H2 E) as [r' H']. exists r'. apply in_app_iff; auto.
      - now apply reason_app.
      - intros t. rewrite placed_app. specialize (H t); specialize (Hp t). tauto. }
    destruct He; try solve_unknown.
    + rewrite app_nil_r. auto.
    + rewrite app_nil_r. rewrite H in IH, Hgi. simpl in IH |- *. split; [|discriminate].
      intros t. split; [intros Hp; exfalso; eapply IH; eauto|]. intros _. right. apply Hgi.
    + rewrite H in IH. simpl in IH |- *. intros t. rewrite placed_app, placed_one, spoke_app.
      specialize (IH t). split.
      * intros [Hp|[Hp _]]; [tauto|auto].
      * intros [Hp|[]]. right. eapply Hone; simpl; eauto.
    + apply Hkeep; auto. intros t. rewrite placed_one. intros (_ & k & d & E); discriminate.
    + (* lookup *)
      rewrite H in IH. op_cases; simpl in IH |- *.
      * intros t. rewrite placed_app, placed_one, spoke_app, in_tags_insert. specialize (IH t). split; [tauto|].
        intros [E|E]; [right; eapply Hone; simpl; eauto|tauto].
      * intros t. rewrite placed_app, placed_one, spoke_app, in_tags_insert. specialize (IH t). split; [tauto|].
        intros [E|E]; [right; eapply Hone; simpl; eauto|tauto].
      * destruct IH as [IH1 IH2]. split.
        -- intros t. rewrite placed_app, placed_one, spoke_app, count_app. specialize (IH1 t). split.
           ++ intros [Hp|(E & k & d & Ha)]; [tauto|]. right.
              destruct (contains_by_tag seen (fp_entity p)) eqn:Ec; [|discriminate].
              apply WorkerSetProofs.contains_tags in Ec. now rewrite <- E.
           ++ intros Hin. destruct IH1 as [_ IH1]. specialize (IH1 Hin) as [|Hc]; auto.
              right. rewrite Hc. destruct (contains_by_tag seen (fp_entity p)); reflexivity.
        -- intros E. destruct (IH2 E) as [r' H']. exists r'. apply in_app_iff; auto.
      * now apply reason_app.
    + (* a manifest *)
      assert (Hnp : forall b t, ~ was_placed t [OManifest (T := T) (M := M) r (length flat) b])
        by (intros; now apply placed_other).
      destruct s; cbn [add_manifest] in *; match goal with E : (_, _) = (_, _) |- _ => injection E as <- <- end;
        try (rewrite <- H; apply Hkeep; auto; fail).
      rewrite H in IH. simpl in IH |- *. intros t. rewrite in_tags_fold, placed_app, spoke_app.
      specialize (IH t). specialize (Hnp true t). simpl. tauto.
    + (* an empty manifest *)
      assert (Hnp : forall b t, ~ was_placed t [OManifest (T := T) (M := M) r 0 b])
        by (intros; now apply placed_other).
      destruct s; cbn [mark_empty] in *; match goal with E : (_, _) = (_, _) |- _ => injection E as <- <- <- end;
        try (rewrite <- H; apply Hkeep; auto; fail).
      simpl. split.
      * intros t. split; [auto|intros []].
      * intros _. exists r. apply in_app_iff. simpl; auto.
    + (* no manifest *)
      assert (Hnp : forall t, ~ was_placed t [OManifestFailed (T := T) (M := M) r])
        by (intros; now apply placed_other).
      destruct s; cbn [mark_failed] in *; match goal with E : (_, _) = (_, _) |- _ => injection E as <- <- end;
        try (rewrite <- H; apply Hkeep; auto; fail).
      simpl. exists r. apply in_app_iff. simpl; auto.
    + rewrite <- H. apply Hkeep; auto. intros; now apply placed_other.
    + (* init metadata *)
      assert (Hnp : forall t, ~ was_placed t [OMetadata (T := T) (M := M) r e a])
        by (intros; now apply placed_other).
      destruct s; cbn [init_metadata] in *;
        try (match goal with E : (_, _) = (_, _) |- _ => injection E as <- <- end; rewrite <- H; apply Hkeep; auto; fail).
      destruct (contains_by_tag seen e) eqn:Ec;
        match goal with E : (_, _) = (_, _) |- _ => injection E as <- <- end;
        [|rewrite <- H; apply Hkeep; auto; fail].
      rewrite H in IH, Hkeep. specialize (Hkeep _ Hnp eq_refl IH). simpl in Hkeep |- *.
      destruct Hkeep as [IH1 IH2]. split; auto. intros t. rewrite in_tags_insert. specialize (IH1 t).
      split; [tauto|]. intros [<-|]; [|tauto]. left. rewrite spoke_app. right. eapply Hone; simpl; eauto.
    + assert (Hnp : forall t, ~ was_placed t [OAsk (T := T) (M := M) (length (s_reqs st0)) r e])
        by (intros; now apply placed_other).
      rewrite H in IH, Hkeep. specialize (Hkeep _ Hnp eq_refl IH). simpl in Hkeep |- *.
      intros t. rewrite in_tags_insert_if_missing. specialize (Hkeep t).
      split; [tauto|]. intros [<-|]; [|tauto]. rewrite spoke_app. right. eapply Hone; simpl; eauto.
    + assert (Hnp : forall t, ~ was_placed t [OAsk (T := T) (M := M) (length (s_reqs st0)) r e; OWork (length (s_reqs st0)) r e [] true None])
        by (intros; now apply placed_other2).
      rewrite H in IH, Hkeep. specialize (Hkeep _ Hnp eq_refl IH). simpl in Hkeep |- *.
      destruct Hkeep as [IH1 IH2]. split; auto. intros t. rewrite in_tags_insert_if_missing. specialize (IH1 t).
      split; [tauto|]. intros [<-|]; [|tauto]. left. rewrite spoke_app. right. eapply Hone; simpl; eauto.
    + rewrite <- H. apply Hkeep; auto. intros; now apply placed_other2.
    + rewrite app_nil_r. rewrite H in IH. exact IH.
    + rewrite H in IH, Hkeep. apply Hkeep; auto. intros; now apply placed_other.
    + (* the end *)
      assert (Hnp : forall t, ~ was_placed t [OWork (T := T) (M := M) k r e ts true p])
        by (intros; now apply placed_other).
      destruct s as [|[? ?] ? ? ? ?| |]; cbn [try_mark_end] in *; match goal with E : (_, _) = (_, _) |- _ => injection E as <- <- <- end;
        try (rewrite <- H; apply Hkeep; auto; fail).
      rewrite H in IH. simpl in IH |- *. split; [|discriminate].
      intros t. rewrite placed_app, spoke_app.
      rewrite (in_tags_map t (fun v : option nat => match v with None => true | Some _ => false end)).
      specialize (IH t). specialize (Hnp t). tauto.
    + rewrite <- H. apply Hkeep; auto. intros; now apply placed_other.
    + (* retry manifest *)
      assert (Hnp : forall t, ~ was_placed t [ORetry (T := T) (M := M) r e a])
        by (intros; now apply placed_other).
      destruct s as [|[? ?] ? ? ? ?|? ? ? [[]|] ? ?|]; cbn [retry_manifest] in *;
        match goal with E : (_, _) = (_, _) |- _ => injection E as <- <- end;
        try (rewrite <- H; apply Hkeep; auto; fail).
      * rewrite H in IH, Hkeep. specialize (Hkeep _ Hnp eq_refl IH). simpl in Hkeep |- *.
        intros t. rewrite in_tags_insert. specialize (Hkeep t).
        split; [tauto|]. intros [<-|]; [|tauto]. rewrite spoke_app. right. eapply Hone; simpl; eauto.
      * rewrite H in IH, Hkeep. specialize (Hkeep _ Hnp eq_refl IH). simpl in Hkeep |- *.
        destruct Hkeep as [IH1 IH2]. split; auto. intros t. rewrite in_tags_insert. specialize (IH1 t).
        split; [tauto|]. intros [<-|]; [|tauto]. left. rewrite spoke_app. right. eapply Hone; simpl; eauto.
    + (* complete *)
      assert (Hnp : forall t, ~ was_placed t [OCompleted (T := T) (M := M) r e])
        by (intros; now apply placed_other).
      rewrite H in IH, Hkeep. specialize (Hkeep _ Hnp eq_refl IH).
      destruct s; cbn [worker_complete]; auto; simpl in Hkeep |- *.
      * intros t. rewrite in_tags_insert. specialize (Hkeep t).
        split; [tauto|]. intros [<-|]; [|tauto]. rewrite spoke_app. right. eapply Hone; simpl; eauto.
      * destruct Hkeep as [IH1 IH2]. split; auto. intros t. rewrite in_tags_insert. specialize (IH1 t).
        split; [tauto|]. intros [<-|]; [|tauto]. left. rewrite spoke_app. right. eapply Hone; simpl; eauto.
    + (* cancel *)
      assert (Hnp : forall t, ~ was_placed t [OCancel (T := T) (M := M) r e])
        by (intros; now apply placed_other).
      rewrite H in IH, Hkeep. specialize (Hkeep _ Hnp eq_refl IH).
      destruct s; cbn [mark_cancelled] in *; unfold cancel_help in *; match goal with E : (_, _) = (_, _) |- _ => injection E as <- <- end;
        try (simpl; exists r, e; apply in_app_iff; simpl; auto; fail).
      simpl in Hkeep |- *.
      destruct Hkeep as [IH1 IH2]. split; auto. intros t. rewrite in_tags_insert. specialize (IH1 t).
      split; [tauto|]. intros [<-|]; [|tauto]. left. rewrite spoke_app. right. eapply Hone; simpl; eauto.
    + (* persisted *)
      rewrite app_nil_r. rewrite H in IH. simpl in IH |- *. destruct IH as [IH1 IH2]. split; [|discriminate].
      intros t. specialize (IH1 t). split; [|tauto]. intros Hp. destruct (proj1 IH1 Hp) as [|]; [discriminate|auto].
    + rewrite <- H. apply Hkeep; auto. intros; now apply placed_other.
    + rewrite <- H. apply Hkeep; auto. intros; now apply placed_other.
    + simpl. exists r, last, (query_progress last s). split; [apply in_app_iff; simpl; auto|].
      destruct (query_progress last s); simpl in *; try discriminate; auto.
    + apply Hkeep; auto. intros; now apply placed_other.
Qed.

(* The parameters the first worker gave. *)
Definition thr_n (q : queue (T := T)) n := forall t, In t (st_threads (snd q)) -> th_n t = n.
Definition ginv (o : option (run_state T M)) h : Prop :=
  forall p d, In (OAssigned p (AssignedRun (Fresh true) d)) h ->
  let n := Nat.min (fp_batch p) MAX_BATCH_SIZE in
  match o with
  | None => False
  | Some (Waiting _ b sg hh) => b = n /\ sg = fp_strategy p /\ hh = fp_hash p
  | Some (HasWork q _ b _ hh) => b = n /\ cf_strategy (fst q) = fp_strategy p /\ hh = fp_hash p /\ thr_n q n
  | Some (Done ec _ _ _ hh old) => ec = 0 /\ hh = Some (fp_hash p) /\
      match old with Some q => cf_strategy (fst q) = fp_strategy p /\ thr_n q n | None => True end
  | Some (Cancelled _ old) =>
      match old with Some q => cf_strategy (fst q) = fp_strategy p /\ thr_n q n | None => True end
  end.

Lemma thr_step c js ev n : (forall w m, ev = Arrive w m -> m = n) ->
  thr_n (c, js) n -> thr_n (c, JobQueueModel.step c js ev) n.
Proof.
  unfold thr_n; simpl. intros Hev H t. destruct ev as [w m|k]; simpl.
  - destruct (Nat.eqb m 0); auto. simpl. rewrite in_app_iff. intros [|[<-|[]]]; auto. simpl. eauto.
  - destruct (nth_error (st_threads js) k) as [u|] eqn:Eu; auto.
    destruct (thread_step c (st_ptr js) (st_owner js) u) as [[? ?] ?]; simpl.
    intros Hin. apply In_nth_error in Hin as [i Hi]. apply nth_upd_inv in Hi as [[-> <-]|[_ Hi]]; simpl;
      eauto using nth_error_In.
Qed.

Lemma clamp_min n : clamp_batch n = Nat.min n MAX_BATCH_SIZE.
Proof. unfold clamp_batch, MAX_BATCH_SIZE. destruct (Nat.ltb_spec 100 n); lia. Qed.

Lemma ginv_ok r st : reachable st -> ginv (get r (s_runs st)) (history st r).
Proof.
  apply (history_ind r ginv).
  - intros p d [].
  - intros st0 os o' HR IH He p d Hin.
    assert (Hgi := gen_inv r st0 HR).
    assert (Hold : In (OAssigned p (AssignedRun (Fresh true) d)) (history st0 r) \/
       (get r (s_runs st0) = None /\ exists now, o' = Some (fresh_run now p))).
    { apply in_app_iff in Hin as [Hin|Hin]; auto. right.
      destruct He; simpl in Hin; repeat (destruct Hin as [Hin|Hin]; try discriminate); try contradiction.
      - injection Hin as -> <-. eauto.
      - op_cases; injection Hin as -> Ha; revert Ha; brk; discriminate. }
    destruct Hold as [Hin'|[Hg [now ->]]].
    2:{ simpl. rewrite clamp_min. auto. }
    specialize (IH p d Hin').
    assert (Hn : get r (s_runs st0) <> None).
    { intros E. rewrite E in IH. exact IH. }
    clear Hin Hin' Hgi.
    destruct He; try congruence; auto;
      try (match goal with H : get _ (s_runs _) = _ |- _ => rewrite H in IH end);
      try (op_cases; simpl in *; intuition (auto; congruence)).
    + (* manifest *) destruct s; cbn [add_manifest] in *; match goal with E : (_, _) = (_, _) |- _ => injection E as <- <- end; simpl in *; auto.
      intuition auto. intros t [].
    + cbv beta iota zeta delta [fst] in *. intuition auto. apply thr_step; auto. intros w m0 [= <- <-]. auto.
    + exact IH.
    + exact IH.
    + cbv beta iota zeta delta [fst] in *. intuition (try (apply thr_step; auto; intros w m0 [=])).
    + exact IH.
    + exact IH.
    + exact IH.
    + simpl in *. destruct s; simpl in *; auto; intuition auto.
Qed.

(* Queues of runs that are over. *)
Lemma not_busy_quiescent st r c js : reachable st -> qa st r = Some (c, js) -> busy st r = false ->
  JobQueueSpec.quiescent js.
Proof.
  intros HR Hq Hb k t Hk. destruct (reachable_inv _ HR) as [_ _ I].
  assert (Hkl : k < length (st_threads js)) by (apply nth_error_Some; congruence).
  destruct (n_sur _ I _ _ _ _ Hq Hkl) as (i & e & pc & Hi & Hth).
  destruct (n_thr _ I _ _ _ _ _ Hi Hth) as (c' & js' & t' & Hq' & Ht' & _ & Hpc).
  rewrite Hq in Hq'. injection Hq' as <- <-. assert (t' = t) by congruence; subst t'.
  right. destruct pc as [j|j ts|o]; simpl in Hpc.
  - exfalso. injection Hth as ->. eapply busy_false; eauto.
  - apply (eow_done c). destruct Hpc; congruence.
  - apply (eow_done c). destruct Hpc; congruence.
Qed.

Lemma closed_not_busy st r : reachable st -> closed st r -> busy st r = false.
Proof.
  intros HR HC. destruct (busy st r) eqn:Eb; auto. exfalso.
  apply busy_true in Eb as (k & e & j & Hk).
  destruct (n_thr _ (i_n _ (reachable_inv _ HR)) _ _ _ _ _ Hk eq_refl) as (c & js & t & _ & _ & _ & b & Ho).
  eapply closed_not_open; eauto.
Qed.

Lemma over_at_end st r : reachable st ->
  match get r (s_runs st) with
  | Some (Done _ _ _ _ _ (Some (c, js))) => is_at_end c js = true
  | _ => True
  end.
Proof.
  apply (history_ind r (fun o _ => match o with
    | Some (Done _ _ _ _ _ (Some (c, js))) => is_at_end c js = true | _ => True end)); auto.
  intros st0 os o' HR IH He.
  destruct He; auto; 
    try (match goal with H : get _ (s_runs _) = _ |- _ => rewrite H in IH end); auto;
    try (op_cases; auto; fail).
  destruct s as [|[c js] ? ? ? ?| |]; cbn [try_mark_end] in *; match goal with E : (_, _) = (_, _) |- _ => injection E as <- <- <- end; auto.
  destruct (reachable_inv _ HR) as [_ _ I].
  destruct (n_thr _ I _ _ _ _ j H1 eq_refl) as (c' & js' & t & Hq & Ht & Htag & Hb & He').
  unfold qa in Hq. rewrite H in Hq. simpl in Hq. injection Hq as <- <-.
  eapply (JobQueueLemmas.eow_all_claimed c js j (th_tag t) (th_n t) (bundle c t)).
  - eapply (n_q _ I r). unfold qa. rewrite H. reflexivity.
  - exists t. auto.
Qed.

(* The plan to persist a run describes it. *)
Lemma plan_inv r st : reachable st -> forall k e ts eow p,
  In (OWork k r e ts eow (Some p)) (history st r) ->
  exists ec m seen mp hh c js, get r (s_runs st) = Some (Done ec m seen mp hh (Some (c, js))) /\
    pl_view p = manifest_view c js /\ sv_exit (pl_state p) = ec /\ sv_meta (pl_state p) = m /\
    sv_hash (pl_state p) = hh.
Proof.
  apply (history_ind r (fun o h => forall k e ts eow p, In (OWork k r e ts eow (Some p)) h ->
    exists ec m seen mp hh c js, o = Some (Done ec m seen mp hh (Some (c, js))) /\
    pl_view p = manifest_view c js /\ sv_exit (pl_state p) = ec /\ sv_meta (pl_state p) = m /\
    sv_hash (pl_state p) = hh)).
  - intros; contradiction.
  - intros st0 os o' HR IH He k e ts eow p Hin.
    apply in_app_iff in Hin as [Hin|Hin].
    + destruct (IH _ _ _ _ _ Hin) as (ec & m & seen & mp & hh & c & js & Hg & H').
      destruct He; try congruence;
        try (match goal with H : get _ (s_runs _) = Some _ |- _ => rewrite Hg in H; injection H; intros; subst end);
        try (repeat eexists; [exact Hg|apply H'..]; fail);
        try (cbn [find_lookup add_manifest mark_empty mark_failed try_mark_end mark_cancelled worker_complete] in *;
             repeat match goal with E : (_, _) = (_, _) |- _ => injection E; intros; subst; clear E end;
             repeat eexists; apply H'; fail).
      * exists ec, m, seen, mp, hh, c, js; auto.
      * exists ec, m, seen, mp, hh, c, js; auto.
      * cbn [init_metadata] in *. destruct (contains_by_tag seen _);
          repeat match goal with E : (_, _) = (_, _) |- _ => injection E; intros; subst; clear E end;
          do 7 eexists; (split; [reflexivity|exact H']).
      * cbn [retry_manifest] in *. destruct mp as [[]|];
          repeat match goal with E : (_, _) = (_, _) |- _ => injection E; intros; subst; clear E end;
          do 7 eexists; (split; [reflexivity|exact H']).
      * discriminate.
      * exists ec, m, seen, mp, hh, c, js; auto.
    + destruct He; simpl in Hin; repeat (destruct Hin as [Hin|Hin]; try discriminate); try contradiction.
      op_cases; injection Hin; intros; subst; try discriminate. repeat eexists.
Qed.

End Parts.
