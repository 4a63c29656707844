(* Next-tests requests against the job queues: the invariant. *)
From Verif Require Import Base JobQueueModel WorkerSetModel RunModel RunSpec RunProofs RunInv.
From Verif Require JobQueueSpec JobQueueProofs JobQueueLemmas.

Lemma NoDup_snoc' {A} (l : list A) x : NoDup l -> ~ In x l -> NoDup (l ++ [x]).
Proof.
  intros H Hx. apply (Permutation.Permutation_NoDup (Permutation.Permutation_cons_append l x)). now constructor.
Qed.

Section Later.
Context {A : Type}.
Implicit Types (c : config A).

(* js' is a later state of the same queue. *)
Definition later c (js js' : JobQueueModel.state) : Prop :=
  forall j t, nth_error (st_threads js) j = Some t ->
    exists t', nth_error (st_threads js') j = Some t' /\ th_tag t' = th_tag t /\ th_n t' = th_n t /\
               (eow_of c t <> None -> t' = t).

Lemma later_refl c js : later c js js.
Proof. intros j t H; eauto. Qed.

Lemma eow_done c t : eow_of c t <> None -> exists s e b, th_pc t = PDone s e b.
Proof.
  unfold eow_of, status_of. destruct (th_pc t) as [| | | |s e b|]; simpl; try congruence. eauto.
Qed.

Lemma later_step c js ev : later c js (JobQueueModel.step c js ev).
Proof.
  intros j t H. destruct ev as [who n|k]; simpl.
  - destruct (Nat.eqb n 0); [eauto|]. simpl. exists t. split; auto.
    rewrite nth_error_app1; auto. apply nth_error_Some; congruence.
  - destruct (nth_error (st_threads js) k) as [u|] eqn:Eu; [|eauto].
    destruct (thread_step c (st_ptr js) (st_owner js) u) as [[p o] pc'] eqn:Ets. simpl.
    rewrite nth_error_upd. destruct (Nat.eqb_spec k j) as [->|Hne]; [|eauto].
    assert (j < length (st_threads js)) by (apply nth_error_Some; congruence).
    destruct (Nat.ltb_spec j (length (st_threads js))); [|lia].
    assert (u = t) by congruence; subst u. eexists; split; [reflexivity|]. simpl. repeat split.
    intros He. apply eow_done in He as (s & e & b & Hpc).
    unfold thread_step in Ets. rewrite Hpc in Ets. injection Ets as <- <- <-. rewrite <- Hpc. now destruct t.
Qed.
End Later.

Section Next.
Context {T M : Type}.
Implicit Types (st : state T M) (r : run_id) (s : run_state T M).

Definition thread_of (pc : next_pc (T := T)) : option nat :=
  match pc with NPull j => Some j | NEnd j _ => Some j | NAnswered o => o end.

Definition work_keys (l : list (obs T M)) : list nat :=
  flat_map (fun o => match o with OWork k _ _ _ _ _ => [k] | _ => [] end) l.

Definition pc_ok st r (c : config (worker_test T)) js t (pc : next_pc (T := T)) : Prop :=
  match pc with
  | NPull _ => exists b, open st r = Some ((c, js), b)
  | NEnd _ ts => bundle c t = ts /\ eow_of c t = Some true
  | NAnswered _ => exists b, eow_of c t = Some b
  end.

Record NInv st : Prop := {
  n_q : forall r c js, qa st r = Some (c, js) -> JobQueueSpec.reachable c js;
  n_ne : forall r c js, qa st r = Some (c, js) -> cf_queue c <> [];
  n_batch : forall r c js t, qa st r = Some (c, js) -> In t (st_threads js) -> th_n t <= MAX_BATCH_SIZE;
  n_thr : forall k r e pc j, nth_error (s_reqs st) k = Some (QNext r e pc) -> thread_of pc = Some j ->
      exists c js t, qa st r = Some (c, js) /\ nth_error (st_threads js) j = Some t /\
                     th_tag t = en_tag e /\ pc_ok st r c js t pc;
  n_inj : forall k k' r e e' pc pc' j, nth_error (s_reqs st) k = Some (QNext r e pc) ->
      nth_error (s_reqs st) k' = Some (QNext r e' pc') ->
      thread_of pc = Some j -> thread_of pc' = Some j -> k = k';
  n_sur : forall r c js j, qa st r = Some (c, js) -> j < length (st_threads js) ->
      exists k e pc, nth_error (s_reqs st) k = Some (QNext r e pc) /\ thread_of pc = Some j;
  n_log : forall k r e ts eow p, In (OWork k r e ts eow p) (s_log st) ->
      exists jo, nth_error (s_reqs st) k = Some (QNext r e (NAnswered jo)) /\
        match jo with
        | None => ts = [] /\ eow = true
        | Some j => exists c js t, qa st r = Some (c, js) /\ nth_error (st_threads js) j = Some t /\
                      bundle c t = ts /\ eow_of c t = Some eow
        end;
  n_logc : forall k r e jo, nth_error (s_reqs st) k = Some (QNext r e (NAnswered jo)) ->
      exists ts eow p, In (OWork k r e ts eow p) (s_log st);
  n_once : NoDup (work_keys (s_log st))
}.

Lemma open_qa st r q b : open st r = Some (q, b) -> qa st r = Some q.
Proof. unfold open, qa. destruct (get r (s_runs st)) as [[]|]; simpl; congruence. Qed.

(* queues only move forward *)
Definition qext st st' : Prop :=
  forall r c js, qa st r = Some (c, js) -> exists js', qa st' r = Some (c, js') /\ later c js js'.

Lemma work_keys_app (l1 l2 : list (obs T M)) : work_keys (l1 ++ l2) = work_keys l1 ++ work_keys l2.
Proof. apply flat_map_app. Qed.

Lemma work_keys_none (os : list (obs T M)) : filter is_owork os = [] -> work_keys os = [].
Proof.
  induction os as [|o os IH]; simpl; auto. destruct o; simpl; auto; discriminate.
Qed.

Lemma in_work_keys k (l : list (obs T M)) : In k (work_keys l) <-> exists r e ts eow p, In (OWork k r e ts eow p) l.
Proof.
  unfold work_keys. rewrite in_flat_map. split.
  - intros (o & Hin & Hk). destruct o; simpl in Hk; try tauto. destruct Hk as [->|[]]. eauto 6.
  - intros (r & e & ts & eow & p & Hin). eexists; split; [exact Hin|]. simpl; auto.
Qed.

Lemma in_not_owork os k r e ts eow p : filter is_owork os = [] -> ~ In (@OWork T M k r e ts eow p) os.
Proof.
  intros H Hin. assert (In (OWork k r e ts eow p) (filter is_owork os)) by (apply filter_In; auto).
  rewrite H in H0. contradiction.
Qed.

Lemma busy_false st r : busy st r = false ->
  forall k e j, nth_error (s_reqs st) k <> Some (QNext r e (NPull j)).
Proof.
  unfold busy. intros H k e j Hn. apply nth_error_In in Hn.
  assert (existsb (pulling r) (s_reqs st) = true); [|congruence].
  apply existsb_exists. eexists; split; [exact Hn|]. simpl. apply Nat.eqb_refl.
Qed.

Lemma busy_true st r : busy st r = true ->
  exists k e j, nth_error (s_reqs st) k = Some (QNext r e (NPull j)).
Proof.
  unfold busy. intros H. apply existsb_exists in H as (q & Hin & Hp).
  destruct q as [|r' e [j| |]|]; simpl in Hp; try discriminate. apply Nat.eqb_eq in Hp; subst.
  apply In_nth_error in Hin as [k Hk]. eauto.
Qed.

Lemma gstep_qext st st' : gstep st st' -> qext st st'.
Proof.
  intros G r0 c0 js0 Hq. destruct G as [Q|? ? ? ? Hn Hqa|? ? ? ? ? Ho Hqa|? ? Hqa|? ? ? ? ? ? ? Hr Ho Hqa
      |? ? ? ? ? ? ? ? Hr Ho Ht He Hqa|? ? ? ? ? ? ? ? Hr Ho Ht He Hqa|? ? ? ? ? ? Hr Hb Hqa];
    try (rewrite Hqa); try (rewrite (qt_qa _ _ Q)); eauto using later_refl.
  - destruct (Nat.eqb_spec r r0); subst; [congruence|eauto using later_refl].
  - destruct (Nat.eqb_spec r r0); subst; [|eauto using later_refl].
    apply open_qa in Ho. rewrite Ho in Hq; injection Hq as <- <-. eauto using later_step.
  - destruct (Nat.eqb_spec r r0); subst; [|eauto using later_refl].
    apply open_qa in Ho. rewrite Ho in Hq; injection Hq as <- <-. eauto using later_step.
Qed.

(* The fields of the invariant that only follow the queues. *)
Lemma n_log_keep st st' k r e ts eow p :
  NInv st -> qext st st' -> In (OWork k r e ts eow p) (s_log st) ->
  (forall jo, nth_error (s_reqs st) k = Some (QNext r e (NAnswered jo)) ->
              nth_error (s_reqs st') k = Some (QNext r e (NAnswered jo))) ->
  exists jo, nth_error (s_reqs st') k = Some (QNext r e (NAnswered jo)) /\
        match jo with
        | None => ts = [] /\ eow = true
        | Some j => exists c js t, qa st' r = Some (c, js) /\ nth_error (st_threads js) j = Some t /\
                      bundle c t = ts /\ eow_of c t = Some eow
        end.
Proof.
  intros I X Hin Hk. destruct (n_log _ I _ _ _ _ _ _ Hin) as (jo & Hr & Hj).
  exists jo. split; auto. destruct jo as [j|]; auto.
  destruct Hj as (c & js & t & Hq & Ht & Hb & He).
  destruct (X _ _ _ Hq) as (js' & Hq' & Hl). destruct (Hl _ _ Ht) as (t' & Ht' & _ & _ & Heq).
  rewrite Heq in Ht' by congruence. exists c, js', t. auto.
Qed.

Lemma n_thr_keep st st' k r e pc j :
  NInv st -> qext st st' -> nth_error (s_reqs st) k = Some (QNext r e pc) -> thread_of pc = Some j ->
  (forall j', pc = NPull j' -> forall q b, open st r = Some (q, b) -> exists b', forall c js, qa st' r = Some (c, js) -> open st' r = Some ((c, js), b')) ->
  exists c js t, qa st' r = Some (c, js) /\ nth_error (st_threads js) j = Some t /\
                     th_tag t = en_tag e /\ pc_ok st' r c js t pc.
Proof.
  intros I X Hk Hj Hop. destruct (n_thr _ I _ _ _ _ _ Hk Hj) as (c & js & t & Hq & Ht & Htag & Hpc).
  destruct (X _ _ _ Hq) as (js' & Hq' & Hl). destruct (Hl _ _ Ht) as (t' & Ht' & Htag' & _ & Heq).
  exists c, js', t'. repeat split; auto; [congruence|].
  destruct pc as [j'|j' ts|o]; simpl in *.
  - destruct Hpc as [b Hb]. destruct (Hop _ eq_refl _ _ Hb) as [b' Hb']. exists b'. apply Hb'; auto.
  - rewrite Heq by (destruct Hpc; congruence). auto.
  - rewrite Heq by (destruct Hpc; congruence). auto.
Qed.

Lemma ninv_step st ev : finv st -> binv st -> NInv st -> NInv (step st ev).
Proof.
  intros F B I.
  assert (G : gstep st (step st ev)).
  { apply step_gstep; [apply F|].
    intros k r e j ts Hk. destruct (n_thr _ I _ _ _ _ j Hk eq_refl) as (c & js & t & Hq & _).
    unfold qa in Hq. destruct (get r (s_runs st)); congruence. }
  assert (X := gstep_qext _ _ G).
  remember (step st ev) as st' eqn:E. clear E.
  destruct G as [Q
     |r c b Hnb Hn Hqa Hne Hop Hreq (os & Hlog & Hos)
     |r e c js b Ho Hqa Hop Hreq (os & Hlog & Hos)
     |r e Hqa Hop Hreq Hlog
     |k r e j c js b Hk Ho Hqa Hop Hreq (os & Hlog & Hos)
     |k r e j c js b t Hk Ho Ht He Hqa Hop Hreq Hlog
     |k r e j c js b t Hk Ho Ht He Hqa Hop Hreq Hlog
     |k r e j ts p Hk Hnb Hqa Hop Hop' Hreq Hlog].
  - (* quiet *)
    destruct Q as [Qq Qo Qr Ql (os & Hlog & Hos)].
    constructor.
    + intros r c js. rewrite Qq. apply (n_q _ I).
    + intros r c js. rewrite Qq. apply (n_ne _ I).
    + intros r c js t. rewrite Qq. apply (n_batch _ I).
    + intros k r e pc j Hk Hj. rewrite Qr in Hk by auto.
      eapply n_thr_keep; eauto. intros j' -> q b Hb. 
      destruct (Qo r) as [Ho|[Hnb _]]; [|exfalso; eapply busy_false; eauto].
      exists b. intros c js. rewrite Qq, Ho, (open_qa _ _ _ _ Hb), Hb. intros [= -> ]; reflexivity.
    + intros k k' r e e' pc pc' j Hk Hk'. rewrite Qr in Hk, Hk' by auto. eapply (n_inj _ I); eauto.
    + intros r c js j. rewrite Qq. intros Hq Hj. destruct (n_sur _ I _ _ _ _ Hq Hj) as (k & e & pc & Hk & Hth).
      exists k, e, pc. rewrite Qr by auto. auto.
    + intros k r e ts eow p Hin. rewrite Hlog in Hin. apply in_app_iff in Hin as [Hin|Hin];
        [|exfalso; eapply in_not_owork; eauto].
      eapply n_log_keep; eauto. intros jo H. now rewrite Qr.
    + intros k r e jo Hk. rewrite Qr in Hk by auto. destruct (n_logc _ I _ _ _ _ Hk) as (ts & eow & p & Hin).
      exists ts, eow, p. rewrite Hlog. apply in_app_iff; auto.
    + rewrite Hlog, work_keys_app, (work_keys_none os Hos), app_nil_r. apply (n_once _ I).
  - (* the manifest arrives *)
    assert (Hno : forall k e pc j, nth_error (s_reqs st) k = Some (QNext r e pc) -> thread_of pc <> Some j).
    { intros k e pc j Hk Hj. destruct (n_thr _ I _ _ _ _ _ Hk Hj) as (? & ? & ? & Hq & _). congruence. }
    constructor.
    + intros r' c' js'. rewrite Hqa. destruct (Nat.eqb_spec r r').
      * intros [= <- <-]. exists []. reflexivity.
      * apply (n_q _ I).
    + intros r' c' js'. rewrite Hqa. destruct (Nat.eqb_spec r r').
      * intros [= <- <-]. auto.
      * apply (n_ne _ I).
    + intros r' c' js' t. rewrite Hqa. destruct (Nat.eqb_spec r r').
      * intros [= <- <-] [].
      * apply (n_batch _ I).
    + intros k r' e pc j Hk Hj. rewrite Hreq in Hk.
      assert (r <> r') by (intros <-; eapply Hno; eauto).
      eapply n_thr_keep; eauto. intros j' -> q b' Hb. exists b'. intros c' js'. rewrite Hqa, Hop.
      destruct (Nat.eqb_spec r r'); [congruence|]. rewrite Hb, (open_qa _ _ _ _ Hb). intros [= -> ]; reflexivity.
    + intros k k' r' e e' pc pc' j. rewrite Hreq. apply (n_inj _ I).
    + intros r' c' js' j. rewrite Hqa, Hreq. destruct (Nat.eqb_spec r r').
      * intros [= <- <-]. simpl. lia.
      * apply (n_sur _ I).
    + intros k r' e ts eow p Hin. rewrite Hlog in Hin. apply in_app_iff in Hin as [Hin|Hin];
        [|exfalso; eapply in_not_owork; eauto].
      eapply n_log_keep; eauto. intros jo H. now rewrite Hreq.
    + intros k r' e jo Hk. rewrite Hreq in Hk. destruct (n_logc _ I _ _ _ _ Hk) as (ts & eow & p & Hin).
      exists ts, eow, p. rewrite Hlog. apply in_app_iff; auto.
    + rewrite Hlog, work_keys_app, (work_keys_none os Hos), app_nil_r. apply (n_once _ I).
  - (* a request arrives at an open run *)
    assert (Hq := open_qa _ _ _ _ Ho).
    assert (Hb : 1 <= b <= MAX_BATCH_SIZE).
    { unfold open in Ho. destruct (get r (s_runs st)) as [[| | |]|] eqn:Eg; try discriminate.
      injection Ho as -> ->. exact (B _ _ Eg). }
    assert (Hthr : st_threads (JobQueueModel.step c js (Arrive (en_tag e) b)) =
                   st_threads js ++ [{| th_tag := en_tag e; th_n := b; th_pc := PStart |}]).
    { simpl. destruct (Nat.eqb_spec b 0); [lia|reflexivity]. }
    assert (Hre : JobQueueSpec.reachable c (JobQueueModel.step c js (Arrive (en_tag e) b))).
    { apply JobQueueLemmas.reachable_step. eapply (n_q _ I); eauto. }
    remember (JobQueueModel.step c js (Arrive (en_tag e) b)) as js1 eqn:Ejs1. clear Ejs1.
    constructor.
    + intros r' c' js'. rewrite Hqa. destruct (Nat.eqb_spec r r'); [|apply (n_q _ I)].
      intros [= <- <-]. exact Hre.
    + intros r' c' js'. rewrite Hqa. destruct (Nat.eqb_spec r r'); [|apply (n_ne _ I)].
      intros [= <- <-]. eapply (n_ne _ I); eauto.
    + intros r' c' js' t. rewrite Hqa. destruct (Nat.eqb_spec r r'); [|apply (n_batch _ I)].
      intros [= <- <-]. rewrite Hthr, in_app_iff. intros [Hin|[<-|[]]]; [eapply (n_batch _ I); eauto|simpl; lia].
    + intros k r' e' pc j Hk Hj. rewrite Hreq in Hk. apply nth_snoc_inv in Hk as [Hk|(_ & _ & Hk)].
      * eapply n_thr_keep; eauto. intros j' -> q b' Hb'. exists b'. intros c' js'. rewrite Hqa, Hop.
        destruct (Nat.eqb_spec r r') as [->|]; [|rewrite Hb', (open_qa _ _ _ _ Hb'); (intros [= -> ]; reflexivity)].
        intros [= <- <-]. rewrite Ho in Hb'. injection Hb' as _ <-. auto.
      * injection Hk as <- <- <-. injection Hj as <-.
        exists c, js1, {| th_tag := en_tag e; th_n := b; th_pc := PStart |}.
        rewrite Hqa, Nat.eqb_refl, Hthr. repeat split; auto.
        -- rewrite nth_error_app2, Nat.sub_diag; auto.
        -- exists b. rewrite Hop, Nat.eqb_refl. auto.
    + assert (Hnew : forall k e' pc' j, nth_error (s_reqs st) k = Some (QNext r e' pc') ->
          thread_of pc' = Some j -> j < length (st_threads js)).
      { intros k e' pc' j Hk Hj. destruct (n_thr _ I _ _ _ _ _ Hk Hj) as (c' & js' & t & Hq' & Ht & _).
        rewrite Hq in Hq'. injection Hq' as <- <-. apply nth_error_Some; congruence. }
      intros k k' r' e1 e2 pc pc' j Hk Hk' Hj Hj'. rewrite Hreq in Hk, Hk'.
      apply nth_snoc_inv in Hk as [Hk|(_ & -> & Hk)]; apply nth_snoc_inv in Hk' as [Hk'|(_ & -> & Hk')]; auto.
      * eapply (n_inj _ I); eauto.
      * injection Hk' as <- <- <-. injection Hj' as <-. specialize (Hnew _ _ _ _ Hk Hj). lia.
      * injection Hk as <- <- <-. injection Hj as <-. specialize (Hnew _ _ _ _ Hk' Hj'). lia.
    + intros r' c' js' j. rewrite Hqa, Hreq. destruct (Nat.eqb_spec r r') as [<-|Hne].
      * intros [= <- <-]. rewrite Hthr, app_length; simpl. intros Hj.
        destruct (Nat.eq_dec j (length (st_threads js))) as [->|Hjne].
        -- exists (length (s_reqs st)), e, (NPull (length (st_threads js))). split; auto.
           rewrite nth_error_app2, Nat.sub_diag; auto.
        -- destruct (n_sur _ I r c js j Hq) as (k & e' & pc & Hk & Hth); [lia|].
           exists k, e', pc. split; auto. rewrite nth_error_app1; auto. apply nth_error_Some; congruence.
      * intros Hq' Hj. destruct (n_sur _ I _ _ _ _ Hq' Hj) as (k & e' & pc & Hk & Hth).
        exists k, e', pc. split; auto. rewrite nth_error_app1; auto. apply nth_error_Some; congruence.
    + intros k r' e' ts eow p Hin. rewrite Hlog in Hin. apply in_app_iff in Hin as [Hin|Hin];
        [|exfalso; eapply in_not_owork; eauto].
      eapply n_log_keep; eauto. intros jo H. rewrite Hreq. rewrite nth_error_app1; auto. apply nth_error_Some; congruence.
    + intros k r' e' jo Hk. rewrite Hreq in Hk. apply nth_snoc_inv in Hk as [Hk|(_ & _ & Hk)]; [|discriminate].
      destruct (n_logc _ I _ _ _ _ Hk) as (ts & eow & p & Hin).
      exists ts, eow, p. rewrite Hlog. apply in_app_iff; auto.
    + rewrite Hlog, work_keys_app, (work_keys_none os Hos), app_nil_r. apply (n_once _ I).
  - (* a request arrives at a run that is not open *)
    constructor.
    + intros r' c' js'. rewrite Hqa. apply (n_q _ I).
    + intros r' c' js'. rewrite Hqa. apply (n_ne _ I).
    + intros r' c' js' t. rewrite Hqa. apply (n_batch _ I).
    + intros k r' e' pc j Hk Hj. rewrite Hreq in Hk. apply nth_snoc_inv in Hk as [Hk|(_ & _ & Hk)].
      * eapply n_thr_keep; eauto. intros j' -> q b' Hb'. exists b'. intros c' js'. rewrite Hqa, Hop, Hb', (open_qa _ _ _ _ Hb'). intros [= -> ]; reflexivity.
      * injection Hk as <- <- <-. discriminate.
    + intros k k' r' e1 e2 pc pc' j Hk Hk' Hj Hj'. rewrite Hreq in Hk, Hk'.
      apply nth_snoc_inv in Hk as [Hk|(_ & -> & Hk)]; apply nth_snoc_inv in Hk' as [Hk'|(_ & -> & Hk')]; auto.
      * eapply (n_inj _ I); eauto.
      * injection Hk' as <- <- <-. discriminate.
      * injection Hk as <- <- <-. discriminate.
    + intros r' c' js' j. rewrite Hqa, Hreq. 
      intros Hq' Hj. destruct (n_sur _ I _ _ _ _ Hq' Hj) as (k & e' & pc & Hk & Hth).
      exists k, e', pc. split; auto. rewrite nth_error_app1; auto. apply nth_error_Some; congruence.
    + intros k r' e' ts eow p Hin. rewrite Hlog in Hin. apply in_app_iff in Hin as [Hin|Hin].
      * eapply n_log_keep; eauto. intros jo H. rewrite Hreq. rewrite nth_error_app1; auto. apply nth_error_Some; congruence.
      * simpl in Hin. destruct Hin as [Hin|[Hin|[]]]; [discriminate|]. injection Hin as <- <- <- <- <- <-.
        exists None. rewrite Hreq, nth_error_app2, Nat.sub_diag; auto.
    + intros k r' e' jo Hk. rewrite Hreq in Hk. apply nth_snoc_inv in Hk as [Hk|(_ & -> & Hk)].
      * destruct (n_logc _ I _ _ _ _ Hk) as (ts & eow & p & Hin).
        exists ts, eow, p. rewrite Hlog. apply in_app_iff; auto.
      * injection Hk as <- <- <-. exists [], true, None. rewrite Hlog. apply in_app_iff. simpl; auto.
    + rewrite Hlog, work_keys_app. simpl.
      apply NoDup_snoc'; [apply (n_once _ I)|].
      intros Hin. apply in_work_keys in Hin as (r' & e' & ts & eow & p & Hin).
      destruct (n_log _ I _ _ _ _ _ _ Hin) as (jo & Hr & _).
      assert (length (s_reqs st) < length (s_reqs st)); [|lia]. apply nth_error_Some. congruence.
  - (* a step on a job queue *)
    assert (Hq := open_qa _ _ _ _ Ho).
    assert (Hre : JobQueueSpec.reachable c (JobQueueModel.step c js (Step j))).
    { apply JobQueueLemmas.reachable_step. eapply (n_q _ I); eauto. }
    assert (Hlen : length (st_threads (JobQueueModel.step c js (Step j))) = length (st_threads js)).
    { simpl. destruct (nth_error (st_threads js) j) as [u|] eqn:Eu; auto.
      destruct (thread_step c (st_ptr js) (st_owner js) u) as [[? ?] ?]; simpl. apply upd_length. }
    assert (Hbat : forall t, In t (st_threads (JobQueueModel.step c js (Step j))) -> th_n t <= MAX_BATCH_SIZE).
    { intros t Hin. simpl in Hin. destruct (nth_error (st_threads js) j) as [u|] eqn:Eu; [|eapply (n_batch _ I); eauto].
      destruct (thread_step c (st_ptr js) (st_owner js) u) as [[? ?] ?]; simpl in Hin.
      apply In_nth_error in Hin as [n0 Hn']. apply nth_upd_inv in Hn' as [[-> <-]|[_ Hn']]; simpl;
        eapply (n_batch _ I); eauto using nth_error_In. }
    remember (JobQueueModel.step c js (Step j)) as js1 eqn:Ejs1. clear Ejs1.
    constructor.
    + intros r' c' js'. rewrite Hqa. destruct (Nat.eqb_spec r r'); [|apply (n_q _ I)].
      intros [= <- <-]. exact Hre.
    + intros r' c' js'. rewrite Hqa. destruct (Nat.eqb_spec r r'); [|apply (n_ne _ I)].
      intros [= <- <-]. eapply (n_ne _ I); eauto.
    + intros r' c' js' t. rewrite Hqa. destruct (Nat.eqb_spec r r'); [|apply (n_batch _ I)].
      intros [= <- <-]. apply Hbat.
    + intros k' r' e' pc j' Hk' Hj. rewrite Hreq in Hk'.
      eapply n_thr_keep; eauto. intros j0 -> q b' Hb'. exists b'. intros c' js'. rewrite Hqa, Hop.
      destruct (Nat.eqb_spec r r') as [->|]; [|rewrite Hb', (open_qa _ _ _ _ Hb'); (intros [= -> ]; reflexivity)].
      rewrite Ho in Hb'. injection Hb' as _ <-. intros [= <- <-]. reflexivity.
    + intros k1 k2 r' e1 e2 pc pc' j'. rewrite Hreq. apply (n_inj _ I).
    + intros r' c' js' j'. rewrite Hqa, Hreq. destruct (Nat.eqb_spec r r') as [<-|Hne]; [|apply (n_sur _ I)].
      intros [= <- <-] Hj'. apply (n_sur _ I r c js); auto. now rewrite <- Hlen.
    + intros k' r' e' ts eow p Hin. rewrite Hlog in Hin. apply in_app_iff in Hin as [Hin|Hin];
        [|exfalso; eapply in_not_owork; eauto].
      eapply n_log_keep; eauto. intros jo H. now rewrite Hreq.
    + intros k' r' e' jo Hk'. rewrite Hreq in Hk'. destruct (n_logc _ I _ _ _ _ Hk') as (ts & eow & p & Hin).
      exists ts, eow, p. rewrite Hlog. apply in_app_iff; auto.
    + rewrite Hlog, work_keys_app, (work_keys_none os Hos), app_nil_r. apply (n_once _ I).
  - (* an answer with more to come *)
    assert (Hq := open_qa _ _ _ _ Ho).
    assert (Hkl : k < length (s_reqs st)) by (apply nth_error_Some; congruence).
    constructor.
    + intros r' c' js'. rewrite Hqa. apply (n_q _ I).
    + intros r' c' js'. rewrite Hqa. apply (n_ne _ I).
    + intros r' c' js' u. rewrite Hqa. apply (n_batch _ I).
    + intros k' r' e' pc j' Hk' Hj. rewrite Hreq in Hk'. apply nth_upd_inv in Hk' as [[-> Hk']|[Hne Hk']].
      * injection Hk' as <- <- <-. injection Hj as <-.
        destruct (n_thr _ I _ _ _ _ _ Hk eq_refl) as (c' & js' & t' & Hq' & Ht' & Htag & _).
        rewrite Hq in Hq'. injection Hq' as <- <-. exists c, js, t'. rewrite Hqa. repeat split; auto.
        simpl. exists false. congruence.
      * eapply n_thr_keep; eauto. intros j0 -> q b' Hb'. exists b'. intros c' js'. rewrite Hqa, Hop, Hb', (open_qa _ _ _ _ Hb'). intros [= -> ]; reflexivity.
    + intros k1 k2 r' e1 e2 pc pc' j' H1 H2 H3 H4. rewrite Hreq in H1, H2.
      apply nth_upd_inv in H1 as [[-> H1]|[Hne1 H1]]; apply nth_upd_inv in H2 as [[-> H2]|[Hne2 H2]]; auto.
      * injection H1 as <- <- <-. injection H3 as <-. exact (n_inj _ I _ _ _ _ _ _ _ j Hk H2 eq_refl H4).
      * injection H2 as <- <- <-. injection H4 as <-. exact (n_inj _ I _ _ _ _ _ _ _ j H1 Hk H3 eq_refl).
      * eapply (n_inj _ I); eauto.
    + intros r' c' js' j' Hq' Hj'. rewrite Hqa in Hq'. destruct (n_sur _ I _ _ _ _ Hq' Hj') as (k' & e' & pc & Hk' & Hth).
      destruct (Nat.eq_dec k k') as [<-|Hne].
      * rewrite Hk in Hk'. injection Hk' as <- <- <-. exists k, e, (NAnswered (Some j)). rewrite Hreq, nth_error_upd_eq; auto.
      * exists k', e', pc. rewrite Hreq, nth_error_upd_neq; auto.
    + intros k' r' e' ts eow p Hin. rewrite Hlog in Hin. apply in_app_iff in Hin as [Hin|[Hin|[]]].
      * eapply n_log_keep; eauto. intros jo H. rewrite Hreq, nth_error_upd_neq; auto. congruence.
      * injection Hin as <- <- <- <- <- <-. exists (Some j). rewrite Hreq, nth_error_upd_eq by auto. split; auto.
        exists c, js, t. rewrite Hqa. auto.
    + intros k' r' e' jo Hk'. rewrite Hreq in Hk'. apply nth_upd_inv in Hk' as [[-> Hk']|[Hne Hk']].
      * injection Hk' as <- <- <-. exists (bundle c t), false, None. rewrite Hlog. apply in_app_iff. simpl; auto.
      * destruct (n_logc _ I _ _ _ _ Hk') as (ts & eow & p & Hin). exists ts, eow, p. rewrite Hlog. apply in_app_iff; auto.
    + rewrite Hlog, work_keys_app. simpl.
      apply NoDup_snoc'; [apply (n_once _ I)|].
      intros Hin. apply in_work_keys in Hin as (r' & e' & ts & eow & p & Hin).
      destruct (n_log _ I _ _ _ _ _ _ Hin) as (jo & Hr & _). congruence.
  - (* the last tests were pulled *)
    assert (Hq := open_qa _ _ _ _ Ho).
    assert (Hkl : k < length (s_reqs st)) by (apply nth_error_Some; congruence).
    constructor.
    + intros r' c' js'. rewrite Hqa. apply (n_q _ I).
    + intros r' c' js'. rewrite Hqa. apply (n_ne _ I).
    + intros r' c' js' u. rewrite Hqa. apply (n_batch _ I).
    + intros k' r' e' pc j' Hk' Hj. rewrite Hreq in Hk'. apply nth_upd_inv in Hk' as [[-> Hk']|[Hne Hk']].
      * injection Hk' as <- <- <-. injection Hj as <-.
        destruct (n_thr _ I _ _ _ _ _ Hk eq_refl) as (c' & js' & t' & Hq' & Ht' & Htag & _).
        rewrite Hq in Hq'. injection Hq' as <- <-. exists c, js, t'. rewrite Hqa.
        assert (t' = t) by congruence. subst t'. repeat split; auto.
      * eapply n_thr_keep; eauto. intros j0 -> q b' Hb'. exists b'. intros c' js'. rewrite Hqa, Hop, Hb', (open_qa _ _ _ _ Hb'). intros [= -> ]; reflexivity.
    + intros k1 k2 r' e1 e2 pc pc' j' H1 H2 H3 H4. rewrite Hreq in H1, H2.
      apply nth_upd_inv in H1 as [[-> H1]|[Hne1 H1]]; apply nth_upd_inv in H2 as [[-> H2]|[Hne2 H2]]; auto.
      * injection H1 as <- <- <-. injection H3 as <-. exact (n_inj _ I _ _ _ _ _ _ _ j Hk H2 eq_refl H4).
      * injection H2 as <- <- <-. injection H4 as <-. exact (n_inj _ I _ _ _ _ _ _ _ j H1 Hk H3 eq_refl).
      * eapply (n_inj _ I); eauto.
    + intros r' c' js' j' Hq' Hj'. rewrite Hqa in Hq'. destruct (n_sur _ I _ _ _ _ Hq' Hj') as (k' & e' & pc & Hk' & Hth).
      destruct (Nat.eq_dec k k') as [<-|Hne].
      * rewrite Hk in Hk'. injection Hk' as <- <- <-. exists k, e, (NEnd j (bundle c t)). rewrite Hreq, nth_error_upd_eq; auto.
      * exists k', e', pc. rewrite Hreq, nth_error_upd_neq; auto.
    + intros k' r' e' ts eow p Hin. rewrite Hlog in Hin.
      eapply n_log_keep; eauto. intros jo H. rewrite Hreq, nth_error_upd_neq; auto. congruence.
    + intros k' r' e' jo Hk'. rewrite Hreq in Hk'. apply nth_upd_inv in Hk' as [[-> Hk']|[Hne Hk']]; [discriminate|].
      destruct (n_logc _ I _ _ _ _ Hk') as (ts & eow & p & Hin). exists ts, eow, p. rewrite Hlog. auto.
    + rewrite Hlog. apply (n_once _ I).
  - (* the end was marked *)
    assert (Hkl : k < length (s_reqs st)) by (apply nth_error_Some; congruence).
    destruct (n_thr _ I _ _ _ _ _ Hk eq_refl) as (c & js & t & Hq & Ht & Htag & Hb & He).
    constructor.
    + intros r' c' js'. rewrite Hqa. apply (n_q _ I).
    + intros r' c' js'. rewrite Hqa. apply (n_ne _ I).
    + intros r' c' js' u. rewrite Hqa. apply (n_batch _ I).
    + intros k' r' e' pc j' Hk' Hj. rewrite Hreq in Hk'. apply nth_upd_inv in Hk' as [[-> Hk']|[Hne Hk']].
      * injection Hk' as <- <- <-. injection Hj as <-. exists c, js, t. rewrite Hqa. repeat split; auto. simpl; eauto.
      * eapply n_thr_keep; eauto. intros j0 -> q b' Hb'. exists b'. intros c' js'.
        rewrite Hqa, Hop, Hb', (open_qa _ _ _ _ Hb'); [intros [= -> ]; reflexivity|]. intros ->. eapply busy_false; eauto.
    + intros k1 k2 r' e1 e2 pc pc' j' H1 H2 H3 H4. rewrite Hreq in H1, H2.
      apply nth_upd_inv in H1 as [[-> H1]|[Hne1 H1]]; apply nth_upd_inv in H2 as [[-> H2]|[Hne2 H2]]; auto.
      * injection H1 as <- <- <-. injection H3 as <-. exact (n_inj _ I _ _ _ _ _ _ _ j Hk H2 eq_refl H4).
      * injection H2 as <- <- <-. injection H4 as <-. exact (n_inj _ I _ _ _ _ _ _ _ j H1 Hk H3 eq_refl).
      * eapply (n_inj _ I); eauto.
    + intros r' c' js' j' Hq' Hj'. rewrite Hqa in Hq'. destruct (n_sur _ I _ _ _ _ Hq' Hj') as (k' & e' & pc & Hk' & Hth).
      destruct (Nat.eq_dec k k') as [<-|Hne].
      * rewrite Hk in Hk'. injection Hk' as <- <- <-. exists k, e, (NAnswered (Some j)). rewrite Hreq, nth_error_upd_eq; auto.
      * exists k', e', pc. rewrite Hreq, nth_error_upd_neq; auto.
    + intros k' r' e' ts' eow p' Hin. rewrite Hlog in Hin. apply in_app_iff in Hin as [Hin|[Hin|[]]].
      * eapply n_log_keep; eauto. intros jo H. rewrite Hreq, nth_error_upd_neq; auto. congruence.
      * injection Hin as <- <- <- <- <- <-. exists (Some j). rewrite Hreq, nth_error_upd_eq by auto. split; auto.
        exists c, js, t. rewrite Hqa. auto.
    + intros k' r' e' jo Hk'. rewrite Hreq in Hk'. apply nth_upd_inv in Hk' as [[-> Hk']|[Hne Hk']].
      * injection Hk' as <- <- <-. exists ts, true, p. rewrite Hlog. apply in_app_iff. simpl; auto.
      * destruct (n_logc _ I _ _ _ _ Hk') as (ts' & eow & p' & Hin). exists ts', eow, p'. rewrite Hlog. apply in_app_iff; auto.
    + rewrite Hlog, work_keys_app. simpl.
      apply NoDup_snoc'; [apply (n_once _ I)|].
      intros Hin. apply in_work_keys in Hin as (r' & e' & ts' & eow & p' & Hin).
      destruct (n_log _ I _ _ _ _ _ _ Hin) as (jo & Hr & _). congruence.
Qed.

Record inv st : Prop := { i_f : finv st; i_b : binv st; i_n : NInv st }.

Lemma inv_init : inv (@init_state T M).
Proof.
  constructor.
  - split; intros [|k]; discriminate.
  - intros r s H; discriminate.
  - constructor; simpl; try (intros; discriminate); try (intros [|k]; discriminate).
    + intros; contradiction.
    + constructor.
Qed.

Lemma inv_step st ev : inv st -> inv (step st ev).
Proof. intros [F B N]. constructor; [now apply finv_step|now apply binv_step|now apply ninv_step]. Qed.

Lemma reachable_inv st : reachable st -> inv st.
Proof. intros [es ->]. apply run_invariant; [intros; now apply inv_step|apply inv_init]. Qed.

End Next.
