(* Progress timeouts. *)
From Verif Require Import Base JobQueueModel WorkerSetModel RunModel RunSpec RunProofs RunInv RunNext RunLemmas RunParts.
From Verif Require JobQueueSpec JobQueueProofs JobQueueLemmas.

Section Timers.
Context {T M : Type}.
Implicit Types (st : state T M) (r : run_id) (s : run_state T M) (h : list (obs T M)).

Definition pending_check st r l : Prop :=
  In (r, l) (s_timers st) \/ exists k, nth_error (s_reqs st) k = Some (QTimeout r l false).

Lemma in_remove_at {A} (x : A) l : forall i, In x (remove_at i l) -> In x l.
Proof. induction l as [|y l IH]; intros [|i]; simpl; auto. intros [|]; eauto. Qed.

Lemma in_remove_at_other {A} (x y : A) l : forall i, nth_error l i = Some y -> In x l -> x = y \/ In x (remove_at i l).
Proof.
  induction l as [|z l IH]; intros [|i]; simpl; try discriminate.
  - intros [= ->] [->|]; auto.
  - intros H [->|Hin]; auto. destruct (IH _ H Hin); auto.
Qed.

(* What an event does to the checks. *)
Definition check_step st (st' : state T M) : Prop :=
  exists os, s_log st' = s_log st ++ os /\
    (forall r l a, In (OTimeout r l a) os -> pending_check st r l) /\
    (forall r l, pending_check st' r l -> pending_check st r l \/ l = 0 \/
       exists l0, In (OTimeout r l0 (Some (PNewProgress l))) os) /\
    (forall r l, pending_check st r l -> (exists l', pending_check st' r l') \/
       match get r (s_runs st') with Some s => is_active_state s = false | None => True end) /\
    (forall r, get r (s_runs st) = None -> match get r (s_runs st') with Some s => is_active_state s = true -> exists l', pending_check st' r l' | None => True end).

Lemma check_quiet st st' os : s_log st' = s_log st ++ os -> s_timers st' = s_timers st ->
  (forall r l a, ~ In (OTimeout r l a) os) ->
  (forall k r l, nth_error (s_reqs st') k = Some (QTimeout r l false) <-> nth_error (s_reqs st) k = Some (QTimeout r l false)) ->
  (forall r, get r (s_runs st) = None -> match get r (s_runs st') with Some s => is_active_state s = false | None => True end) ->
  check_step st st'.
Proof.
  intros Hl Ht Ho Hq Hg. exists os.
  assert (Hp : forall r l, pending_check st' r l <-> pending_check st r l).
  { intros r l. unfold pending_check. rewrite Ht.
    split; (intros [H|[k H]]; [auto|right; exists k; now apply Hq]). }
  repeat split; auto.
  - intros r l a Hin. exfalso. eapply Ho; eauto.
  - intros r l. rewrite Hp. auto.
  - intros r l H. left. exists l. now apply Hp.
  - intros r Hn. specialize (Hg r Hn). destruct (get r (s_runs st')); auto. congruence.
Qed.

Lemma get_put_none r r0 s m : get r m = None -> get r0 m <> None ->
  match get r (put (T := T) (M := M) r0 s m) with Some s => is_active_state s = false | None => True end.
Proof. intros H H0. rewrite get_put. destruct (Nat.eqb_spec r0 r); subst; [congruence|]. now rewrite H. Qed.

Lemma step_checks st ev : check_step st (step st ev).
Proof.
  assert (Hno : forall os : list (obs T M), existsb (fun o => match o with OTimeout _ _ _ => true | _ => false end) os = false ->
     forall r l a, ~ In (OTimeout r l a) os).
  { intros os H r l a Hin. 
    assert (existsb (fun o : obs T M => match o with OTimeout _ _ _ => true | _ => false end) os = true); [|congruence].
    apply existsb_exists. eexists; split; [exact Hin|reflexivity]. }
  assert (Hn0 : forall r, get r (s_runs st) = None -> match get r (s_runs st) with Some s => is_active_state s = false | None => True end).
  { intros r ->. exact I. }
  assert (Hsame : check_step st st).
  { apply (check_quiet st st []); auto; [now rewrite app_nil_r|tauto]. }
  assert (Hup : forall k q q', nth_error (s_reqs st) k = Some q -> 
     (forall r l, q <> QTimeout r l false) -> (forall r l, q' <> QTimeout r l false) ->
     forall k' r l, nth_error (upd k q' (s_reqs st)) k' = Some (QTimeout r l false) <-> nth_error (s_reqs st) k' = Some (QTimeout r l false)).
  { intros k q q' Hk H1 H2 k' r l. eapply nth_upd_not; eauto. }
  assert (Hsn : forall q, (forall r l, q <> QTimeout r l false) ->
     forall k' r l, nth_error (s_reqs st ++ [q]) k' = Some (QTimeout r l false) <-> nth_error (s_reqs st) k' = Some (QTimeout r l false)).
  { intros q H k' r l. now apply nth_snoc_not. }
  Ltac quiet := eapply check_quiet; simpl; [reflexivity|reflexivity| | | ];
    [auto; fail|try tauto; try (intros; eapply nth_upd_not; eauto; congruence); try (intros; apply nth_snoc_not; congruence)|try assumption; try (intros; eapply get_put_none; eauto; congruence)].
  unfold step; destruct ev; unfold exclusive; auto.
  - destruct (Nat.eqb (fp_batch p) 0); auto. apply (check_quiet st _ []); simpl; auto; [now rewrite app_nil_r|].
    apply Hsn. congruence.
  - destruct (nth_error (s_reqs st) k) as [[p [] |? ? ?|? ? ?]|] eqn:Eq; auto.
    assert (Hu : forall pc k' r l, nth_error (upd k (QFind p pc) (s_reqs st)) k' = Some (QTimeout r l false) <-> nth_error (s_reqs st) k' = Some (QTimeout r l false)).
    { intros pc. eapply Hup; eauto; congruence. }
    assert (Hlk : check_step st (set_req st k (QFind p FLookup))).
    { apply (check_quiet st _ []); simpl; auto. now rewrite app_nil_r. }
    assert (Hfresh : get (fp_run p) (s_runs st) = None ->
      check_step st (add_timer (set_req (set_run st (fp_run p) (fresh_run now p) 1
                                [OAssigned p (AssignedRun (Fresh true) false)]) k (QFind p FAnswered))
                    (fp_run p, 0))).
    { intros Eg. exists [OAssigned p (AssignedRun (Fresh true) false)].
      assert (Hp : forall r l, pending_check st r l -> pending_check (add_timer (set_req (set_run st (fp_run p) (fresh_run now p) 1
                                [OAssigned p (AssignedRun (Fresh true) false)]) k (QFind p FAnswered)) (fp_run p, 0)) r l).
      { intros r l [H|[k' H]]; [left; simpl; apply in_app_iff; auto|right; exists k'; simpl; now apply Hu]. }
      repeat split; auto.
      - intros r l a0 [|[]]; discriminate.
      - intros r l [H|[k' H]].
        + simpl in H. apply in_app_iff in H as [H|[H|[]]]; [left; left; auto|]. injection H as <- <-. auto.
        + simpl in H. apply Hu in H. left; right; eauto.
      - intros r l H. left. eauto.
      - intros r Hr. simpl. rewrite get_put. destruct (Nat.eqb_spec (fp_run p) r); [|now rewrite Hr].
        intros _. exists 0. left. simpl. apply in_app_iff. simpl. subst; auto. }
    destruct a as [sv| | |].
    + destruct (get (fp_run p) (s_runs st)) eqn:Eg; auto.
      apply (check_quiet st _ []); simpl; auto.
      intros r Hr. rewrite get_put. destruct (Nat.eqb_spec (fp_run p) r); [reflexivity|]. now rewrite Hr.
    + destruct (get (fp_run p) (s_runs st)) eqn:Eg; auto.
    + destruct (get (fp_run p) (s_runs st)) eqn:Eg; auto.
    + eapply (check_quiet st _ _); simpl; [reflexivity|reflexivity| | |]; auto.
  - destruct (nth_error (s_reqs st) k) as [[p [] |? ? ?|? ? ?]|] eqn:Eq; auto.
    destruct (get (fp_run p) (s_runs st)) as [s|] eqn:Eg; [destruct (find_lookup now p s) as [s' a]|]; quiet.
  - destruct (get r (s_runs st)) as [s|] eqn:Eg; [|quiet]. destruct (busy st r); auto.
    destruct flat; [destruct (mark_empty s) as [[? ?] ?]|destruct (add_manifest _ _ _)]; quiet.
  - destruct (get r (s_runs st)) as [s|] eqn:Eg; [|quiet]. destruct (busy st r); auto.
    destruct (mark_failed s); quiet.
  - destruct (get r (s_runs st)) as [s|] eqn:Eg; [|quiet]. destruct (init_metadata e s); quiet.
  - destruct (get r (s_runs st)) as [[conns b sg h|[c js] m b active h|ec m seen mp h old|rr old]|] eqn:Eg; quiet.
  - destruct (nth_error (s_reqs st) k) as [[|r0 e [j|j ts|j]|]|] eqn:Eq; auto.
    destruct (get r0 (s_runs st)) as [[| [c js] m b active h| |]|] eqn:Eg; auto. quiet.
  - destruct (nth_error (s_reqs st) k) as [[|r0 e [j|j ts|j]|]|] eqn:Eq; auto.
    + destruct (get r0 (s_runs st)) as [[| [c js] m b active h| |]|] eqn:Eg; auto.
      destruct (nth_error (st_threads js) j) as [t|]; auto.
      destruct (status_of c t) as [[]|]; auto; try quiet;
        (apply (check_quiet st _ []); simpl; auto; [now rewrite app_nil_r|eapply Hup; eauto; congruence]).
    + destruct (get r0 (s_runs st)) as [s|] eqn:Eg; [|quiet]. destruct (busy st r0); [auto|].
      destruct (try_mark_end s) as [[? ?] ?]; quiet.
  - destruct (get r (s_runs st)) as [s|] eqn:Eg; [|quiet]. destruct (retry_manifest e s); quiet.
  - destruct (get r (s_runs st)) as [s|] eqn:Eg; auto. quiet.
  - destruct (get r (s_runs st)) as [s|] eqn:Eg; [|quiet]. destruct (busy st r); [auto|].
    destruct (mark_cancelled e CRUser s); quiet.
  - destruct (get r (s_runs st)) as [[| |ec m seen [b|] h old|]|] eqn:Eg; auto. quiet.
  - (* a timer fires *)
    destruct (nth_error (s_timers st) i) as [[r last]|] eqn:Ei; auto.
    assert (Hpc : pending_check st r last) by (left; eapply nth_error_In; eauto).
    destruct (get r (s_runs st)) as [s|] eqn:Eg.
    + destruct (query_progress last s) eqn:Eqp.
      1,2: exists []; simpl; rewrite app_nil_r; repeat split; auto;
        [intros r0 l a []
        |intros r0 l [H|[k H]]; simpl in H;
           [left; left; eapply in_remove_at; eauto
           |apply nth_snoc_inv in H as [H|(_ & _ & H)]; [left; right; eauto|injection H as <- <-; auto]]
        |intros r0 l [H|[k H]];
           [destruct (in_remove_at_other _ _ _ _ Ei H) as [E|H'];
              [injection E as -> ->; left; exists last; right; exists (length (s_reqs st)); simpl;
               rewrite nth_error_app2, Nat.sub_diag; auto
              |left; exists l; left; auto]
           |left; exists l; right; exists k; simpl; rewrite nth_error_app1; auto; apply nth_error_Some; congruence]
        |intros r0 ->; exact I].
      * eexists; simpl; rewrite app_nil_r; repeat split.
        -- intros r0 l a [H|[]]. injection H as <- <- <-. auto.
        -- intros r0 l [H|[k H]]; simpl in H; [left; left; eapply in_remove_at; eauto|left; right; eauto].
        -- intros r0 l [H|[k H]].
           ++ destruct (in_remove_at_other _ _ _ _ Ei H) as [E|H'].
              ** injection E as -> ->. right. rewrite Eg. destruct s as [|[]| |]; simpl in *; try discriminate; auto.
                 destruct (Nat.ltb last (read_index s)); discriminate.
              ** left; exists l; left; auto.
           ++ left; exists l; right; eauto.
        -- intros r0 ->; exact I.
      * eexists; simpl; rewrite app_nil_r; repeat split.
        -- intros r0 l a [H|[]]. injection H as <- <- <-. auto.
        -- intros r0 l [H|[k H]]; simpl in H; [|left; right; eauto].
           apply in_app_iff in H as [H|[H|[]]]; [left; left; eapply in_remove_at; eauto|].
           injection H as <- <-. right; right. exists last. simpl; auto.
        -- intros r0 l [H|[k H]].
           ++ destruct (in_remove_at_other _ _ _ _ Ei H) as [E|H'].
              ** injection E as -> ->. left. exists index. left. simpl. apply in_app_iff. simpl; auto.
              ** left; exists l; left. simpl. apply in_app_iff. auto.
           ++ left; exists l; right; eauto.
        -- intros r0 ->; exact I.
    + eexists; simpl; rewrite app_nil_r; repeat split.
      * intros r0 l a [H|[]]. injection H as <- <- <-. auto.
      * intros r0 l [H|[k H]]; simpl in H; [left; left; eapply in_remove_at; eauto|left; right; eauto].
      * intros r0 l [H|[k H]].
        -- destruct (in_remove_at_other _ _ _ _ Ei H) as [E|H'].
           ++ injection E as -> ->. right. rewrite Eg. exact I.
           ++ left; exists l; left; auto.
        -- left; exists l; right; eauto.
      * intros r0 ->; exact I.
  - (* the second half of a cancelling timer *)
    destruct (nth_error (s_reqs st) k) as [[| |r last []]|] eqn:Eq; auto.
    destruct (get r (s_runs st)) as [s|] eqn:Eg; [|quiet]. destruct (busy st r); [auto|].
    assert (Hpc : pending_check st r last) by (right; eauto).
    assert (Hu : forall k' r0 l, nth_error (upd k (QTimeout r last true) (s_reqs st)) k' = Some (QTimeout r0 l false) ->
       nth_error (s_reqs st) k' = Some (QTimeout r0 l false)).
    { intros k' r0 l H. apply nth_upd_inv in H as [[_ H]|[_ H]]; [discriminate|auto]. }
    assert (Hu' : forall k' r0 l, nth_error (s_reqs st) k' = Some (QTimeout r0 l false) ->
       r0 = r \/ nth_error (upd k (QTimeout r last true) (s_reqs st)) k' = Some (QTimeout r0 l false)).
    { intros k' r0 l H. destruct (Nat.eq_dec k k') as [<-|Hne]; [left; congruence|right].
      rewrite nth_error_upd_neq; auto. }
    destruct (is_cancel (query_progress last s)) eqn:Ec; unfold cancel_help.
    + eexists; simpl; repeat split.
      * intros r0 l a [H|[]]. injection H as <- <- <-. auto.
      * intros r0 l [H|[k' H]]; simpl in H; [left; left; auto|left; right; eauto].
      * intros r0 l [H|[k' H]]; [left; exists l; left; auto|].
        destruct (Hu' _ _ _ H) as [->|H'].
        -- right. rewrite get_put, Nat.eqb_refl. reflexivity.
        -- left; exists l; right; eauto.
      * intros r0 Hr. rewrite get_put. destruct (Nat.eqb_spec r r0); [subst; congruence|]. now rewrite Hr.
    + destruct (query_progress last s) eqn:Eqp; simpl in Ec; try discriminate.
      * eexists; simpl; repeat split.
        -- intros r0 l a [H|[]]. injection H as <- <- <-. auto.
        -- intros r0 l [H|[k' H]]; simpl in H; [left; left; auto|left; right; eauto].
        -- intros r0 l [H|[k' H]]; [left; exists l; left; auto|].
           destruct (Hu' _ _ _ H) as [->|H'].
           ++ right. rewrite Eg. destruct s as [|[]| |]; simpl in *; try discriminate; auto.
              destruct (Nat.ltb last (read_index s)); discriminate.
           ++ left; exists l; right; eauto.
        -- intros r0 ->; exact I.
      * eexists; simpl; repeat split.
        -- intros r0 l a [H|[]]. injection H as <- <- <-. auto.
        -- intros r0 l [H|[k' H]]; simpl in H; [|left; right; eauto].
           apply in_app_iff in H as [H|[H|[]]]; [left; left; auto|].
           injection H as <- <-. right; right. exists last. simpl; auto.
        -- intros r0 l [H|[k' H]]; [left; exists l; left; simpl; apply in_app_iff; auto|].
           destruct (Hu' _ _ _ H) as [->|H'].
           ++ left. exists index. left. simpl. apply in_app_iff; simpl; auto.
           ++ left; exists l; right; eauto.
        -- intros r0 ->; exact I.
  - quiet.
  - quiet.
Qed.

Lemma active_effect st r (o : option (run_state T M)) os s s' : effect st r o os ->
  o = Some s' -> is_active_state s' = true -> get r (s_runs st) = Some s -> is_active_state s = true.
Proof.
  intros He -> Ha Hg.
  inversion He; subst; try congruence; rewrite Hg in *;
    try (match goal with H : Some _ = Some _ |- _ => injection H as -> end); auto;
    try (op_cases; simpl in *; congruence); try discriminate; auto.
  all: clear Hg He; match goal with |- is_active_state ?x = true => destruct x as [|[]|? ? ? [[]|] ? ?|] end; simpl in *; try reflexivity;
    repeat match goal with H : context [if ?b then _ else _] |- _ => destruct b end;
    try (match goal with H : _ = _ |- _ => injection H; intros; subst; discriminate end); try discriminate.
Qed.

(* Every run that is not over has a pending check. *)
Lemma watched st : reachable st -> forall r s, get r (s_runs st) = Some s -> is_active_state s = true ->
  exists l, pending_check st r l.
Proof.
  intros [es ->]. induction es as [|ev es IH] using rev_ind; [discriminate|].
  rewrite run_app. simpl. set (st := run step init_state es) in *. intros r s Hg Ha.
  destruct (step_checks st ev) as (os & _ & _ & _ & H1 & H2).
  destruct (get r (s_runs st)) as [s0|] eqn:E0.
  - destruct (step_effect st ev r) as (os' & He & _).
    assert (Ha0 : is_active_state s0 = true) by (eapply active_effect; eauto).
    destruct (IH _ _ E0 Ha0) as [l Hl]. destruct (H1 _ _ Hl) as [|H]; auto.
    rewrite Hg in H. congruence.
  - specialize (H2 _ E0). rewrite Hg in H2. auto.
Qed.

Lemma pending_chain st : reachable st -> forall r l, pending_check st r l ->
  l = 0 \/ exists l0, In (OTimeout r l0 (Some (PNewProgress l))) (s_log st).
Proof.
  intros [es ->]. induction es as [|ev es IH] using rev_ind.
  - intros r l [[]|[[|k] H]]; discriminate.
  - rewrite run_app. simpl. set (st := run step init_state es) in *. intros r l Hp.
    destruct (step_checks st ev) as (os & Hl & _ & H & _). rewrite Hl.
    destruct (H _ _ Hp) as [Hp'|[->|[l0 Hin]]]; auto.
    + destruct (IH _ _ Hp') as [|[l0 Hin]]; auto. right. exists l0. apply in_app_iff; auto.
    + right. exists l0. apply in_app_iff; auto.
Qed.

Lemma checks_chain st : reachable st -> forall h1 r l a h2, s_log st = h1 ++ OTimeout r l a :: h2 ->
  l = 0 \/ exists l0, In (OTimeout r l0 (Some (PNewProgress l))) h1.
Proof.
  intros [es ->]. induction es as [|ev es IH] using rev_ind.
  - intros [|]; discriminate.
  - rewrite run_app. simpl. set (st := run step init_state es) in *. intros h1 r l a h2 Heq.
    destruct (step_checks st ev) as (os & Hl & H & _). rewrite Hl in Heq.
    apply split_snoc in Heq as [(h2' & Heq & _)|(x & -> & Heq)]; [eauto|].
    assert (Hin : In (OTimeout r l a) os) by (rewrite Heq; apply in_app_iff; simpl; auto).
    destruct (pending_chain st (ex_intro _ es eq_refl) _ _ (H _ _ _ Hin)) as [|[l0 Hin']]; auto.
    right. exists l0. apply in_app_iff; auto.
Qed.

(* What a check says, and what it does. *)
Lemma check_says st ev r l a :
  history (step st ev) r = history st r ++ [OTimeout r l a] ->
  match a with
  | None => phase_of st r = None
  | Some PCancelledNoManifest => phase_of st r = Some PhWaiting /\ phase_of (step st ev) r = Some PhCancelled
  | Some PCancelledNoProgress => phase_of st r = Some PhOpen /\ phase_of (step st ev) r = Some PhCancelled /\
       length (claimed_tests st r) <= l
  | Some PRunComplete => closed st r /\ get r (s_runs (step st ev)) = get r (s_runs st)
  | Some (PNewProgress i) => phase_of st r = Some PhOpen /\ get r (s_runs (step st ev)) = get r (s_runs st) /\ l < i /\
       claimed_tests st r = firstn i (manifest_of st r)
  end.
Proof.
  intros Hh. destruct (step_effect st ev r) as (os & He & Hh'). rewrite Hh in Hh'.
  apply app_inv_head in Hh'. subst os. unfold phase_of, closed, phase_of, claimed_tests, manifest_of, the_queue.
  remember (get r (s_runs (step st ev))) as o eqn:Eo. remember [OTimeout r l a] as os eqn:Eos.
  destruct He; try discriminate; injection Eos; intros; subst.
  - now rewrite H.
  - rewrite H. destruct s as [|[c js] ? ? ? ?| |]; simpl in *; try discriminate; auto.
    destruct (Nat.ltb_spec l (read_index js)); simpl in *; try discriminate. auto.
  - rewrite H. destruct s as [|[c js] ? ? ? ?| |]; simpl in *; try discriminate; auto.
    destruct (Nat.ltb_spec l (read_index js)); simpl in *; try discriminate. repeat split; auto.
    rewrite firstn_length. lia.
Qed.

(* Claims only grow. *)
Lemma ptr_mono {A} (c : config A) js ev :
  Nat.min (st_ptr js) (length (cf_queue c)) <= Nat.min (st_ptr (JobQueueModel.step c js ev)) (length (cf_queue c)).
Proof.
  destruct ev as [w n|k]; simpl.
  - destruct (Nat.eqb n 0); simpl; lia.
  - destruct (nth_error (st_threads js) k) as [t|]; [|lia].
    unfold thread_step. destruct (th_pc t) as [|start|s e i|s e|s e b|]; simpl; try lia.
    + destruct (cf_strategy c); simpl; [lia|].
      unfold group_update. destruct (nth_error (cf_queue c) (st_ptr js)) as [[? g]|]; simpl; lia.
    + destruct (Nat.ltb _ _); simpl; [lia|]. destruct (Nat.ltb _ _); simpl; lia.
    + destruct (Nat.ltb i e); simpl; lia.
Qed.

Lemma claimed_mono st ev r : reachable st ->
  exists n, the_queue st r <> None -> claimed_tests st r = firstn n (claimed_tests (step st ev) r) /\
    manifest_of (step st ev) r = manifest_of st r.
Proof.
  intros HR. assert (G := reachable_gstep st ev HR).
  exists (length (claimed_tests st r)). intros Hq.
  assert (Hqa : the_queue st r = qa st r) by reflexivity.
  destruct (qa st r) as [[c js]|] eqn:Eq; [|congruence].
  assert (Hcase : qa (step st ev) r = Some (c, js) \/ exists jev, qa (step st ev) r = Some (c, JobQueueModel.step c js jev)).
  { destruct G as [Q|? ? ? ? Hn Hqa'|? ? ? ? ? Ho Hqa'|? ? Hqa'|? ? ? ? ? ? ? Hr Ho Hqa'
      |? ? ? ? ? ? ? ? Hr Ho Ht He Hqa'|? ? ? ? ? ? ? ? Hr Ho Ht He Hqa'|? ? ? ? ? ? Hr Hb Hqa'];
     try (rewrite Hqa'; auto; fail).
    - rewrite (qt_qa _ _ Q); auto.
    - rewrite Hqa'. destruct (Nat.eqb_spec r0 r); subst; [congruence|auto].
    - rewrite Hqa'. destruct (Nat.eqb_spec r0 r); subst; [|auto].
      apply open_qa in Ho. rewrite Eq in Ho. injection Ho as <- <-. eauto.
    - rewrite Hqa'. destruct (Nat.eqb_spec r0 r); subst; [|auto].
      apply open_qa in Ho. rewrite Eq in Ho. injection Ho as <- <-. eauto. }
  unfold claimed_tests, manifest_of, the_queue in *. fold (qa st r) in *. fold (qa (step st ev) r).
  rewrite Hqa. destruct Hcase as [->|[jev ->]].
  - split; auto. rewrite firstn_all. reflexivity.
  - split; auto. rewrite firstn_firstn, firstn_length. unfold read_index.
    pose proof (ptr_mono c js jev). rewrite map_length in *. 
    rewrite Nat.min_l by lia.
    destruct (Nat.le_ge_cases (st_ptr js) (length (cf_queue c))).
    + rewrite Nat.min_l by lia. reflexivity.
    + rewrite Nat.min_r by lia. rewrite (firstn_all2 (n := st_ptr js)) by (rewrite map_length; lia).
      rewrite <- (map_length fst (cf_queue c)) at 1. now rewrite firstn_all.
Qed.

Lemma queue_stays st es r : reachable st -> the_queue st r <> None -> 
  the_queue (run step st es) r <> None /\ manifest_of (run step st es) r = manifest_of st r /\
  claimed_tests st r = firstn (length (claimed_tests st r)) (claimed_tests (run step st es) r) /\
  length (claimed_tests st r) <= length (claimed_tests (run step st es) r).
Proof.
  revert st; induction es as [|ev es IH]; intros st HR Hq.
  - simpl. rewrite firstn_all. auto.
  - rewrite run_cons.
    assert (Hq' : the_queue (step st ev) r <> None).
    { assert (X := gstep_qext _ _ (reachable_gstep st ev HR)).
      unfold the_queue in Hq |- *. fold (qa st r) in Hq. fold (qa (step st ev) r).
      destruct (qa st r) as [[c js]|] eqn:Eq; [|congruence]. destruct (X _ _ _ Eq) as (js' & -> & _). discriminate. }
    destruct (IH _ (RunLemmas.reachable_step _ _ HR) Hq') as (H1 & H2 & H3 & H4).
    destruct (claimed_mono st ev r HR) as [n Hn]. destruct (Hn Hq) as [Hc Hm].
    assert (Hle : length (claimed_tests st r) <= length (claimed_tests (step st ev) r)).
    { rewrite Hc. rewrite firstn_length. lia. }
    repeat split; auto; try congruence; try lia.
    rewrite H3 in Hc. rewrite firstn_firstn in Hc.
    rewrite Hc at 1.
    assert (length (claimed_tests st r) = Nat.min n (length (claimed_tests (step st ev) r))).
    { rewrite Hc. rewrite firstn_length. lia. }
    rewrite H. reflexivity.
Qed.

Lemma stalled st1 ev1 es ev2 r l0 l : reachable st1 ->
  let st2 := run step st1 es in
  history (step st1 ev1) r = history st1 r ++ [OTimeout r l0 (Some (PNewProgress l))] ->
  history (step st2 ev2) r = history st2 r ++ [OTimeout r l (Some PCancelledNoProgress)] ->
  claimed_tests st2 r = claimed_tests st1 r.
Proof.
  intros HR st2 H1 H2.
  destruct (check_says _ _ _ _ _ H1) as (P1 & _ & _ & C1).
  destruct (check_says _ _ _ _ _ H2) as (P2 & _ & C2).
  assert (Hq : the_queue st1 r <> None).
  { unfold phase_of, the_queue in *. destruct (get r (s_runs st1)) as [[]|]; simpl in *; try discriminate. }
  destruct (queue_stays st1 es r HR Hq) as (Q1 & Q2 & Q3 & Q4). fold st2 in Q1, Q2, Q3, Q4.
  assert (Hlen : length (claimed_tests st2 r) <= length (claimed_tests st1 r)).
  { rewrite C1, firstn_length. 
    assert (length (claimed_tests st2 r) <= length (manifest_of st1 r)); [|lia].
    rewrite <- Q2. unfold claimed_tests, manifest_of. destruct (the_queue st2 r) as [[]|]; [|simpl; lia].
    rewrite firstn_length. lia. }
  rewrite Q3. replace (length (claimed_tests st1 r)) with (length (claimed_tests st2 r)) by lia.
  now rewrite firstn_all.
Qed.

End Timers.
