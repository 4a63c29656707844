(* Proofs about runs in time. *)
From Verif Require Import Base JobQueueModel WorkerSetModel RunModel RunSpec RunProofs RunInv RunNext RunLemmas RunParts RunTimers.
From Verif Require Import TimedModel TimedSpec.
From Verif Require JobQueueSpec JobQueueProofs JobQueueLemmas.

Section Timed.
Context {T M : Type}.
Variable window : nat.
Implicit Types (st : state T M) (r : run_id) (ts : tstate T M) (es : list (tevent T M)).

(* ---- what an event does to timers and checks ---- *)
Definition not_a_check (e : event T M) : Prop :=
  match e with ETimer _ | ETimerCancel _ => False | _ => True end.

Definition no_check (o : obs T M) : bool := match o with OTimeout _ _ _ => false | _ => true end.

Definition same_checks st (st' : state T M) : Prop :=
  (exists os, s_log st' = s_log st ++ os /\ forallb no_check os = true) /\
  length (s_reqs st) <= length (s_reqs st') /\
  (forall k r l, nth_error (s_reqs st') k = Some (QTimeout r l false) <-> nth_error (s_reqs st) k = Some (QTimeout r l false)) /\
  (s_timers st' = s_timers st \/
   exists r, s_timers st' = s_timers st ++ [(r, 0)] /\ get r (s_runs st) = None /\ phase_of st' r = Some PhWaiting).

Lemma sc_refl st : same_checks st st.
Proof.
  split; [|repeat split; auto; tauto]. exists []. split; [symmetry; apply app_nil_r|reflexivity].
Qed.

Lemma other_event st e : not_a_check e -> same_checks st (step st e).
Proof.
  Ltac lg := first [exists []; split; [symmetry; apply app_nil_r|reflexivity]
                      |eexists; split; [simpl; reflexivity|reflexivity]
                      |eexists; split; [simpl; rewrite <- app_assoc; reflexivity|reflexivity]].
  Ltac sq := split; [lg|]; split; [simpl; rewrite ?app_length, ?upd_length; simpl; lia|split; [simpl; try tauto; try (intros; eapply nth_upd_not; eauto; congruence); try (intros; apply nth_snoc_not; congruence)|left; reflexivity]].
  unfold step; destruct e; unfold exclusive; intros N; try destruct N; try exact (sc_refl st).
  - destruct (Nat.eqb (fp_batch p) 0); [exact (sc_refl st)|]. sq.
  - destruct (nth_error (s_reqs st) k) as [[p [] |? ? ?|? ? ?]|] eqn:Eq; try exact (sc_refl st).
    assert (F : get (fp_run p) (s_runs st) = None -> same_checks st (add_timer (set_req (set_run st (fp_run p) (fresh_run now p) 1
                                [OAssigned p (AssignedRun (Fresh true) false)]) k (QFind p FAnswered))
                    (fp_run p, 0))).
    { intros Eg. split; [lg|]. split; [simpl; rewrite upd_length; lia|]. split; [simpl; intros; eapply nth_upd_not; eauto; congruence|].
      right. exists (fp_run p). split; [reflexivity|]. split; [exact Eg|]. unfold phase_of. simpl.
      rewrite get_put, Nat.eqb_refl. reflexivity. }
    destruct a as [sv| | |]; [| | |sq]; destruct (get (fp_run p) (s_runs st)) eqn:Eg; auto; sq.
  - destruct (nth_error (s_reqs st) k) as [[p [] |? ? ?|? ? ?]|] eqn:Eq; try exact (sc_refl st).
    destruct (get (fp_run p) (s_runs st)) as [s|] eqn:Eg; [destruct (find_lookup now p s) as [s' a]|]; sq.
  - destruct (get r (s_runs st)) as [s|] eqn:Eg; [|sq]. destruct (busy st r); [exact (sc_refl st)|].
    destruct flat; [destruct (mark_empty s) as [[? ?] ?]|destruct (add_manifest _ _ _)]; sq.
  - destruct (get r (s_runs st)) as [s|] eqn:Eg; [|sq]. destruct (busy st r); [exact (sc_refl st)|].
    destruct (mark_failed s); sq.
  - destruct (get r (s_runs st)) as [s|] eqn:Eg; [|sq]. destruct (init_metadata e s); sq.
  - destruct (get r (s_runs st)) as [[conns b sg h|[c js] m b active h|ec m seen mp h old|rr old]|] eqn:Eg; sq.
  - destruct (nth_error (s_reqs st) k) as [[|r0 e [j|j tt|j]|]|] eqn:Eq; try exact (sc_refl st).
    destruct (get r0 (s_runs st)) as [[| [c js] m b active h| |]|] eqn:Eg; try exact (sc_refl st). sq.
  - destruct (nth_error (s_reqs st) k) as [[|r0 e [j|j tt|j]|]|] eqn:Eq; try exact (sc_refl st).
    + destruct (get r0 (s_runs st)) as [[| [c js] m b active h| |]|] eqn:Eg; try exact (sc_refl st).
      destruct (nth_error (st_threads js) j) as [t|]; try exact (sc_refl st).
      destruct (status_of c t) as [[]|]; try exact (sc_refl st); sq.
    + destruct (get r0 (s_runs st)) as [s|] eqn:Eg; [|sq]. destruct (busy st r0); [exact (sc_refl st)|].
      destruct (try_mark_end s) as [[? ?] ?]; sq.
  - destruct (get r (s_runs st)) as [s|] eqn:Eg; [|sq]. destruct (retry_manifest e s); sq.
  - destruct (get r (s_runs st)) as [s|] eqn:Eg; [|exact (sc_refl st)]. sq.
  - destruct (get r (s_runs st)) as [s|] eqn:Eg; [|sq]. destruct (busy st r); [exact (sc_refl st)|].
    destruct (mark_cancelled e CRUser s); sq.
  - destruct (get r (s_runs st)) as [[| |ec m seen [b|] h old|]|] eqn:Eg; try exact (sc_refl st). sq.
  - sq.
  - sq.
Qed.

(* ---- pending timeouts with their instants ---- *)
Definition pend ts : list (run_id * nat * nat) := combine (s_timers (t_st ts)) (t_due ts).
Definition has_check ts r l a : Prop :=
  exists k, nth_error (s_reqs (t_st ts)) k = Some (QTimeout r l false) /\ nth_error (t_came ts) k = Some a.

(* How far the queue of a run was read. *)
Definition read st r : nat := match the_queue st r with Some (_, js) => read_index js | None => 0 end.

Definition aligned ts : Prop :=
  length (t_due ts) = length (s_timers (t_st ts)) /\ length (t_came ts) = length (s_reqs (t_st ts)).

Lemma combine_remove {A B} (l : list A) : forall (m : list B) i, combine (remove_at i l) (remove_at i m) = remove_at i (combine l m).
Proof.
  induction l as [|x l IH]; intros [|y m] [|i]; simpl; auto.
  - destruct l; reflexivity.
  - now rewrite IH.
Qed.

Lemma length_remove {A} (l : list A) : forall i x, nth_error l i = Some x -> S (length (remove_at i l)) = length l.
Proof. induction l as [|y l IH]; intros [|i] x; simpl; try discriminate; auto. intros H. now rewrite (IH i x H). Qed.

Lemma combine_snoc {A B} (l : list A) (m : list B) x y : length l = length m ->
  combine (l ++ [x]) (m ++ [y]) = combine l m ++ [(x, y)].
Proof. revert m. induction l as [|a l IH]; intros [|b m]; simpl; try discriminate; auto. intros H. injection H as H. now rewrite IH. Qed.

Lemma nth_combine {A B} (l : list A) : forall (m : list B) i x y, nth_error l i = Some x -> nth_error m i = Some y ->
  nth_error (combine l m) i = Some (x, y).
Proof. induction l as [|a l IH]; intros [|b m] [|i] x y; simpl; try discriminate; auto. congruence. Qed.

Lemma nth_combine_inv {A B} (l : list A) : forall (m : list B) i x y, nth_error (combine l m) i = Some (x, y) ->
  nth_error l i = Some x /\ nth_error m i = Some y.
Proof. induction l as [|a l IH]; intros [|b m] [|i] x y; simpl; try discriminate; auto. intros [= -> ->]; auto. Qed.

Lemma extended_same l n x : n <= length l -> extended l n x = l.
Proof. intros H. unfold extended. replace (n - length l) with 0 by lia. apply app_nil_r. Qed.
Lemma extended_one l n x : n = S (length l) -> extended l n x = l ++ [x].
Proof. intros ->. unfold extended. now replace (S (length l) - length l) with 1 by lia. Qed.
Lemma extended_length l n x : length l <= n -> length (extended l n x) = n.
Proof. intros H. unfold extended. rewrite app_length, repeat_length. lia. Qed.
Lemma extended_old l n x k y : nth_error l k = Some y -> nth_error (extended l n x) k = Some y.
Proof. intros H. unfold extended. rewrite nth_error_app1; auto. apply nth_error_Some. congruence. Qed.

Lemma came_same l n x k (y : nat) : k < length l -> nth_error (extended l n x) k = Some y <-> nth_error l k = Some y.
Proof. intros H. unfold extended. rewrite nth_error_app1; auto. tauto. Qed.

(* The step of a timer. *)
Lemma timer_cases st i r last : nth_error (s_timers st) i = Some (r, last) ->
  let st' := step st (ETimer i) in
  s_runs st' = s_runs st /\
  ((s_timers st' = remove_at i (s_timers st) /\ s_reqs st' = s_reqs st /\
      (phase_of st r = None \/ phase_of st r = Some PhOver \/ phase_of st r = Some PhCancelled)) \/
   (s_timers st' = remove_at i (s_timers st) /\ s_reqs st' = s_reqs st ++ [QTimeout r last false]) \/
   (s_timers st' = remove_at i (s_timers st) ++ [(r, read st r)] /\ s_reqs st' = s_reqs st /\
      phase_of st r = Some PhOpen /\ last < read st r)).
Proof.
  intros Hn. unfold step. rewrite Hn. unfold phase_of, read, the_queue.
  destruct (get r (s_runs st)) as [s|] eqn:Eg; [|simpl; split; auto].
  destruct s as [c0 b0 s0 h0|[c js] m b ac h|ec m0 se mp h0 ol|rr ol]; simpl; try (split; [reflexivity|auto 8]; fail).
  destruct (Nat.ltb_spec last (read_index js)); simpl; split; auto 8.
Qed.

Lemma cancel_cases st k :
  let st' := step st (ETimerCancel k) in
  (s_timers st' = s_timers st /\ s_reqs st' = s_reqs st /\ s_runs st' = s_runs st) \/
  exists r last, (exists res, s_log st' = s_log st ++ [OTimeout r last res]) /\ nth_error (s_reqs st) k = Some (QTimeout r last false) /\ s_reqs st' = upd k (QTimeout r last true) (s_reqs st) /\
    ((s_timers st' = s_timers st /\ ~ (phase_of st' r = Some PhWaiting \/ phase_of st' r = Some PhOpen)) \/
     (s_timers st' = s_timers st ++ [(r, read st r)] /\ s_runs st' = s_runs st /\ phase_of st r = Some PhOpen /\ last < read st r)).
Proof.
  unfold step. destruct (nth_error (s_reqs st) k) as [[| |r last []]|] eqn:Eq; auto.
  unfold exclusive. destruct (get r (s_runs st)) as [s|] eqn:Eg; [|simpl; auto].
  destruct (busy st r); auto. right. exists r, last. split; [|split; auto].
  { unfold cancel_help. destruct (is_cancel (query_progress last s)); [eexists; reflexivity|].
    destruct (query_progress last s); eexists; reflexivity. }
  unfold phase_of, read, the_queue, cancel_help. rewrite Eg.
  destruct s as [c0 b0 s0 h0|[c js] m b ac h|ec m0 se mp h0 ol|rr ol]; simpl.
  - split; auto. left. split; auto. rewrite get_put, Nat.eqb_refl. simpl. intros [|]; discriminate.
  - destruct (Nat.ltb_spec last (read_index js)); simpl; split; auto.
    left. split; auto. rewrite get_put, Nat.eqb_refl. simpl. intros [|]; discriminate.
  - split; auto. left. split; auto. rewrite Eg. simpl. intros [|]; discriminate.
  - split; auto. left. split; auto. rewrite Eg. simpl. intros [|]; discriminate.
Qed.

(* ---- one event in time ---- *)
Inductive tkind ts : tstate T M -> Prop :=
| TK_tick d : tkind ts {| t_now := t_now ts + d; t_st := t_st ts; t_due := t_due ts; t_came := t_came ts |}
| TK_none : tkind ts ts
| TK_event e : not_a_check e -> tkind ts (happens window ts e (t_due ts))
| TK_timer i r l d : nth_error (s_timers (t_st ts)) i = Some (r, l) -> nth_error (t_due ts) i = Some d -> d <= t_now ts ->
    tkind ts (happens window ts (ETimer i) (remove_at i (t_due ts)))
| TK_cancel k : tkind ts (happens window ts (ETimerCancel k) (t_due ts)).

Lemma tstep_kind ts te : aligned ts -> tkind ts (tstep window ts te).
Proof.
  intros [Ha _]. destruct te as [d|e]; [constructor|].
  destruct e; simpl; try (apply TK_event; exact I); try apply TK_cancel.
  unfold ready. destruct (nth_error (t_due ts) i) as [d|] eqn:Ed; [|constructor].
  destruct (Nat.leb_spec d (t_now ts)); [|constructor].
  assert (Hi : i < length (s_timers (t_st ts))) by (rewrite <- Ha; apply nth_error_Some; congruence).
  destruct (nth_error (s_timers (t_st ts)) i) as [[r l]|] eqn:Et; [|apply nth_error_None in Et; lia].
  eapply TK_timer; eauto.
Qed.

Lemma aligned_step ts te : aligned ts -> aligned (tstep window ts te).
Proof.
  intros A. destruct (tstep_kind ts te A) as [d| |e N|i r l d Ht Hd Hle|k]; auto; destruct A as [A1 A2].
  - destruct (other_event (t_st ts) e N) as (_ & L & _ & [Ht|(r & Ht & _)]); split; cbn [happens t_st t_due t_came].
    + rewrite Ht, extended_length; lia.
    + rewrite extended_length; lia.
    + rewrite Ht, app_length. cbn [length]. rewrite extended_length; lia.
    + rewrite extended_length; lia.
  - pose proof (length_remove _ _ _ Ht) as L1. pose proof (length_remove _ _ _ Hd) as L2.
    destruct (timer_cases (t_st ts) i r l Ht) as [_ [(E1 & E2 & _)|[(E1 & E2)|(E1 & E2 & _)]]]; split; cbn [happens t_st t_due t_came];
      rewrite ?E1, ?E2, ?app_length; cbn [length]; rewrite extended_length; lia.
  - destruct (cancel_cases (t_st ts) k) as [(E1 & E2 & _)|(r & l & _ & _ & E2 & [(E1 & _)|(E1 & _)])]; split; cbn [happens t_st t_due t_came];
      rewrite ?E1, ?E2, ?app_length, ?upd_length; cbn [length]; rewrite extended_length; lia.
Qed.

Lemma aligned_after es : aligned (after window es).
Proof. apply (run_invariant _ _ aligned_step). split; reflexivity. Qed.

Lemma st_reachable es : reachable (t_st (after window es)).
Proof.
  induction es as [|te es IH] using rev_ind; [now exists []|].
  unfold after in *. rewrite run_app. simpl. set (ts := run (tstep window) tinit es) in *.
  destruct (tstep_kind ts te (aligned_after es)); cbn [happens t_st]; auto; now apply RunLemmas.reachable_step.
Qed.

(* What is pending afterwards: it was, or it is new. *)
Lemma pend_back ts te r l d : aligned ts -> In (r, l, d) (pend (tstep window ts te)) ->
  In (r, l, d) (pend ts) \/
  (d = t_now (tstep window ts te) + window /\
   ((l = 0 /\ phase_of (t_st (tstep window ts te)) r = Some PhWaiting) \/
    (phase_of (t_st (tstep window ts te)) r = Some PhOpen /\ l = read (t_st (tstep window ts te)) r))).
Proof.
  intros A. destruct (tstep_kind ts te A) as [d0| |e N|i r0 l0 d0 Ht Hd Hle|k]; auto; destruct A as [A1 A2].
  - destruct (other_event (t_st ts) e N) as (_ & L & _ & [Et|(r0 & Et & _ & Hw)]); unfold pend; cbn [happens t_st t_due]; rewrite Et.
    + rewrite extended_same by lia. auto.
    + rewrite app_length. cbn [length]. rewrite extended_one by lia. rewrite combine_snoc by lia. rewrite in_app_iff.
      intros [|[E|[]]]; auto. injection E as <- <- <-. auto.
  - pose proof (length_remove _ _ _ Ht) as L1. pose proof (length_remove _ _ _ Hd) as L2.
    destruct (timer_cases (t_st ts) i r0 l0 Ht) as [Er [(E1 & E2 & _)|[(E1 & E2)|(E1 & E2 & Ho & Hl)]]]; unfold pend; cbn [happens t_st t_due]; rewrite E1.
    1,2: rewrite extended_same by lia; rewrite combine_remove; intros H; left; eapply in_remove_at; eauto.
    rewrite app_length. cbn [length]. rewrite extended_one by lia. rewrite combine_snoc by lia. rewrite in_app_iff.
    rewrite combine_remove. intros [H|[E|[]]]; [left; eapply in_remove_at; eauto|].
    injection E as <- <- <-. right. split; auto. right.
    unfold phase_of, read, the_queue in *. rewrite Er. auto.
  - destruct (cancel_cases (t_st ts) k) as [(E1 & E2 & _)|(r0 & l0 & _ & _ & E2 & [(E1 & _)|(E1 & Er & Ho & Hl)])]; unfold pend; cbn [happens t_st t_due]; rewrite E1.
    1,2: rewrite extended_same by lia; auto.
    rewrite app_length. cbn [length]. rewrite extended_one by lia. rewrite combine_snoc by lia. rewrite in_app_iff.
    intros [H|[E|[]]]; auto. injection E as <- <- <-. right. split; auto. right.
    unfold phase_of, read, the_queue in *. rewrite Er. auto.
Qed.

Lemma check_back ts te r l a : aligned ts -> has_check (tstep window ts te) r l a ->
  has_check ts r l a \/ (a = t_now ts /\ exists d, d <= t_now ts /\ In (r, l, d) (pend ts)).
Proof.
  intros A. destruct (tstep_kind ts te A) as [d0| |e N|i r0 l0 d0 Ht Hd Hle|k]; auto; destruct A as [A1 A2].
  - destruct (other_event (t_st ts) e N) as (_ & L & Hq & _). intros (k & H1 & H2). cbn [happens t_st t_came] in *.
    apply Hq in H1. left. exists k. split; auto. apply (came_same _ (length (s_reqs (step (t_st ts) e))) (t_now ts)); auto.
    rewrite A2. apply nth_error_Some. congruence.
  - destruct (timer_cases (t_st ts) i r0 l0 Ht) as [Er [(E1 & E2 & _)|[(E1 & E2)|(E1 & E2 & Ho & Hl)]]];
      intros (k & H1 & H2); cbn [happens t_st t_came] in *; rewrite E2 in *.
    1,3: left; exists k; split; auto; rewrite extended_same in H2 by lia; auto.
    rewrite app_length in H2. cbn [length] in H2. rewrite extended_one in H2 by lia.
    apply nth_snoc_inv in H1 as [H1|(_ & -> & H1)].
    + left. exists k. split; auto. rewrite nth_error_app1 in H2; auto. rewrite A2. apply nth_error_Some. congruence.
    + injection H1 as <- <-. rewrite <- A2, nth_error_app2, Nat.sub_diag in H2 by lia. injection H2 as <-.
      right. split; auto. exists d0. split; auto. eapply nth_error_In. eapply nth_combine; eauto.
  - destruct (cancel_cases (t_st ts) k) as [(E1 & E2 & _)|(r0 & l0 & _ & Hk & E2 & _)];
      intros (k' & H1 & H2); cbn [happens t_st t_came] in *; rewrite E2 in *.
    + left; exists k'; split; auto; rewrite extended_same in H2 by lia; auto.
    + rewrite upd_length in H2. apply nth_upd_inv in H1 as [[_ H1]|[_ H1]]; [discriminate|].
      left; exists k'; split; auto; rewrite extended_same in H2 by lia; auto.
Qed.

(* What becomes of what is pending. *)
Lemma pend_forth ts te r l d : aligned ts -> In (r, l, d) (pend ts) -> active (tstep window ts te) r ->
  In (r, l, d) (pend (tstep window ts te)) \/
  (d <= t_now ts /\ has_check (tstep window ts te) r l (t_now ts)) \/
  (d <= t_now ts /\ l < read (t_st ts) r /\
     In (r, read (t_st ts) r, t_now ts + window) (pend (tstep window ts te))).
Proof.
  intros A. destruct (tstep_kind ts te A) as [d0| |e N|i r0 l0 d0 Ht Hd Hle|k]; auto; destruct A as [A1 A2].
  - destruct (other_event (t_st ts) e N) as (_ & L & _ & [Et|(r0 & Et & _ & Hw)]); unfold pend; cbn [happens t_st t_due]; rewrite Et.
    + rewrite extended_same by lia. auto.
    + rewrite app_length. cbn [length]. rewrite extended_one by lia. rewrite combine_snoc by lia. rewrite in_app_iff. auto.
  - pose proof (length_remove _ _ _ Ht) as L1. pose proof (length_remove _ _ _ Hd) as L2.
    pose proof (nth_combine _ _ _ _ _ Ht Hd) as Hc. intros Hin Ha.
    destruct (in_remove_at_other _ _ _ _ Hc Hin) as [E|Hin'].
    + injection E as -> -> ->. unfold active in Ha. cbn [happens t_st] in Ha.
      destruct (timer_cases (t_st ts) i r0 l0 Ht) as [Er [(E1 & E2 & Hp)|[(E1 & E2)|(E1 & E2 & Ho & Hl)]]].
      * exfalso. unfold phase_of in *. rewrite Er in Ha. destruct Ha as [Ha|Ha], Hp as [Hp|[Hp|Hp]]; rewrite Ha in Hp; discriminate.
      * right; left. split; auto. exists (length (s_reqs (t_st ts))). cbn [happens t_st t_came]. rewrite E2. split.
        -- now rewrite nth_error_app2, Nat.sub_diag.
        -- rewrite app_length. cbn [length]. rewrite extended_one by lia. now rewrite <- A2, nth_error_app2, Nat.sub_diag.
      * right; right. split; auto. split; auto. unfold pend. cbn [happens t_st t_due]. rewrite E1.
        rewrite app_length. cbn [length]. rewrite extended_one by lia. rewrite combine_snoc by lia. apply in_app_iff. simpl. auto.
    + left. unfold pend in *. cbn [happens t_st t_due].
      destruct (timer_cases (t_st ts) i r0 l0 Ht) as [Er [(E1 & E2 & Hp)|[(E1 & E2)|(E1 & E2 & Ho & Hl)]]]; rewrite E1.
      1,2: rewrite extended_same by lia; rewrite combine_remove; auto.
      rewrite app_length. cbn [length]. rewrite extended_one by lia. rewrite combine_snoc by lia.
      rewrite combine_remove. apply in_app_iff. auto.
  - intros Hin _. left. unfold pend in *. cbn [happens t_st t_due].
    destruct (cancel_cases (t_st ts) k) as [(E1 & E2 & _)|(r0 & l0 & _ & _ & E2 & [(E1 & _)|(E1 & Er & Ho & Hl)])]; rewrite E1.
    1,2: rewrite extended_same by lia; auto.
    rewrite app_length. cbn [length]. rewrite extended_one by lia. rewrite combine_snoc by lia. apply in_app_iff. auto.
Qed.

Lemma check_forth ts te r l a : aligned ts -> has_check ts r l a -> active (tstep window ts te) r ->
  has_check (tstep window ts te) r l a \/
  (l < read (t_st ts) r /\ In (r, read (t_st ts) r, t_now ts + window) (pend (tstep window ts te))).
Proof.
  intros A. destruct (tstep_kind ts te A) as [d0| |e N|i r0 l0 d0 Ht Hd Hle|k]; auto; destruct A as [A1 A2];
    intros (k0 & H1 & H2) Ha.
  - destruct (other_event (t_st ts) e N) as (_ & L & Hq & _). left. exists k0. cbn [happens t_st t_came].
    split; [now apply Hq|now apply extended_old].
  - left. exists k0. cbn [happens t_st t_came]. split; [|now apply extended_old].
    destruct (timer_cases (t_st ts) i r0 l0 Ht) as [Er [(E1 & E2 & Hp)|[(E1 & E2)|(E1 & E2 & Ho & Hl)]]]; rewrite E2; auto.
    rewrite nth_error_app1; auto. apply nth_error_Some. congruence.
  - unfold active in Ha. cbn [happens t_st] in Ha.
    destruct (cancel_cases (t_st ts) k) as [(E1 & E2 & _)|(r0 & l0 & _ & Hk & E2 & H)].
    + left. exists k0. cbn [happens t_st t_came]. rewrite E2. split; auto. now apply extended_old.
    + destruct (Nat.eq_dec k k0) as [<-|Hne].
      * rewrite Hk in H1. injection H1 as -> ->. destruct H as [(E1 & Hno)|(E1 & Er & Ho & Hl)]; [contradiction|].
        right. split; auto. unfold pend. cbn [happens t_st t_due]. rewrite E1, app_length. cbn [length].
        rewrite extended_one by lia. rewrite combine_snoc by lia. apply in_app_iff. simpl. auto.
      * left. exists k0. cbn [happens t_st t_came]. rewrite E2. split; [now rewrite nth_error_upd_neq|now apply extended_old].
Qed.

Lemma now_grows ts te : t_now ts <= t_now (tstep window ts te).
Proof.
  destruct te as [d|e]; [simpl; lia|].
  destruct e; simpl; try lia. destruct (ready ts i); simpl; lia.
Qed.

Lemma after_snoc es te : after window (es ++ [te]) = tstep window (after window es) te.
Proof. unfold after. now rewrite run_app. Qed.

(* ---- where a check comes from ---- *)
Definition origin es r l t : Prop :=
  exists es0 es1, es = es0 ++ es1 /\ t_now (after window es0) + window <= t /\
    ((l = 0 /\ phase_of (t_st (after window es0)) r = Some PhWaiting) \/
     (phase_of (t_st (after window es0)) r = Some PhOpen /\ l = read (t_st (after window es0)) r)).

Lemma origin_more es te r l t t' : origin es r l t -> t <= t' -> origin (es ++ [te]) r l t'.
Proof. intros (es0 & es1 & -> & H & H') Hle. exists es0, (es1 ++ [te]). rewrite app_assoc. split; auto. split; auto. lia. Qed.

Lemma origins es :
  (forall r l d, In (r, l, d) (pend (after window es)) -> origin es r l d) /\
  (forall r l a, has_check (after window es) r l a -> origin es r l a /\ a <= t_now (after window es)).
Proof.
  induction es as [|te es [IH1 IH2]] using rev_ind.
  - split; [intros r l d []|]. intros r l a ([|k] & H & _); discriminate.
  - rewrite after_snoc. pose proof (aligned_after es) as A. set (ts := after window es) in *. split.
    + intros r l d H. destruct (pend_back ts te r l d A H) as [H'|(-> & H')].
      * eapply origin_more; eauto.
      * exists (es ++ [te]), []. rewrite app_nil_r, after_snoc. fold ts. auto.
    + intros r l a H. pose proof (now_grows ts te). destruct (check_back ts te r l a A H) as [H'|(-> & d & Hd & H')].
      * destruct (IH2 _ _ _ H') as [H1 H2]. split; [eapply origin_more; eauto|lia].
      * split; [eapply origin_more; eauto|lia].
Qed.

(* ---- histories of the runs below ---- *)
Lemma below es0 es1 : exists evs, t_st (after window (es0 ++ es1)) = run step (t_st (after window es0)) evs.
Proof.
  induction es1 as [|te es1 (evs & IH)] using rev_ind.
  - exists []. now rewrite app_nil_r.
  - rewrite app_assoc, after_snoc. set (ts := after window (es0 ++ es1)) in *.
    destruct (tstep_kind ts te (aligned_after _)) as [d| |e N|i r l d Ht Hd Hle|k]; cbn [happens t_st]; eauto.
    + exists (evs ++ [e]). rewrite run_app, <- IH. reflexivity.
    + exists (evs ++ [ETimer i]). rewrite run_app, <- IH. reflexivity.
    + exists (evs ++ [ETimerCancel k]). rewrite run_app, <- IH. reflexivity.
Qed.

Lemma not_waiting_open ts r : active ts r -> exists s, get r (s_runs (t_st ts)) = Some s /\ is_active_state s = true.
Proof.
  unfold active, phase_of, is_active_state. destruct (get r (s_runs (t_st ts))) as [s|]; simpl; [|intros [|]; discriminate].
  intros H. exists s. split; auto. destruct H as [H|H]; injection H as ->; reflexivity.
Qed.

Lemma active_get ts r s : get r (s_runs (t_st ts)) = Some s -> is_active_state s = true -> active ts r.
Proof.
  unfold active, phase_of, is_active_state. intros ->. simpl. destruct (phase_of_state s); try discriminate; auto.
Qed.

Lemma exists_stays st evs r : get r (s_runs st) <> None -> get r (s_runs (run step st evs)) <> None.
Proof. revert st. induction evs as [|e evs IH]; intros st H; auto. rewrite run_cons. apply IH. now apply get_stays. Qed.

Lemma active_back evs : forall st r s s', get r (s_runs st) = Some s -> get r (s_runs (run step st evs)) = Some s' ->
  is_active_state s' = true -> is_active_state s = true.
Proof.
  induction evs as [|e evs IH]; intros st r s s' H H' Ha.
  - cbn in H'. congruence.
  - rewrite run_cons in H'. destruct (get r (s_runs (step st e))) as [s1|] eqn:E1.
    + destruct (step_effect st e r) as (os & He & _). eapply active_effect; eauto.
    + assert (get r (s_runs (step st e)) <> None) by (apply get_stays; congruence). congruence.
Qed.

Lemma active_between es0 es1 es2 r : active (after window es0) r -> active (after window (es0 ++ es1 ++ es2)) r ->
  active (after window (es0 ++ es1)) r.
Proof.
  intros H0 H2. apply not_waiting_open in H0 as (s0 & G0 & _). apply not_waiting_open in H2 as (s2 & G2 & A2).
  destruct (below es0 es1) as (e1 & E1). rewrite app_assoc in G2. destruct (below (es0 ++ es1) es2) as (e2 & E2).
  rewrite E2 in G2.
  destruct (get r (s_runs (t_st (after window (es0 ++ es1))))) as [s1|] eqn:G1.
  - eapply active_get; eauto. eapply active_back; eauto.
  - exfalso. revert G1. rewrite E1. apply exists_stays. congruence.
Qed.

Lemma claimed_nil st r : the_queue st r = None -> claimed_tests st r = [].
Proof. unfold claimed_tests. now intros ->. Qed.

Lemma claimed_length st r : length (claimed_tests st r) = Nat.min (read st r) (length (manifest_of st r)).
Proof.
  unfold claimed_tests, read, manifest_of. destruct (the_queue st r) as [[c js]|]; auto. now rewrite firstn_length.
Qed.

Lemma open_queue st r : phase_of st r = Some PhOpen -> the_queue st r <> None.
Proof. unfold phase_of, the_queue. destruct (get r (s_runs st)) as [[]|]; simpl; discriminate. Qed.
Lemma waiting_queue st r : phase_of st r = Some PhWaiting -> the_queue st r = None.
Proof. unfold phase_of, the_queue. destruct (get r (s_runs st)) as [[]|]; simpl; try discriminate; auto. Qed.

(* Of two moments: what is claimed only grows. *)
Lemma claims_grow es0 es1 r : the_queue (t_st (after window es0)) r <> None ->
  the_queue (t_st (after window (es0 ++ es1))) r <> None /\
  manifest_of (t_st (after window (es0 ++ es1))) r = manifest_of (t_st (after window es0)) r /\
  handed_out (after window es0) r = firstn (length (handed_out (after window es0) r)) (handed_out (after window (es0 ++ es1)) r) /\
  length (handed_out (after window es0) r) <= length (handed_out (after window (es0 ++ es1)) r).
Proof.
  intros Hq. destruct (below es0 es1) as (evs & E). unfold handed_out. rewrite E.
  apply queue_stays; auto. apply st_reachable.
Qed.

(* ---- never before a window ---- *)
Lemma who_times_out es te r : times_out window (after window es) te r ->
  exists l a, has_check (after window es) r l a /\
    (phase_of (t_st (after window es)) r = Some PhWaiting \/
     phase_of (t_st (after window es)) r = Some PhOpen /\ length (handed_out (after window es) r) <= l).
Proof.
  intros (l & p & Hh & Hp). pose proof (aligned_after es) as A. set (ts := after window es) in *.
  assert (L : forall (x : list (obs T M)) o, x <> x ++ [o]).
  { intros x o E. apply (f_equal (@length _)) in E. rewrite app_length in E. simpl in E. lia. }
  destruct (tstep_kind ts te A) as [d| |e N|i r0 l0 d Ht Hd Hle|k]; try (exfalso; eapply L; exact Hh);
    cbn [happens t_st] in Hh.
  - exfalso. destruct (other_event (t_st ts) e N) as ((os & Eo & Ho) & _).
    unfold history in Hh. rewrite Eo, filter_app in Hh. apply app_inv_head in Hh.
    assert (In (OTimeout r l (Some p)) os).
    { assert (In (OTimeout r l (Some p)) (filter (about r) os)) by (rewrite Hh; simpl; auto).
      now apply filter_In in H. }
    rewrite forallb_forall in Ho. apply Ho in H. discriminate.
  - exfalso. pose proof (check_says _ _ _ _ _ Hh) as C.
    destruct (timer_cases (t_st ts) i r0 l0 Ht) as [Er _]. unfold phase_of in C. rewrite Er in C.
    destruct Hp as [->| ->]; [destruct C as [C1 C2]|destruct C as (C1 & C2 & _)]; rewrite C1 in C2; discriminate.
  - pose proof (check_says _ _ _ _ _ Hh) as C.
    destruct (cancel_cases (t_st ts) k) as [(E1 & E2 & Er)|(r0 & l0 & (res & Elog) & Hk & _)].
    + exfalso. unfold phase_of in C. rewrite Er in C.
      destruct Hp as [->| ->]; [destruct C as [C1 C2]|destruct C as (C1 & C2 & _)]; rewrite C1 in C2; discriminate.
    + unfold history in Hh. rewrite Elog, filter_app in Hh. apply app_inv_head in Hh.
      assert (H : In (OTimeout r l (Some p) : obs T M) [OTimeout r0 l0 res]).
      { assert (H : In (OTimeout r l (Some p) : obs T M) (filter (about r) [OTimeout r0 l0 res])) by (rewrite Hh; simpl; auto).
        now apply filter_In in H. }
      destruct H as [H|[]]. injection H as -> -> ->.
      assert (Hk' : k < length (t_came ts)) by (destruct A as [_ ->]; apply nth_error_Some; congruence).
      destruct (nth_error (t_came ts) k) as [a|] eqn:Ea; [|apply nth_error_None in Ea; lia].
      exists l, a. split; [exists k; auto|].
      destruct Hp as [->| ->]; [left|right]; tauto.
Qed.

Lemma not_before_a_window es te r : times_out window (after window es) te r ->
  exists es0 es1, es = es0 ++ es1 /\ t_now (after window es0) + window <= t_now (after window es) /\
    active (after window es0) r /\ handed_out (after window es0) r = handed_out (after window es) r.
Proof.
  intros H. destruct (who_times_out es te r H) as (l & a & Hc & Hp).
  destruct (origins es) as [_ O]. destruct (O _ _ _ Hc) as ((es0 & es1 & -> & Ht & Hl) & Ha).
  exists es0, es1. split; auto. split; [lia|].
  destruct (below es0 es1) as (evs & E).
  destruct Hl as [(-> & Hw)|(Ho & ->)].
  - split; [now left|]. unfold handed_out at 1. rewrite claimed_nil by now apply waiting_queue.
    destruct Hp as [Hp|(_ & Hp)].
    + unfold handed_out. now rewrite claimed_nil by now apply waiting_queue.
    + destruct (handed_out (after window (es0 ++ es1)) r); auto. simpl in Hp. lia.
  - split; [now right|].
    destruct (claims_grow es0 es1 r (open_queue _ _ Ho)) as (Q & Hm & H3 & H4).
    destruct Hp as [Hp|(_ & Hp)]; [exfalso; apply Q; now apply waiting_queue|].
    assert (length (handed_out (after window (es0 ++ es1)) r) <= length (handed_out (after window es0) r)).
    { unfold handed_out in *. rewrite !claimed_length in *. rewrite Hm in *. lia. }
    rewrite H3. replace (length (handed_out (after window es0) r)) with (length (handed_out (after window (es0 ++ es1)) r)) by lia.
    now rewrite firstn_all.
Qed.

(* ---- within two windows ---- *)
Lemma dues_bounded es r l d : In (r, l, d) (pend (after window es)) -> d <= t_now (after window es) + window.
Proof.
  revert r l d. induction es as [|te es IH] using rev_ind; [intros r l d []|].
  intros r l d H. rewrite after_snoc in *. pose proof (now_grows (after window es) te).
  destruct (pend_back _ te r l d (aligned_after es) H) as [H'|(-> & _)]; [|lia].
  specialize (IH _ _ _ H'). lia.
Qed.

Lemma watched_in_time es r : active (after window es) r ->
  exists l, (exists d, In (r, l, d) (pend (after window es))) \/ (exists a, has_check (after window es) r l a).
Proof.
  intros H. apply not_waiting_open in H as (s & Hg & Ha).
  destruct (watched _ (st_reachable es) r s Hg Ha) as (l & Hp). exists l.
  destruct (aligned_after es) as [A1 A2].
  destruct Hp as [Hin|(k & Hk)].
  - left. apply In_nth_error in Hin as (i & Hi).
    assert (Hlt : i < length (t_due (after window es))) by (rewrite A1; apply nth_error_Some; congruence).
    destruct (nth_error (t_due (after window es)) i) as [d|] eqn:Ed; [|apply nth_error_None in Ed; lia].
    exists d. eapply nth_error_In. eapply nth_combine; eauto.
  - right. assert (Hlt : k < length (t_came (after window es))) by (rewrite A2; apply nth_error_Some; congruence).
    destruct (nth_error (t_came (after window es)) k) as [a|] eqn:Ea; [|apply nth_error_None in Ea; lia].
    exists a, k. auto.
Qed.

Lemma read_between es0 es1 es2 r :
  let ts0 := after window es0 in let ts1 := after window (es0 ++ es1) in let ts := after window (es0 ++ es1 ++ es2) in
  has_tests_left ts r -> handed_out ts r = handed_out ts0 r ->
  read (t_st ts1) r = 0 \/ read (t_st ts1) r = length (handed_out ts0 r).
Proof.
  intros ts0 ts1 ts Hl Hs.
  destruct (the_queue (t_st ts1) r) as [[c1 js1]|] eqn:E1; [|left; unfold read; now rewrite E1].
  assert (Q1 : the_queue (t_st ts1) r <> None) by congruence.
  pose proof (claims_grow (es0 ++ es1) es2 r Q1) as (Q & Hm & _ & Hle). rewrite <- app_assoc in *. fold ts1 ts in Q, Hm, Hle.
  destruct Hl as [Hw|(Ho & Hlt)]; [exfalso; apply Q; now apply waiting_queue|].
  assert (Hr : read (t_st ts1) r = length (handed_out ts1 r)).
  { unfold handed_out in *. rewrite Hm in Hlt. rewrite (claimed_length (t_st ts1)) in *. lia. }
  rewrite Hr.
  destruct (the_queue (t_st ts0) r) as [[c0 js0]|] eqn:E0.
  - right. assert (Q0 : the_queue (t_st ts0) r <> None) by congruence.
    pose proof (claims_grow es0 es1 r Q0) as (_ & _ & _ & Hle0). fold ts0 ts1 in Hle0. rewrite <- Hs in *. lia.
  - right. unfold handed_out at 2. rewrite claimed_nil by auto. rewrite Hs in Hle. unfold handed_out at 2 in Hle.
    rewrite claimed_nil in Hle by auto. simpl in *. lia.
Qed.

Definition next_check (eps : nat) ts r (t0 n : nat) : Prop :=
  (exists l d, In (r, l, d) (pend ts) /\ d <= t0 + window) \/
  (exists l a, has_check ts r l a /\ a <= t0 + window + eps) \/
  (exists l d, In (r, l, d) (pend ts) /\ n <= l /\ d <= t0 + 2 * window + 2 * eps) \/
  (exists l a, has_check ts r l a /\ n <= l /\ a <= t0 + 2 * window + 3 * eps).

Lemma prompt_due eps ts r l d : prompt eps ts -> In (r, l, d) (pend ts) -> t_now ts <= d + eps.
Proof. intros [P _] H. apply P. unfold pend in H. eapply in_combine_r; eauto. Qed.
Lemma prompt_check eps ts r l a : prompt eps ts -> has_check ts r l a -> t_now ts <= a + eps.
Proof. intros [_ P] (k & H1 & H2). eapply P; eauto. Qed.

Lemma within_two_windows eps es0 es1 r :
  let ts0 := after window es0 in let ts := after window (es0 ++ es1) in
  always_prompt window eps (es0 ++ es1) -> active ts0 r -> active ts r -> has_tests_left ts r ->
  handed_out ts r = handed_out ts0 r ->
  t_now ts <= t_now ts0 + 2 * window + 4 * eps.
Proof.
  intros ts0 ts P A0 A Hl Hs. set (t0 := t_now ts0). set (n := length (handed_out ts0 r)).
  assert (K : forall ea eb, es1 = ea ++ eb -> next_check eps (after window (es0 ++ ea)) r t0 n).
  { induction ea as [|te ea IH] using rev_ind; intros eb E.
    - rewrite app_nil_r. fold ts0.
      destruct (watched_in_time es0 r A0) as (l & [(d & Hd)|(a & Ha)]).
      + left. exists l, d. split; auto. now apply dues_bounded in Hd.
      + right; left. exists l, a. split; auto. destruct (origins es0) as [_ O]. destruct (O _ _ _ Ha) as [_ Hle]. 
        unfold t0, ts0 in *. lia.
    - rewrite <- app_assoc in E. simpl in E. specialize (IH (te :: eb) E). rewrite app_assoc, after_snoc.
      set (ti := after window (es0 ++ ea)) in *.
      assert (Al : aligned ti) by apply aligned_after.
      assert (Pi : prompt eps ti). { apply (P (es0 ++ ea) (te :: eb)). subst es1. now rewrite app_assoc. }
      assert (Ai : active (tstep window ti te) r).
      { unfold ti. rewrite <- after_snoc, <- app_assoc. apply (active_between es0 (ea ++ [te]) eb r A0).
        rewrite <- app_assoc. simpl. rewrite <- E. exact A. }
      assert (Hr : read (t_st ti) r = 0 \/ read (t_st ti) r = n).
      { unfold ti, n, ts0. apply (read_between es0 ea (te :: eb) r); rewrite <- E; auto. }
      destruct IH as [(l & d & H & Hd)|[(l & a & H & Hd)|[(l & d & H & Hn & Hd)|(l & a & H & Hn & Hd)]]].
      + pose proof (prompt_due _ _ _ _ _ Pi H).
        destruct (pend_forth ti te r l d Al H Ai) as [H'|[(_ & H')|(_ & Hlt & H')]].
        * left. eauto.
        * right; left. do 2 eexists. split; [exact H'|lia].
        * right; right; left. do 2 eexists. split; [exact H'|]. split; lia.
      + pose proof (prompt_check _ _ _ _ _ Pi H).
        destruct (check_forth ti te r l a Al H Ai) as [H'|(Hlt & H')].
        * right; left. eauto.
        * right; right; left. do 2 eexists. split; [exact H'|]. split; lia.
      + pose proof (prompt_due _ _ _ _ _ Pi H).
        destruct (pend_forth ti te r l d Al H Ai) as [H'|[(_ & H')|(_ & Hlt & H')]].
        * right; right; left. eauto 6.
        * right; right; right. do 2 eexists. split; [exact H'|]. split; [auto|lia].
        * lia.
      + pose proof (prompt_check _ _ _ _ _ Pi H).
        destruct (check_forth ti te r l a Al H Ai) as [H'|(Hlt & H')].
        * right; right; right. eauto 6.
        * lia. }
  specialize (K es1 [] (eq_sym (app_nil_r _))). fold ts in K.
  assert (Pe : prompt eps ts) by (apply (P (es0 ++ es1) []); now rewrite app_nil_r).
  destruct K as [(l & d & H & Hd)|[(l & a & H & Hd)|[(l & d & H & Hn & Hd)|(l & a & H & Hn & Hd)]]].
  - pose proof (prompt_due _ _ _ _ _ Pe H). lia.
  - pose proof (prompt_check _ _ _ _ _ Pe H). lia.
  - pose proof (prompt_due _ _ _ _ _ Pe H). lia.
  - pose proof (prompt_check _ _ _ _ _ Pe H). lia.
Qed.

(* ---- deciding whether a given history is prompt ---- *)
Definition promptb (eps : nat) ts : bool :=
  forallb (fun d => Nat.leb (t_now ts) (d + eps)) (t_due ts) &&
  forallb (fun qa : request T * nat => let (q, a) := qa in
             match q with QTimeout _ _ false => Nat.leb (t_now ts) (a + eps) | _ => true end)
          (combine (s_reqs (t_st ts)) (t_came ts)).

Lemma promptb_ok eps ts : promptb eps ts = true -> prompt eps ts.
Proof.
  unfold promptb. intros H. apply andb_prop in H as [H1 H2]. rewrite forallb_forall in H1, H2. split.
  - intros d Hd. apply Nat.leb_le. auto.
  - intros k r l a Hk Ha. pose proof (nth_combine _ _ _ _ _ Hk Ha) as Hc. apply nth_error_In in Hc.
    specialize (H2 _ Hc). simpl in H2. now apply Nat.leb_le.
Qed.

Lemma promptly eps es :
  forallb (fun n => promptb eps (after window (firstn n es))) (seq 0 (S (length es))) = true -> always_prompt window eps es.
Proof.
  intros H es0 es1 ->. apply promptb_ok. rewrite forallb_forall in H.
  specialize (H (length es0)). rewrite firstn_app, Nat.sub_diag, firstn_all in H. simpl firstn in H. rewrite app_nil_r in H.
  apply H. apply in_seq. rewrite app_length. lia.
Qed.

End Timed.
