(* What the queue records about who ran which test. *)
From Verif Require Import Base JobQueueModel JobQueueSpec JobQueueLemmas.
From Verif Require Import StatusModel FetchModel FetchSpec FetchProofs RunnerModel RunnerSpec RunnerProofs SystemModel SystemSpec SystemProofs SystemEnd.

Implicit Types (c : config nat) (st : JobQueueModel.state).

Definition mem (k : nat) (l : list nat) : bool := existsb (Nat.eqb k) l.
Lemma mem_In k l : mem k l = true <-> In k l.
Proof. unfold mem. rewrite existsb_exists. split; [intros (x & X & E); apply Nat.eqb_eq in E; now subst|intros X; exists k; split; auto; apply Nat.eqb_refl]. Qed.

Record LogInv st (sl : slot) : Prop := {
  l_tags : forall k, In k (owned sl) -> requester st k = Some (p_tag (sl_params sl));
  l_log : filter (fun k => mem k (owned sl)) (st_log st) =
          sl_taken sl ++ match sl_pending sl with Some k => if mem k (st_log st) then [k] else [] | None => [] end
}.

Lemma requester_stable c st ev k w : requester st k = Some w -> requester (JobQueueModel.step c st ev) k = Some w.
Proof.
  unfold requester. destruct (nth_error (st_threads st) k) as [t|] eqn:K; [|discriminate]. cbn [option_map]. intros [= <-]. destruct ev as [who n|j]; cbn [JobQueueModel.step].
  - destruct (Nat.eqb n 0); [now rewrite K|]. cbn [st_threads]. rewrite nth_error_app1; [now rewrite K|]. apply nth_error_Some. congruence.
  - destruct (nth_error (st_threads st) j) as [u|] eqn:J; [|now rewrite K]. destruct (thread_step _ _ _ u) as [[p' o'] pc']. cbn [st_threads].
    destruct (Nat.eq_dec j k) as [->|NE].
    + rewrite nth_error_upd_eq by (apply nth_error_Some; congruence). cbn. congruence.
    + rewrite nth_error_upd_neq; auto. now rewrite K.
Qed.

Lemma log_arrive c st who n : st_log (JobQueueModel.step c st (Arrive who n)) = st_log st.
Proof. cbn [JobQueueModel.step]. destruct (Nat.eqb n 0); auto. Qed.

Lemma slot_log_step c st sl j : reachable c st -> SlotInv c st sl -> LogInv st sl -> LogInv (JobQueueModel.step c st (Step j)) sl.
Proof.
  intros R SI [LT LL]. constructor; [intros k K; apply requester_stable; auto|].
  cbn [JobQueueModel.step]. destruct (nth_error (st_threads st) j) as [t|] eqn:J; auto. destruct (thread_step c _ _ t) as [[p' o'] pc']. cbn [st_log].
  unfold claims_now. destruct (th_pc t) eqn:P; auto.
  assert (NJ : ~ In j (st_log st)) by (intros X; apply (JobQueueProofs.inv_log _ _ (reachable_inv _ _ R) j t J) in X; congruence).
  assert (NT : ~ In j (sl_taken sl)).
  { intros X. pose proof (s_taken _ _ _ SI) as F. unfold answered_all in F. rewrite Forall_forall in F. destruct (F j X) as (b & A). apply answer_done in A as (t' & s & e & K & Q & _). congruence. }
  rewrite filter_app, LL. cbn [filter]. unfold owned. unfold mem at 2. rewrite existsb_app. fold (mem j (sl_taken sl)).
  assert (MT : mem j (sl_taken sl) = false) by (destruct (mem j (sl_taken sl)) eqn:Q; auto; apply mem_In in Q; contradiction). rewrite MT. cbn [orb].
  assert (ME : forall k, mem k (st_log st ++ [j]) = mem k (st_log st) || Nat.eqb k j) by (intros k; unfold mem; rewrite existsb_app; cbn [existsb]; now rewrite orb_false_r).
  destruct (sl_pending sl) as [k|] eqn:PE; cbn [existsb orb]; [|now rewrite !app_nil_r]. rewrite ME, orb_false_r, (Nat.eqb_sym j k).
  destruct (Nat.eqb_spec k j) as [->|NE].
  - assert (MJ : mem j (st_log st) = false) by (destruct (mem j (st_log st)) eqn:Q; auto; apply mem_In in Q; contradiction). rewrite MJ. cbn [orb]. now rewrite app_nil_r.
  - now rewrite orb_false_r, app_nil_r.
Qed.

Lemma sinit_log c ps : Forall (LogInv (y_queue (sinit c ps))) (y_slots (sinit c ps)).
Proof.
  apply Forall_forall. intros sl S. apply in_map_iff in S as (p & <- & _). constructor; cbn [sl_taken sl_pending owned app]; [intros k []|reflexivity].
Qed.

Lemma filter_ext_In {A} (f g : A -> bool) l : (forall x, In x l -> f x = g x) -> filter f l = filter g l.
Proof. induction l as [|a l IH]; intros H; auto. cbn [filter]. rewrite (H a (or_introl eq_refl)), IH; auto. intros; apply H; now right. Qed.

Lemma sstep_log c ps y e : SInv c ps y -> Forall (LogInv (y_queue y)) (y_slots y) -> Forall (LogInv (y_queue (sstep c y e))) (y_slots (sstep c y e)).
Proof.
  intros I F. destruct e as [i|k|i|i e]; cbn [sstep].
  - destruct (nth_error (y_slots y) i) as [sl|] eqn:E; auto. destruct (sl_pending sl) as [k|] eqn:PE; auto.
    destruct (asking (sl_runner sl)) eqn:AS; auto. destruct (Nat.eqb_spec (p_batch (sl_params sl)) 0) as [|NZ]; auto. cbn [negb andb]. cbn [with_slot y_queue y_slots].
    pose proof (nth_error_In _ _ E) as S.
    set (ev := Arrive (p_tag (sl_params sl)) (p_batch (sl_params sl))).
    assert (LG : st_log (JobQueueModel.step c (y_queue y) ev) = st_log (y_queue y)) by apply log_arrive.
    apply Forall_upd.
    + eapply Forall_impl; [|exact F]. intros sl0 [LT LL]. constructor; [intros k K; apply requester_stable; auto|]. now rewrite LG.
    + rewrite Forall_forall in F. destruct (F sl S) as [LT LL].
      assert (NI : ~ In (length (st_threads (y_queue y))) (st_log (y_queue y))).
      { intros X. apply (JobQueueProofs.inv_log_len _ _ (reachable_inv _ _ (y_reach _ _ _ I))) in X. lia. }
      constructor; cbn [sl_params sl_pending sl_taken owned].
      * intros k K. apply in_app_or in K as [K|[<-|[]]].
        -- apply requester_stable. apply LT. unfold owned. apply in_or_app. auto.
        -- unfold ev, requester. cbn [JobQueueModel.step]. destruct (Nat.eqb_spec (p_batch (sl_params sl)) 0); [contradiction|]. cbn [st_threads].
           rewrite nth_error_app2, Nat.sub_diag; auto.
      * rewrite LG. assert (MF : mem (length (st_threads (y_queue y))) (st_log (y_queue y)) = false) by (destruct (mem _ _) eqn:Q; auto; apply mem_In in Q; contradiction).
        rewrite MF, app_nil_r. rewrite PE, app_nil_r in LL. etransitivity; [|exact LL]. apply filter_ext_In. intros k K. unfold owned. cbn [sl_taken sl_pending]. rewrite PE. unfold mem. rewrite !existsb_app. cbn [existsb].
        destruct (Nat.eqb_spec k (length (st_threads (y_queue y)))) as [->|NE]; [contradiction|]. reflexivity.
  - cbn [y_queue y_slots]. rewrite Forall_forall in *. intros sl S. apply slot_log_step; auto; [exact (y_reach _ _ _ I)|]. exact (proj2 (slot_of c ps y sl I S)).
  - destruct (nth_error (y_slots y) i) as [sl|] eqn:E; auto. destruct (sl_pending sl) as [k|] eqn:PE; auto.
    destruct (nth_error (st_threads (y_queue y)) k) as [t|] eqn:K; auto. destruct (answer_of c t) as [b|] eqn:AO; auto. cbn [with_slot y_queue y_slots].
    apply Forall_upd; auto. rewrite Forall_forall in F. destruct (F sl (nth_error_In _ _ E)) as [LT LL].
    assert (OE : owned {| sl_params := sl_params sl; sl_pending := None; sl_taken := sl_taken sl ++ [k]; sl_runner := feed b (sl_runner sl) |} = owned sl)
      by (unfold owned; cbn [sl_taken sl_pending]; now rewrite PE, app_nil_r).
    constructor; rewrite OE; cbn [sl_params sl_pending sl_taken]; auto. rewrite LL, PE, app_nil_r. f_equal.
    assert (A : answer c (y_queue y) k = Some b) by (unfold answer; now rewrite K). destruct (answer_answered c _ k b A) as (who & n & D & _).
    destruct (log_complete c _ (y_reach _ _ _ I)) as [_ LC]. assert (X : mem k (st_log (y_queue y)) = true) by (apply mem_In; eapply LC; eauto). now rewrite X.
  - destruct (nth_error (y_slots y) i) as [sl|] eqn:E; auto. cbn [with_slot y_queue y_slots].
    apply Forall_upd; auto. rewrite Forall_forall in F. destruct (F sl (nth_error_In _ _ E)) as [LT LL]. constructor; cbn [owned sl_params sl_pending sl_taken]; auto.
Qed.

Lemma reach_log c ps es : sound c ps -> SInv c ps (run (sstep c) (sinit c ps) es) /\
  Forall (LogInv (y_queue (run (sstep c) (sinit c ps) es))) (y_slots (run (sstep c) (sinit c ps) es)).
Proof.
  intros SO. apply (run_invariant (sstep c) (fun y => SInv c ps y /\ Forall (LogInv (y_queue y)) (y_slots y))).
  - intros y e [A B]. split; [now apply sstep_inv|now apply (sstep_log c ps)].
  - split; [apply sinit_inv|apply sinit_log].
Qed.

(* The tests the queue has down for a runner, once all requests are answered, are those that
   it was sent, in order. *)
Lemma partition_got c ps y i sl : sound c ps -> reaches c ps y -> NoDup (map p_tag ps) -> all_finished y ->
  nth_error (y_slots y) i = Some sl -> p_tag (sl_params sl) <> TExternalClient ->
  partition_for c (y_queue y) (p_tag (sl_params sl)) = got_tests c y sl.
Proof.
  intros SO (es & E) NT F EI NX. destruct (reach_log c ps es SO) as [I L]. rewrite <- E in *.
  destruct (all_done c ps y I F) as [Q P]. rewrite (partition_exact c _ _ (y_reach _ _ _ I) Q NX). rewrite <- flat_map_concat_map. unfold got_tests. f_equal.
  pose proof (nth_error_In _ _ EI) as S. rewrite Forall_forall in L. destruct (L sl S) as [LT LL].
  destruct (slot_of c ps y sl I S) as [_ SI]. unfold all_finished in F. rewrite Forall_forall in F.
  destruct (finished_srcs _ _ _ SI (F sl S)) as [PN _]. rewrite PN, app_nil_r in LL. etransitivity; [|exact LL]. apply filter_ext_In. intros k K.
  assert (X : In k (flat_map sl_taken (y_slots y))) by (apply (Permutation_in _ (Permutation_sym P)); auto).
  apply in_flat_map in X as (sl' & S' & X). destruct (L sl' S') as [LT' _]. rewrite (LT' k) by (unfold owned; apply in_or_app; auto).
  destruct (mem k (owned sl)) eqn:M.
  - apply mem_In in M. assert (Z := LT k M). rewrite (LT' k) in Z by (unfold owned; apply in_or_app; auto). injection Z as ->. now apply tag_eqb_true.
  - destruct (tag_eqb _ _) eqn:TE; auto. apply tag_eqb_true in TE. apply In_nth_error in S' as (j & EJ).
    assert (i = j).
    { pose proof (y_params _ _ _ I) as YP. assert (A : nth_error (map p_tag ps) i = Some (p_tag (sl_params sl))) by (rewrite <- YP, map_map; now apply (map_nth_error (fun x => p_tag (sl_params x)))).
      assert (B : nth_error (map p_tag ps) j = Some (p_tag (sl_params sl'))) by (rewrite <- YP, map_map; now apply (map_nth_error (fun x => p_tag (sl_params x)))).
      rewrite NoDup_nth_error in NT. apply NT; [apply nth_error_Some; congruence|congruence]. }
    subst j. rewrite EI in EJ. injection EJ as <-. exfalso. assert (Y : mem k (owned sl) = true) by (apply mem_In; unfold owned; apply in_or_app; auto). congruence.
Qed.
