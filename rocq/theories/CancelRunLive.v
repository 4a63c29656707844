(* The number of steps of a run that may be cancelled. *)
From Verif Require Import Base JobQueueModel JobQueueSpec JobQueueLemmas.
From Verif Require Import StatusModel FetchModel FetchSpec FetchProofs FetchAttempts RunnerModel RunnerSpec RunnerProofs RunnerLive SystemModel SystemSpec RunnerFeed SystemProofs SystemEnd SystemLive.
From Verif Require Import CancelRunModel CancelRunSpec CancelRunProofs CancelRunEnd.

Fixpoint isum {A} (f : nat -> A -> nat) (i : nat) (l : list A) : nat := match l with [] => 0 | a :: l' => f i a + isum f (S i) l' end.
Lemma isum_upd {A} (f : nat -> A -> nat) l : forall i o x x', nth_error l i = Some x -> isum f o (upd i x' l) + f (o + i) x = isum f o l + f (o + i) x'.
Proof.
  induction l as [|a l IH]; intros [|i] o x x' E; try discriminate; cbn [nth_error upd isum] in *.
  - injection E as ->. rewrite Nat.add_0_r. lia.
  - specialize (IH i (S o) x x' E). replace (o + S i) with (S o + i) by lia. lia.
Qed.
Lemma isum_ext {A} (f g : nat -> A -> nat) l : forall o, (forall i a, nth_error l i = Some a -> f (o + i) a = g (o + i) a) -> isum f o l = isum g o l.
Proof.
  induction l as [|a l IH]; intros o H; auto. cbn [isum]. f_equal.
  - specialize (H 0 a eq_refl). now rewrite Nat.add_0_r in H.
  - apply IH. intros i b E. specialize (H (S i) b E). now replace (S o + i) with (o + S i) by lia.
Qed.
Lemma isum_sum {A} (f : A -> nat) l : forall o, isum (fun _ => f) o l = sum (map f l).
Proof. induction l as [|a l IH]; intros o; auto. cbn [isum map sum fold_right]. now rewrite IH. Qed.

Section Measure.
Variable c : config nat.
Let N := length (tests_of c).

Definition told (k : crun) (i : nat) : bool := existsb (Nat.eqb i) (k_told k).
Definition weight (k : crun) (i : nat) (sl : slot) : nat :=
  if told k i then measure (N * p_max (sl_params sl)) (sl_runner sl) else slot_measure c sl.
Definition run_measure (k : crun) : nat :=
  isum (weight k) 0 (y_slots (k_system k)) + sum (map (thread_measure c) (st_threads (y_queue (k_system k)))) + (if k_cancelled k then 0 else 1).

Lemma told_in k i : told k i = true <-> In i (k_told k).
Proof. unfold told. rewrite existsb_exists. split; [intros (j & J & E); apply Nat.eqb_eq in E; now subst|intros I; exists i; split; auto; apply Nat.eqb_refl]. Qed.

Lemma same_slot (y : system) i sl : nth_error (y_slots y) i = Some sl -> with_slot y (y_queue y) i sl = y.
Proof.
  intros E. unfold with_slot. destruct y as [q sls]. cbn [y_slots y_queue] in *. f_equal. revert i E. induction sls as [|a sls IH]; intros [|i] E; try discriminate; cbn [upd nth_error] in *.
  - now injection E as ->.
  - f_equal. auto.
Qed.

Lemma cut_measure ps z zl sl e : sound c ps -> SInv c ps z -> In zl (y_slots z) -> cut (y_queue z) zl sl ->
  rstep (p_batch (sl_params sl)) (sl_runner sl) e = sl_runner sl \/
  measure (N * p_max (sl_params sl)) (rstep (p_batch (sl_params sl)) (sl_runner sl) e) < measure (N * p_max (sl_params sl)) (sl_runner sl).
Proof.
  intros SO I S C. destruct (cut_runner c ps z zl sl SO I S C) as (PR & _ & M & B & ST & R & _). rewrite (u_params _ _ _ C).
  destruct e as [|o|]; cbn [rstep]; [|apply task_measure|apply sender_measure].
  set (ss := [script c (y_queue z) (sl_taken zl) ++ [last_reply]]) in *. set (max := p_max (sl_params zl)) in *. set (batch := p_batch (sl_params zl)) in *. set (s := sl_runner sl) in *.
  destruct (producer_measure ss max batch s PR M R) as [Q|Q]; auto. right.
  assert (LE : length (source_tests ss) <= N).
  { rewrite ST, map_length. apply NoDup_incl_length.
    - pose proof (got_nodup c ps z SO I) as ND. apply in_split in S as (l1 & l2 & E). rewrite E, flat_map_app in ND. apply NoDup_app_r in ND. now apply NoDup_app_l in ND.
    - intros x X. now apply (got_in_manifest c ps z zl). }
  pose proof (handed_bound ss max _ PR M (v_hist _ _ _ _ R)) as H1.
  pose proof (handed_bound ss max _ PR M (v_hist _ _ _ _ (rstep_inv _ _ _ _ Producer PR M B R))) as H2. cbn [rstep] in H2.
  assert (LM : length (source_tests ss) * max <= N * max) by (apply Nat.mul_le_mono_r; auto).
  unfold measure in *. lia.
Qed.

(* An event of an untold runner costs in the run what it costs in the system behind it. *)
Lemma untold_measure k z q' i sl sl' : nth_error (y_slots (k_system k)) i = Some sl -> nth_error (y_slots z) i = Some sl -> ~ In i (k_told k) -> y_queue z = y_queue (k_system k) ->
  system_measure c (with_slot z q' i sl') < system_measure c z ->
  run_measure {| k_system := with_slot (k_system k) q' i sl'; k_cancelled := k_cancelled k; k_told := k_told k |} < run_measure k.
Proof.
  intros E EZ T EQ L. unfold system_measure, run_measure in *. cbn [with_slot y_slots y_queue k_system k_cancelled] in *. rewrite EQ in L.
  pose proof (sum_upd (slot_measure c) (y_slots z) i sl sl' EZ) as A.
  set (k' := {| k_system := with_slot (k_system k) q' i sl'; k_cancelled := k_cancelled k; k_told := k_told k |}).
  pose proof (isum_upd (weight k') (y_slots (k_system k)) i 0 sl sl' E) as B. cbn [plus] in B.
  change (weight k') with (weight k) in *. assert (W : told k i = false) by (destruct (told k i) eqn:W; auto; apply told_in in W; contradiction).
  assert (W1 : forall s, weight k i s = slot_measure c s) by (intros s; unfold weight; now rewrite W). rewrite !W1 in B. lia.
Qed.

Lemma cstep_measure ps k z e : sound c ps -> CInv c ps k z -> cstep c k e = k \/ run_measure (cstep c k e) < run_measure k.
Proof.
  intros SO I. pose proof (n_z _ _ _ _ I) as Z. pose proof (n_queue _ _ _ _ I) as EQ. destruct e as [e|]; cbn [cstep].
  2:{ destruct (existsb _ _); auto. destruct k as [y [|] t]; auto. right. unfold run_measure. cbn [k_system k_cancelled k_told].
      assert (W : forall l o, isum (weight {| k_system := y; k_cancelled := true; k_told := t |}) o l = isum (weight {| k_system := y; k_cancelled := false; k_told := t |}) o l) by (intros l o; apply isum_ext; reflexivity).
      rewrite W. lia. }
  assert (KID : {| k_system := k_system k; k_cancelled := k_cancelled k; k_told := k_told k |} = k) by (now destruct k).
  destruct (k_cancelled k) eqn:CA; cbn [negb].
  2:{ pose proof (live_same _ _ _ _ I CA) as EK. pose proof (n_live _ _ _ _ I CA) as TL. rewrite <- EK in *. destruct (sstep_measure c ps z e SO Z) as [Q|Q].
      - left. now rewrite Q.
      - right. unfold system_measure in Q. unfold run_measure. cbn [k_system k_cancelled]. rewrite CA, <- EK.
        assert (W : forall y b l, isum (weight {| k_system := y; k_cancelled := b; k_told := k_told k |}) 0 l = sum (map (slot_measure c) l)).
        { intros y b l. rewrite <- (isum_sum (slot_measure c) l 0). apply isum_ext. intros i a _. unfold weight, told. cbn [k_told]. now rewrite TL. }
        rewrite W. change (weight k) with (weight {| k_system := k_system k; k_cancelled := k_cancelled k; k_told := k_told k |}). rewrite W. lia. }
  assert (FIND : forall i sl, nth_error (y_slots (k_system k)) i = Some sl -> exists zl, nth_error (y_slots z) i = Some zl).
  { intros i sl E. destruct (nth_error (y_slots z) i) eqn:Q; eauto. apply nth_error_None in Q. assert (i < length (y_slots (k_system k))) by (apply nth_error_Some; congruence). pose proof (n_len _ _ _ _ I). lia. }
  (* an event at an untold slot *)
  assert (UN : forall ev i zl q' sl', nth_error (y_slots (k_system k)) i = Some zl -> nth_error (y_slots z) i = Some zl -> ~ In i (k_told k) ->
            sstep c (k_system k) ev = with_slot (k_system k) q' i sl' -> sstep c z ev = with_slot z q' i sl' ->
            {| k_system := sstep c (k_system k) ev; k_cancelled := true; k_told := k_told k |} = k \/
            run_measure {| k_system := sstep c (k_system k) ev; k_cancelled := true; k_told := k_told k |} < run_measure k).
  { intros ev i zl q' sl' E EZ T E1 E2. destruct (sstep_measure c ps z ev SO Z) as [Q|Q].
    - left. rewrite E2 in Q. rewrite E1. assert (SL : sl' = zl).
      { apply (f_equal (fun y => nth_error (y_slots y) i)) in Q. cbn [with_slot y_slots] in Q. rewrite nth_error_upd_eq, EZ in Q by (apply nth_error_Some; congruence). now injection Q. }
      assert (QQ : q' = y_queue (k_system k)) by (apply (f_equal y_queue) in Q; cbn [with_slot y_queue] in Q; congruence).
      rewrite SL, QQ, (same_slot _ _ _ E). exact KID.
    - right. rewrite E1. rewrite E2 in Q. pose proof (untold_measure k z q' i zl sl' E EZ T EQ Q) as X. rewrite CA in X. exact X. }
  destruct e as [i|j|i|i e].
  - destruct (nth_error (y_slots (k_system k)) i) as [sl|] eqn:E; [|left; cbn [sstep]; rewrite E; exact KID].
    destruct (FIND i sl E) as (zl & EZ). destruct (n_slot _ _ _ _ I i sl zl E EZ) as [[T CU]|[T ->]].
    + left. destruct (cut_runner c ps z zl sl SO Z (nth_error_In _ _ EZ) CU) as (_ & _ & _ & _ & _ & _ & OV). cbn [sstep]. rewrite E, (u_pending _ _ _ CU), (over_asking _ OV). exact KID.
    + destruct (sl_pending zl) as [j|] eqn:PE; [left; cbn [sstep]; rewrite E, PE; exact KID|].
      destruct (asking (sl_runner zl) && negb (Nat.eqb (p_batch (sl_params zl)) 0)) eqn:AS; [|left; cbn [sstep]; rewrite E, PE, AS; exact KID].
      eapply (UN (Ask i) i zl); auto; cbn [sstep]; rewrite ?E, ?EZ, PE, AS, ?EQ; reflexivity.
  - now left.
  - destruct (nth_error (y_slots (k_system k)) i) as [sl|] eqn:E.
    2:{ left. unfold has_answer, has_request. now rewrite E. }
    destruct (FIND i sl E) as (zl & EZ). destruct (n_slot _ _ _ _ I i sl zl E EZ) as [[T CU]|[T ->]].
    + left. unfold has_answer, has_request. now rewrite E, (u_pending _ _ _ CU).
    + destruct (has_answer c (k_system k) i) eqn:HA.
      * unfold has_answer in HA. rewrite E in HA. destruct (sl_pending zl) as [j|] eqn:PE; [|discriminate].
        destruct (nth_error (st_threads (y_queue (k_system k))) j) as [t|] eqn:K; [|discriminate]. destruct (answer_of c t) as [b|] eqn:AO; [|discriminate].
        eapply (UN (Reply i) i zl); auto; cbn [sstep]; rewrite ?E, ?EZ, PE, ?EQ, K, AO; reflexivity.
      * destruct (has_request (k_system k) i) eqn:HR; [|now left]. unfold has_request in HR. rewrite E in HR. destruct (sl_pending zl) as [j|] eqn:PE; [|discriminate].
        right. unfold refuse. rewrite E. unfold run_measure. cbn [k_system k_cancelled with_slot y_slots y_queue]. rewrite CA.
        destruct (slot_of c ps z zl Z (nth_error_In _ _ EZ)) as [IP SI]. destruct (s_pend _ _ _ SI j PE) as [_ AS].
        assert (L : length (sl_taken zl) <= N) by (apply (few_taken c ps z zl); auto; [eapply nth_error_In; eauto|now apply asking_goes_on]).
        set (sl' := {| sl_params := sl_params zl; sl_pending := None; sl_taken := sl_taken zl; sl_runner := feed cancelled_answer (sl_runner zl) |}).
        set (k' := {| k_system := _; k_cancelled := true; k_told := k_told k ++ [i] |}).
        assert (TI : told k' i = true) by (apply told_in; apply in_or_app; right; now left).
        assert (TF : told k i = false) by (destruct (told k i) eqn:W; auto; apply told_in in W; contradiction).
        assert (TS : forall m, m <> i -> told k' m = told k m).
        { intros m NE. unfold told. cbn [k' k_told]. rewrite existsb_app. cbn [existsb]. destruct (Nat.eqb_spec m i); [contradiction|]. now rewrite !orb_false_r. }
        pose proof (isum_upd (weight k') (y_slots (k_system k)) i 0 zl sl' E) as B. cbn [plus] in B.
        assert (X : isum (weight k') 0 (y_slots (k_system k)) + weight k i zl = isum (weight k) 0 (y_slots (k_system k)) + weight k' i zl).
        { clear - E TS. assert (G : forall l o m, nth_error l m = Some zl -> (o + m = i) -> isum (weight k') o l + weight k i zl = isum (weight k) o l + weight k' i zl).
          { induction l as [|a l IH]; intros o [|m] E0 Q; try discriminate; cbn [nth_error isum] in *.
            - injection E0 as ->. rewrite Nat.add_0_r in Q. subst o. rewrite (isum_ext (weight k') (weight k) l (S i)); [lia|].
              intros m a _. unfold weight. rewrite TS; auto. lia.
            - specialize (IH (S o) m E0). replace (S o + m) with (o + S m) in IH by lia. specialize (IH Q). assert (W : weight k' o a = weight k o a) by (unfold weight; rewrite TS; auto; lia). lia. }
          apply (G _ 0 i); auto. }
        assert (W1 : weight k i zl = slot_measure c zl) by (unfold weight; now rewrite TF).
        assert (W2 : weight k' i sl' = measure (N * p_max (sl_params zl)) (feed cancelled_answer (sl_runner zl))) by (unfold weight; now rewrite TI).
        assert (MF : measure (N * p_max (sl_params zl)) (feed cancelled_answer (sl_runner zl)) = 1 + (measure (N * p_max (sl_params zl)) (sl_runner zl))).
        { apply asking_iff in AS as [_ AS]. unfold measure. rewrite feed_grow. unfold growr, growf. cbn [set_prod r_world with_fetcher w_fetcher f_sources r_prod r_chan r_refills r_task r_results r_sender_done]. rewrite AS.
          change (handed (with_fetcher (r_world (sl_runner zl)) _)) with (handed (r_world (sl_runner zl))). cbn [concat app length]. lia. }
        assert (WA : 3 <= waits c zl).
        { unfold waits. rewrite PE. fold N. assert (Y : N + 8 <= (N + 8) * (1 + N - length (sl_taken zl))) by (rewrite <- (Nat.mul_1_r (N + 8)) at 1; apply Nat.mul_le_mono_l; lia). lia. }
        unfold slot_measure in W1. fold N in W1. lia.
  - destruct (nth_error (y_slots (k_system k)) i) as [sl|] eqn:E; [|left; cbn [sstep]; rewrite E; exact KID].
    destruct (FIND i sl E) as (zl & EZ). destruct (n_slot _ _ _ _ I i sl zl E EZ) as [[T CU]|[T ->]].
    + cbn [sstep]. rewrite E. destruct (cut_measure ps z zl sl e SO Z (nth_error_In _ _ EZ) CU) as [Q|Q].
      * left. rewrite Q. assert (ES : {| sl_params := sl_params sl; sl_pending := sl_pending sl; sl_taken := sl_taken sl; sl_runner := sl_runner sl |} = sl) by (now destruct sl).
        rewrite ES, (same_slot _ _ _ E). exact KID.
      * right. unfold run_measure. cbn [k_system k_cancelled with_slot y_slots y_queue]. rewrite CA.
        set (sl' := {| sl_params := sl_params sl; sl_pending := sl_pending sl; sl_taken := sl_taken sl; sl_runner := rstep (p_batch (sl_params sl)) (sl_runner sl) e |}).
        match goal with |- context [isum (weight ?x) 0 (upd _ _ _)] => change (weight x) with (weight k) end.
        pose proof (isum_upd (weight k) (y_slots (k_system k)) i 0 sl sl' E) as B. cbn [plus] in B.
        assert (W : forall s, weight k i s = measure (N * p_max (sl_params s)) (sl_runner s)) by (intros s; unfold weight; apply told_in in T; now rewrite T).
        rewrite !W in B. cbn [sl' sl_params sl_runner] in B. lia.
    + eapply (UN (Go i e) i zl); auto; cbn [sstep]; rewrite ?E, ?EZ, ?EQ; reflexivity.
Qed.

Lemma run_bound ps es : sound c ps -> forall k z, CInv c ps k z -> run_effective c k es -> length es <= run_measure k.
Proof.
  intros SO. induction es as [|e es IH]; intros k z I E; cbn [length]; [lia|]. destruct E as [E1 E2]. destruct (CInv_step c ps k z e SO I) as (z' & I').
  specialize (IH _ z' I' E2). destruct (cstep_measure ps k z e SO I) as [Q|Q]; [congruence|lia].
Qed.

Lemma cinit_measure ps : run_measure (cinit c ps) = system_measure c (sinit c ps) + 1.
Proof.
  unfold run_measure, system_measure. cbn [cinit k_system k_cancelled]. f_equal. f_equal. rewrite <- (isum_sum (slot_measure c) _ 0). apply isum_ext. reflexivity.
Qed.
End Measure.
