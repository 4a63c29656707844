(* What follows from the invariant of RetriedSystem for the reports. *)
From Verif Require Import Base JobQueueModel JobQueueSpec JobQueueLemmas.
From Verif Require JobQueueProofs.
From Verif Require Import StatusModel FetchModel FetchSpec FetchProofs FetchAttempts RunnerModel RunnerSpec RunnerProofs RunnerLive SystemModel SystemSpec RunnerFeed SystemProofs SystemEnd SystemOrder.
From Verif Require Import RetriedModel RetriedSpec RetriedFlat RetriedProofs RetriedSystem.

Implicit Types (c : config nat) (st : JobQueueModel.state).

Lemma proc_reports c st pr : reachable c st -> NoDup (tests_of c) -> ProcInv c st pr ->
  NoDup (map rkey (sent_by pr)) /\
  forall r, In r (sent_by pr) -> In (ar_work r) (tests_got c st pr) /\ 1 <= ar_run r <= p_max (q_params pr).
Proof.
  intros RE ND I. pose proof (proc_rinv c st pr RE ND I) as R. pose proof (whole_proper c st pr RE ND I) as PR. destruct (p_ok _ _ _ I) as (_ & M & _).
  destruct (v_keys _ _ _ _ R) as (got & E1 & E2). destruct (v_hist _ _ _ _ R) as (es & IO & W).
  destruct (hist_runs _ _ PR M es IO) as (HR & HN & HI). rewrite <- W in HR, HN, HI.
  assert (K : exists later, map key (handed (r_world (flatr (q_runner pr)))) = map rkey (sent_by pr) ++ later).
  { rewrite E1, map_app, E2. unfold reports, sent_by. rewrite map_app, <- !app_assoc. eauto. }
  destruct K as (later & K). rewrite K in HN. split; [now apply NoDup_app_l in HN|]. intros r IR.
  assert (X : In (rkey r) (map key (handed (r_world (flatr (q_runner pr)))))) by (rewrite K; apply in_or_app; left; now apply in_map).
  apply in_map_iff in X as (t & Et & It). unfold key, rkey in Et. injection Et as Ei Er. split.
  - rewrite (whole_tests c st pr I), ids_fresh in HI. rewrite <- Ei. apply HI. now apply in_map.
  - rewrite Forall_forall in HR. rewrite <- Er. auto.
Qed.

Lemma response_claims c st pr k x : ProcInv c st pr -> In k (q_taken pr) -> In x (response c st k) -> claims c st k x.
Proof. intros I K X. pose proof (p_taken _ _ _ I) as F. unfold answered_all in F. rewrite Forall_forall in F. destruct (F k K) as (b & A). now apply (answer_claims c st k b x A). Qed.

(* A process only gets tests that some request of its tag has claimed. *)
Lemma got_claims c st pr x : ProcInv c st pr -> In x (tests_got c st pr) -> exists k, claims c st k x /\ requester st k = Some (tag_of pr).
Proof.
  intros I X. unfold tests_got in X. apply in_app_or in X as [X|X].
  - destruct (p_claims _ _ _ I x X) as (k & _ & C & R). eauto.
  - apply in_flat_map in X as (k & K & X). exists k. split; [eapply response_claims; eauto|]. apply (p_tags _ _ _ I). unfold powned. apply in_or_app; auto.
Qed.

Lemma claims_in_manifest c st k x : claims c st k x -> In x (tests_of c).
Proof. intros (s & e & i & g & _ & _ & N). apply nth_tests in N. eapply nth_error_In; eauto. Qed.

Lemma one_tag c st p1 p2 x : reachable c st -> NoDup (tests_of c) -> ProcInv c st p1 -> ProcInv c st p2 ->
  In x (tests_got c st p1) -> In x (tests_got c st p2) -> tag_of p1 = tag_of p2.
Proof.
  intros RE ND I1 I2 X1 X2. destruct (got_claims c st p1 x I1 X1) as (k1 & C1 & R1). destruct (got_claims c st p2 x I2 X2) as (k2 & C2 & R2).
  assert (k1 = k2) by (eapply claims_unique; eauto). subst k2. congruence.
Qed.

Lemma finished_proc c st pr : ProcInv c st pr -> finished (q_runner pr) ->
  q_pending pr = None /\ q_retry pr <> Some None /\ length (raw pr) <= 1 /\ (raw pr = [[]] \/ raw pr = []).
Proof.
  intros I (P & _). split.
  - destruct (q_pending pr) as [k|] eqn:E; auto. destruct (p_pend _ _ _ I k E) as [_ A]. apply asking_iff in A as [A _]. congruence.
  - destruct (p_raw _ _ _ I) as [(_ & _ & X & _)|[(ids & _ & _ & X & _)|(NR & L & W)]]; try congruence. split; auto. split; auto.
    destruct W as [(A & _)|(l & k & _ & _ & _ & [(b & _ & _ & Q)|(_ & Q)])]; auto. congruence.
Qed.

(* A runner that has returned has reported a first attempt of every test it got, in order. *)
Lemma finished_firsts_proc c st pr : reachable c st -> NoDup (tests_of c) -> ProcInv c st pr -> finished (q_runner pr) ->
  map ar_work (firsts (sent_by pr)) = tests_got c st pr.
Proof.
  intros RE ND I F. pose proof (proc_rinv c st pr RE ND I) as R. pose proof (whole_proper c st pr RE ND I) as PR. destruct (p_ok _ _ _ I) as (_ & M & _).
  assert (FF : finished (flatr (q_runner pr))) by exact F.
  pose proof (finished_all _ _ _ _ R FF) as K. change (concat (r_sent (flatr (q_runner pr)))) with (sent_by pr) in K. rewrite (filter_map_run _ _ K). fold (FetchSpec.first_attempts (r_world (flatr (q_runner pr)))).
  destruct (finished_proc _ _ _ I F) as (_ & _ & L & SR). destruct (v_hist _ _ _ _ R) as (es & IO & W).
  assert (FA : FetchSpec.first_attempts (r_world (flatr (q_runner pr))) = source_tests [whole c st pr]).
  { pose proof (proj2 (p_tight _ _ _ I)) as TE. assert (SR' : srcs (r_world (flatr (q_runner pr))) = [[]] \/ srcs (r_world (flatr (q_runner pr))) = []) by (rewrite flat_srcs, flats_short; auto).
    rewrite W in *. destruct (reach_inv _ _ es PR M IO) as (H1 & H2 & O & C & IV). rewrite (first_attempts_eq _ _ _ _ _ _ _ IV).
    destruct (i_src _ _ _ _ _ _ _ IV) as (X & X1 & X2 & X3). rewrite X1. destruct SR' as [SR'|SR'].
    - rewrite X2, SR'; [cbn [source_tests served]; now rewrite !app_nil_r|]. destruct (w_ended (run fstep _ es)) eqn:E; auto.
      rewrite (TE eq_refl) in SR'. discriminate.
    - now rewrite X3, app_nil_r. }
  rewrite FA, (whole_tests c st pr I). apply ids_fresh.
Qed.

(* If it did not crash, the queue had said that there is no more work. *)
Lemma completed_end c st pr : reachable c st -> NoDup (tests_of c) -> ProcInv c st pr -> completed pr -> is_at_end c st = true.
Proof.
  intros RE ND I [F NC]. pose proof (proc_rinv c st pr RE ND I) as R.
  assert (T : r_task (flatr (q_runner pr)) = TDone false).
  { change (r_task (q_runner pr) = TDone false). destruct F as (_ & _ & [|] & T); auto. destruct NC. unfold crashed. now rewrite T. }
  pose proof (v_exit _ _ _ _ R (proj1 F) (or_intror T)) as E. pose proof (proj2 (p_tight _ _ _ I) E) as N. rewrite flat_srcs in N.
  destruct (p_raw _ _ _ I) as [(_ & _ & X & _)|[(ids & _ & _ & X & _)|(NR & L & W)]]; [destruct F; congruence|destruct F; congruence|]. unfold raw in *. rewrite flats_short in N; auto.
  destruct W as [(A & _)|(l & k & A & G & _ & [(b & _ & Q & _)|((b & Q & Eb) & _)])]; try congruence.
  destruct (answer_answered c _ _ _ Q) as (who & n & D & _). rewrite Eb in D. eapply eow_all_claimed; eauto.
Qed.

Lemma last_in l pr : In pr (last_processes l) -> In pr l.
Proof. induction l as [|a l IH]; cbn [last_processes]; auto. destruct (existsb _ l); intros H; [right; auto|]. destruct H as [H|H]; [left; auto|right; auto]. Qed.

(* Every process is followed by, or is, a last one of its tag. *)
Lemma last_of_tag l : forall j pj, nth_error l j = Some pj ->
  exists i pr, nth_error l i = Some pr /\ In pr (last_processes l) /\ tag_of pr = tag_of pj /\ j <= i /\ (i = j -> pr = pj).
Proof.
  induction l as [|a l IH]; intros [|j] pj E; try discriminate; cbn [nth_error last_processes] in *.
  - injection E as ->. destruct (existsb (same_tag (tag_of pj)) l) eqn:X.
    + apply existsb_exists in X as (q & Q & T). apply In_nth_error in Q as (m & Q). destruct (IH m q Q) as (i & pr & A & B & C & D & _).
      exists (S i), pr. split; auto. split; auto. unfold same_tag in T. apply tag_eqb_true in T. split; [unfold tag_of in *; congruence|]. split; [lia|]. lia.
    + exists 0, pj. split; auto. split; [now left|]. auto.
  - destruct (IH j pj E) as (i & pr & A & B & C & D & F). exists (S i), pr. split; auto. split; [destruct (existsb _ l); [auto|right; auto]|]. split; auto. split; [lia|]. intros [= G]. auto.
Qed.

Lemma last_tags_nodup l : NoDup (map tag_of (last_processes l)).
Proof.
  induction l as [|a l IH]; cbn [last_processes]; [constructor|]. destruct (existsb (same_tag (tag_of a)) l) eqn:X; auto. cbn [map]. constructor; auto.
  intros H. apply in_map_iff in H as (pr & T & H). apply last_in in H. assert (Y : existsb (same_tag (tag_of a)) l = true); [|congruence].
  apply existsb_exists. exists pr. split; auto. unfold same_tag. fold (tag_of pr). rewrite T. apply tag_eqb_refl.
Qed.

(* All tests reach the last process of the tag that was given them. *)
Lemma test_reaches_last c z x : NoDup (tests_of c) -> ZInv c z -> is_at_end c (z_queue z) = true ->
  (forall pr, In pr (last_processes (z_procs z)) -> completed pr /\ orderly pr) -> In x (tests_of c) ->
  exists pr, In pr (last_processes (z_procs z)) /\ In x (tests_got c (z_queue z) pr).
Proof.
  intros ND I AE H X. pose proof (reachable_inv _ _ (z_reach _ _ I)) as QI.
  apply In_nth_error in X as (n & X). unfold tests_of in X. rewrite nth_error_map in X. destruct (nth_error (cf_queue c) n) as [[y g]|] eqn:Q; [|discriminate]. injection X as ->.
  assert (LN : n < length (cf_queue c)) by (apply nth_error_Some; congruence). unfold is_at_end in AE. apply Nat.leb_le in AE.
  destruct (JobQueueProofs.tiles_cover _ _ _ _ _ n (JobQueueProofs.inv_tiles _ _ QI)) as (k & s & e & K & R & B); [lia|].
  assert (C : claims c (z_queue z) k x) by (exists s, e, n, g; auto).
  assert (KL : k < length (st_threads (z_queue z))) by (apply (JobQueueProofs.inv_log_len _ _ QI k K)).
  assert (IK : In k (flat_map powned (z_procs z))) by (apply (Permutation_in _ (Permutation_sym (z_owned _ _ I))); apply in_seq; lia).
  apply in_flat_map in IK as (pj & PJ & IK). apply In_nth_error in PJ as (j & PJ).
  destruct (last_of_tag _ j pj PJ) as (i & pr & PI & LA & TE & LE & SAME). exists pr. split; auto.
  destruct (H pr LA) as [CO OR]. pose proof (zin c z i pr I PI) as IP. destruct (finished_proc _ _ _ IP (proj1 CO)) as (PN & NR & _).
  destruct (Nat.eq_dec i j) as [EQ|NE].
  - rewrite <- (SAME EQ) in IK. unfold powned in IK. rewrite PN, app_nil_r in IK. unfold tests_got. apply in_or_app. right. apply in_flat_map. exists k. split; auto.
    pose proof (p_taken _ _ _ IP) as F. unfold answered_all in F. rewrite Forall_forall in F. destruct (F k IK) as (b & A). now apply (answer_claims c _ k b x A).
  - destruct OR as [OR|OR].
    + exfalso. apply (z_first _ _ I i pr PI OR j pj); auto. lia.
    + destruct (z_order _ _ I i pr PI OR) as (_ & (ids & IDS & A) & G). destruct (G j pj) as (_ & _ & G2); auto; [lia|].
      destruct (A k (G2 k IK)) as (b & AN & IN); [rewrite TE; apply (p_tags _ _ _ (zin c z j pj I PJ)); auto|].
      unfold tests_got, ids_of_proc. rewrite IDS. apply in_or_app. left. apply IN. now apply (answer_claims c _ k b x AN).
Qed.

Lemma flat_got_nodup c z l : NoDup (tests_of c) -> ZInv c z -> incl l (z_procs z) -> NoDup (map tag_of l) -> NoDup (flat_map (tests_got c (z_queue z)) l).
Proof.
  intros ND I. induction l as [|a l IH]; intros IN NT; [constructor|]. cbn [flat_map map] in *. inversion NT as [|? ? N1 N2]; subst.
  pose proof (z_proc _ _ I) as F. rewrite Forall_forall in F. assert (IA : ProcInv c (z_queue z) a) by (apply F; apply IN; now left).
  apply NoDup_app_intro.
  - apply got_nodup_proc; auto. exact (z_reach _ _ I).
  - apply IH; auto. intros x X. apply IN. now right.
  - intros x X Y. apply in_flat_map in Y as (b & B & Y). apply N1. apply in_map_iff. exists b. split; auto. symmetry. eapply one_tag; eauto; [exact (z_reach _ _ I)|]. apply F. apply IN. now right.
Qed.

Lemma no_test_lost c z : NoDup (tests_of c) -> ZInv c z -> z_procs z <> [] ->
  (forall pr, In pr (last_processes (z_procs z)) -> completed pr /\ orderly pr) ->
  Permutation (map ar_work (firsts (flat_map sent_by (last_processes (z_procs z))))) (tests_of c).
Proof.
  intros ND I NE H. pose proof (z_proc _ _ I) as F. rewrite Forall_forall in F. pose proof (z_reach _ _ I) as RE.
  assert (EQ : map ar_work (firsts (flat_map sent_by (last_processes (z_procs z)))) = flat_map (tests_got c (z_queue z)) (last_processes (z_procs z))).
  { unfold firsts. rewrite filter_flat_map, map_flat_map. apply flat_map_ext_in. intros pr P. apply finished_firsts_proc; auto; [apply F; now apply last_in|]. exact (proj1 (proj1 (H pr P))). }
  rewrite EQ. apply NoDup_Permutation; auto.
  - apply flat_got_nodup; auto; [intros x; apply last_in|apply last_tags_nodup].
  - assert (AE : is_at_end c (z_queue z) = true).
    { destruct (z_procs z) as [|a l] eqn:Z; [congruence|]. destruct (last_of_tag (a :: l) 0 a eq_refl) as (i & pr & PI & LA & _). destruct (H pr LA) as [CO _].
      apply (completed_end c (z_queue z) pr); auto. apply F. eapply nth_error_In; eauto. }
    intros x. split; intros X.
    + apply in_flat_map in X as (pr & P & X). apply last_in in P. destruct (got_claims c _ pr x (F pr P) X) as (k & C & _). eapply claims_in_manifest; eauto.
    + destruct (test_reaches_last c z x ND I AE H X) as (pr & P & Q). apply in_flat_map. eauto.
Qed.

(* A retried process runs again what the earlier processes of its tag were given. *)
Lemma repeats c z i j pi pj x : NoDup (tests_of c) -> ZInv c z -> nth_error (z_procs z) i = Some pi -> nth_error (z_procs z) j = Some pj -> j < i -> tag_of pj = tag_of pi ->
  orderly pi -> In x (tests_got c (z_queue z) pj) -> In x (ids_of_proc pi).
Proof.
  intros ND I PI PJ LT TE OR X. pose proof (zin c z j pj I PJ) as IJ. pose proof (z_reach _ _ I) as RE. destruct OR as [OR|OR].
  - exfalso. apply (z_first _ _ I i pi PI OR j pj); auto.
  - destruct (z_order _ _ I i pi PI OR) as (FB & (ids & IDS & A) & G). destruct (G j pj LT PJ TE) as (_ & G1 & G2).
    assert (CK : exists k, k < q_from pi /\ claims c (z_queue z) k x /\ requester (z_queue z) k = Some (tag_of pi)).
    { unfold tests_got in X. apply in_app_or in X as [X|X].
      - destruct (p_claims _ _ _ IJ x X) as (k & KF & C & R). exists k. split; [lia|split; auto; congruence].
      - apply in_flat_map in X as (k & K & X). exists k. assert (KO : In k (powned pj)) by (unfold powned; apply in_or_app; auto). split; [auto|]. split; [eapply response_claims; eauto|]. rewrite <- TE. apply (p_tags _ _ _ IJ k KO). }
    destruct CK as (k & KF & C & R). destruct (A k KF R) as (b & AN & IN). unfold ids_of_proc. rewrite IDS. apply IN. now apply (answer_claims c _ k b x AN).
Qed.

(* Retry manifests are in the order of the manifest. *)
Lemma filter_none {A} (f : A -> bool) l : (forall x, In x l -> f x = false) -> filter f l = [].
Proof. induction l as [|a l IH]; intros H; auto. cbn [filter]. rewrite (H a (or_introl eq_refl)). apply IH. intros; apply H; now right. Qed.

Lemma partition_order (f : tag -> bool) : forall (q : list (nat * group)) o, NoDup (map fst q) ->
  exists keep, map (fun p => fst (snd p)) (filter (fun p => f (fst p)) (combine o q)) = filter keep (map fst q).
Proof.
  induction q as [|[x g] q IH]; intros o N.
  - exists (fun _ => true). destruct o; reflexivity.
  - inversion N as [|? ? N1 N2]; subst. destruct o as [|a o].
    + exists (fun _ => false). cbn [combine filter map]. symmetry. apply filter_none. auto.
    + destruct (IH o N2) as (keep & E). exists (fun y => if Nat.eqb y x then f a else keep y). cbn [combine filter map fst snd]. rewrite Nat.eqb_refl.
      assert (EX : filter (fun y => if Nat.eqb y x then f a else keep y) (map fst q) = filter keep (map fst q)).
      { apply filter_ext_In. intros y Y. destruct (Nat.eqb_spec y x) as [->|]; [contradiction|reflexivity]. }
      destruct (f a); cbn [map fst snd]; rewrite EX, E; reflexivity.
Qed.

Definition InOrder c (z : fleet) : Prop := Forall (fun pr => exists keep, ids_of_proc pr = filter keep (tests_of c)) (z_procs z).

Lemma zstep_in_order c z e : NoDup (tests_of c) -> InOrder c z -> InOrder c (zstep c z e).
Proof.
  unfold InOrder. intros ND F. assert (FI : forall i pr, nth_error (z_procs z) i = Some pr -> exists keep, ids_of_proc pr = filter keep (tests_of c)) by (intros i pr E; rewrite Forall_forall in F; apply F; eapply nth_error_In; eauto).
  destruct e as [p|i|i|i|k|i|i e]; cbn [zstep]; auto.
  - destruct (admissible p); auto. cbn [z_procs]. apply Forall_app. split; auto. constructor; [|constructor]. exists (fun _ => false). rewrite filter_none; auto.
    unfold started, ids_of_proc. cbn [q_retry]. destruct (existsb _ _); reflexivity.
  - destruct (nth_error (z_procs z) i) as [pr|] eqn:E; auto. apply Forall_upd; auto. exact (FI i pr E).
  - destruct (nth_error (z_procs z) i) as [pr|] eqn:E; auto. destruct (negb _ && _); auto. cbv zeta. cbn [with_proc z_procs]. apply Forall_upd; auto.
    apply (partition_order (fun t => tag_eqb t (p_tag (q_params pr)))). exact ND.
  - destruct (nth_error (z_procs z) i) as [pr|] eqn:E; auto. destruct (q_pending pr); auto. destruct (negb _ && _); auto. apply Forall_upd; auto. exact (FI i pr E).
  - destruct (nth_error (z_procs z) i) as [pr|] eqn:E; auto. destruct (q_pending pr) as [k|]; auto. destruct (nth_error _ k); auto. destruct (answer_of _ _); auto. destruct (q_gone pr); auto.
    apply Forall_upd; auto. exact (FI i pr E).
  - destruct (nth_error (z_procs z) i) as [pr|] eqn:E; auto. destruct (q_gone pr); auto. apply Forall_upd; auto. exact (FI i pr E).
Qed.

Lemma manifest_order c z i pr : NoDup (tests_of c) -> zreaches c z -> nth_error (z_procs z) i = Some pr -> exists keep, ids_of_proc pr = filter keep (tests_of c).
Proof.
  intros ND (es & ->) E. assert (F : InOrder c (run (zstep c) (zinit c) es)).
  { apply (run_invariant (zstep c) (InOrder c)); [intros; now apply zstep_in_order|constructor]. }
  unfold InOrder in F. rewrite Forall_forall in F. apply F. eapply nth_error_In; eauto.
Qed.

(* The attempts of a test that a completed process got. *)
Lemma proc_outcome c st pr id : reachable c st -> NoDup (tests_of c) -> ProcInv c st pr -> completed pr -> In id (tests_got c st pr) ->
  exists k, 1 <= k <= p_max (q_params pr) /\ (forall j, In (id, j) (map rkey (sent_by pr)) <-> 1 <= j <= k) /\
    (forall j, 1 <= j < k -> fails (sent_by pr) id j = true) /\ (k = p_max (q_params pr) \/ fails (sent_by pr) id k = false).
Proof.
  intros RE ND I [F NC] G. pose proof (proc_rinv c st pr RE ND I) as R. pose proof (whole_proper c st pr RE ND I) as PR. destruct (p_ok _ _ _ I) as (_ & M & _).
  assert (T : r_task (flatr (q_runner pr)) = TDone false).
  { change (r_task (q_runner pr) = TDone false). destruct F as (_ & _ & [|] & T); auto. destruct NC. unfold crashed. now rewrite T. }
  pose proof (v_exit _ _ _ _ R (proj1 F) (or_intror T)) as E. pose proof (proj2 (p_tight _ _ _ I) E) as N. rewrite flat_srcs in N.
  destruct (p_raw _ _ _ I) as [(_ & _ & X & _)|[(ids & _ & _ & X & _)|(NR & L & W)]]; [destruct F; congruence|destruct F; congruence|]. unfold raw in *. rewrite flats_short in N; auto.
  destruct W as [(A & _)|(l & k0 & A & GO & _ & [(b0 & _ & Q & _)|((b0 & Q & Eb0) & _)])]; try congruence.
  assert (CP : complete [whole c st pr]).
  { unfold whole. rewrite A, script_app, (script_one c _ k0 b0 Q). constructor; [|constructor]. rewrite (proj2 (served_first _ _)), (served_goes_on c _ l [Bundle b0] GO). cbn [snd served]. now rewrite Eb0. }
  assert (FF : finished (flatr (q_runner pr))) by exact F.
  pose proof (finished_all _ _ _ _ R FF) as K. pose proof (v_sent _ _ _ _ R) as SE. change (concat (r_sent (flatr (q_runner pr)))) with (sent_by pr) in K, SE.
  destruct (v_hist _ _ _ _ R) as (es & IO & WW). rewrite WW in *.
  destruct (ended_eow _ _ es PR M CP IO E) as (b & Ib & Eb).
  assert (LE : length (w_results (run fstep (start [whole c st pr] (p_max (q_params pr))) es)) = length (handed (run fstep (start [whole c st pr] (p_max (q_params pr))) es))).
  { rewrite <- SE. apply (f_equal (@length _)) in K. now rewrite !map_length in K. }
  destruct (outcome _ _ PR M es b IO Ib Eb LE id) as (k & K1 & K2 & K3 & K4).
  { rewrite (whole_tests c st pr I), ids_fresh. exact G. }
  exists k. rewrite SE. split; auto. split; auto. split; auto. intros j J. unfold fails_through in K3. rewrite forallb_forall in K3. apply K3. apply in_seq. lia.
Qed.
