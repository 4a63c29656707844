(* What follows from the invariant of SystemProofs for the reports. *)
From Verif Require Import Base JobQueueModel JobQueueSpec JobQueueLemmas.
From Verif Require Import StatusModel FetchModel FetchSpec FetchProofs FetchAttempts RunnerModel RunnerSpec RunnerProofs RunnerLive SystemModel SystemSpec RunnerFeed SystemProofs.

Implicit Types (c : config nat) (st : JobQueueModel.state).

Lemma slot_of c ps y sl : SInv c ps y -> In sl (y_slots y) -> In (sl_params sl) ps /\ SlotInv c (y_queue y) sl.
Proof.
  intros I S. split; [rewrite <- (y_params _ _ _ I); now apply in_map|].
  pose proof (y_slot _ _ _ I) as F. rewrite Forall_forall in F. auto.
Qed.

(* The tests a runner was sent. *)
Definition got_tests c (y : system) (sl : slot) : list nat := flat_map (response c (y_queue y)) (sl_taken sl).

Lemma source_ids c ps y sl : SInv c ps y -> In sl (y_slots y) ->
  source_tests [script c (y_queue y) (sl_taken sl)] = map fresh (got_tests c y sl).
Proof. intros I S. destruct (slot_of c ps y sl I S) as [_ SI]. apply script_tests. now apply slot_one_last. Qed.

(* The runner's reports are of tests it was sent, each attempt once. *)
Lemma slot_reports c ps y sl : sound c ps -> SInv c ps y -> In sl (y_slots y) ->
  NoDup (map rkey (reported_by sl)) /\
  forall r, In r (reported_by sl) -> In (ar_work r) (got_tests c y sl) /\ 1 <= ar_run r <= p_max (sl_params sl).
Proof.
  intros SO I S. destruct (slot_of c ps y sl I S) as [IP SI]. destruct (slot_rinv c ps y sl SO (y_reach _ _ _ I) IP SI) as (PR & M & B & R).
  destruct (v_keys _ _ _ _ R) as (got & E1 & E2). destruct (v_hist _ _ _ _ R) as (es & IO & W).
  destruct (hist_runs _ _ PR M es IO) as (HR & HN & HI). rewrite <- W in HR, HN, HI.
  assert (K : exists later, map key (handed (r_world (sl_runner sl))) = map rkey (reported_by sl) ++ later).
  { rewrite E1, map_app, E2. unfold reports, reported_by. rewrite map_app, <- !app_assoc. eauto. }
  destruct K as (later & K). rewrite K in HN. split; [now apply NoDup_app_l in HN|]. intros r IR.
  assert (X : In (rkey r) (map key (handed (r_world (sl_runner sl))))) by (rewrite K; apply in_or_app; left; now apply in_map).
  apply in_map_iff in X as (t & Et & It). unfold key, rkey in Et. injection Et as Ei Er. split.
  - rewrite (source_ids c ps y sl I S), ids_fresh in HI. rewrite <- Ei. apply HI. now apply in_map.
  - rewrite Forall_forall in HR. rewrite <- Er. auto.
Qed.

Lemma owned_nodup c ps y : SInv c ps y -> NoDup (flat_map owned (y_slots y)).
Proof. intros I. eapply Permutation_NoDup; [apply Permutation_sym; exact (y_owned _ _ _ I)|apply seq_NoDup]. Qed.

Lemma NoDup_flat_sub {A B} (f g : A -> list B) l : (forall a, In a l -> exists z, Permutation (g a) (f a ++ z)) -> NoDup (flat_map g l) -> NoDup (flat_map f l).
Proof.
  induction l as [|a l IH]; intros H N; [constructor|]. cbn [flat_map] in *. destruct (H a (or_introl eq_refl)) as (z & P).
  apply NoDup_app_intro.
  - apply NoDup_app_l in N. apply (Permutation_NoDup P) in N. now apply NoDup_app_l in N.
  - apply IH; [intros; apply H; now right|]. now apply NoDup_app_r in N.
  - intros x X Y. assert (In x (g a)) by (apply (Permutation_in _ (Permutation_sym P)); apply in_or_app; auto).
    apply in_flat_map in Y as (a' & A' & Y). destruct (H a' (or_intror A')) as (z' & P').
    assert (In x (flat_map g l)). { apply in_flat_map. exists a'. split; auto. apply (Permutation_in _ (Permutation_sym P')). apply in_or_app; auto. }
    clear -N H0 H1. apply in_split in H0 as (p & q & E). rewrite E, <- app_assoc in N. apply NoDup_app_r in N. cbn [app] in N. inversion N as [|? ? N1 _]. apply N1.
    apply in_or_app. auto.
Qed.

Lemma taken_nodup c ps y : SInv c ps y -> NoDup (flat_map sl_taken (y_slots y)).
Proof. intros I. apply (NoDup_flat_sub sl_taken owned); [|now apply (owned_nodup c ps)]. intros a _. unfold owned. eauto. Qed.

Lemma flat_map_flat_map {A B C} (f : A -> list B) (g : B -> list C) l : flat_map g (flat_map f l) = flat_map (fun a => flat_map g (f a)) l.
Proof. induction l as [|a l IH]; auto. cbn [flat_map]. now rewrite flat_map_app, IH. Qed.

(* No test is sent to two runners, or twice to one. *)
Lemma got_nodup c ps y : sound c ps -> SInv c ps y -> NoDup (flat_map (got_tests c y) (y_slots y)).
Proof.
  intros (ND & _) I. unfold got_tests. rewrite <- flat_map_flat_map. apply responses_nodup; auto.
  - exact (y_reach _ _ _ I).
  - apply Forall_forall. intros k K. apply in_flat_map in K as (sl & S & K). destruct (slot_of c ps y sl I S) as [_ SI].
    pose proof (s_taken _ _ _ SI) as F. unfold answered_all in F. rewrite Forall_forall in F. auto.
  - now apply (taken_nodup c ps).
Qed.

Lemma NoDup_rkeys l : forall (got : slot -> list nat), NoDup (flat_map got l) ->
  (forall sl, In sl l -> NoDup (map rkey (reported_by sl)) /\ forall r, In r (reported_by sl) -> In (ar_work r) (got sl)) ->
  NoDup (map rkey (flat_map reported_by l)).
Proof.
  intros got. induction l as [|a l IH]; intros N H; [constructor|]. cbn [flat_map] in *. rewrite map_app. destruct (H a (or_introl eq_refl)) as [H1 H2].
  apply NoDup_app_intro; auto.
  - apply IH; [now apply NoDup_app_r in N|]. intros; apply H; now right.
  - intros x X Y. apply in_map_iff in X as (r & <- & X). apply in_map_iff in Y as (r' & E & Y). apply in_flat_map in Y as (a' & A' & Y).
    destruct (H a' (or_intror A')) as [_ H2']. specialize (H2 r X). specialize (H2' r' Y). unfold rkey in E. injection E as E _. rewrite E in H2'.
    apply in_split in H2 as (p & q & E2). rewrite E2, <- app_assoc in N. apply NoDup_app_r in N. cbn [app] in N. inversion N as [|? ? N1 _]. apply N1.
    apply in_or_app. right. apply in_flat_map. eauto.
Qed.

Lemma once c ps y : sound c ps -> SInv c ps y -> NoDup (map rkey (reported y)).
Proof.
  intros SO I. apply (NoDup_rkeys _ (got_tests c y)); [now apply (got_nodup c ps)|]. intros sl S.
  destruct (slot_reports c ps y sl SO I S) as [A B]. split; auto. intros r R. now apply B.
Qed.

Lemma flat_map_unique {A B} (f : A -> list B) l i j a b x : NoDup (flat_map f l) -> nth_error l i = Some a -> nth_error l j = Some b ->
  In x (f a) -> In x (f b) -> i = j.
Proof.
  revert i j. induction l as [|h l IH]; intros [|i] [|j] N E1 E2 X Y; try discriminate; auto; cbn [flat_map nth_error] in *.
  - exfalso. injection E1 as ->. apply in_split in X as (p & q & E). rewrite E, <- app_assoc in N. apply NoDup_app_r in N. cbn [app] in N. inversion N as [|? ? N1 _]. apply N1.
    apply in_or_app. right. apply in_flat_map. exists b. split; auto. eapply nth_error_In; eauto.
  - exfalso. injection E2 as ->. apply in_split in Y as (p & q & E). rewrite E, <- app_assoc in N. apply NoDup_app_r in N. cbn [app] in N. inversion N as [|? ? N1 _]. apply N1.
    apply in_or_app. right. apply in_flat_map. exists a. split; auto. eapply nth_error_In; eauto.
  - f_equal. apply (IH i j); auto. now apply NoDup_app_r in N.
Qed.

(* Only one runner reports on a test. *)
Lemma one_runner c ps y i j si sj ri rj : sound c ps -> SInv c ps y -> nth_error (y_slots y) i = Some si -> nth_error (y_slots y) j = Some sj ->
  In ri (reported_by si) -> In rj (reported_by sj) -> ar_work ri = ar_work rj -> i = j.
Proof.
  intros SO I Ei Ej Ri Rj E. apply (flat_map_unique (got_tests c y) (y_slots y) i j si sj (ar_work ri)); auto.
  - now apply (got_nodup c ps).
  - apply (slot_reports c ps y si SO I); auto. eapply nth_error_In; eauto.
  - rewrite E. apply (slot_reports c ps y sj SO I); auto. eapply nth_error_In; eauto.
Qed.

Lemma got_in_manifest c ps y sl x : SInv c ps y -> In sl (y_slots y) -> In x (got_tests c y sl) -> In x (tests_of c).
Proof.
  intros I S X. unfold got_tests in X. apply in_flat_map in X as (k & K & X). unfold response in X.
  destruct (nth_error _ k) as [t|]; [|destruct X]. unfold JobQueueModel.bundle in X. destruct (th_pc t); try destruct X.
  apply in_map_iff in X as (p & <- & X). unfold tests_of. apply in_map. apply in_slice in X as (i & _ & X). eapply nth_error_In; eauto.
Qed.

(* ---- the end ---- *)

Lemma finished_srcs c st sl : SlotInv c st sl -> finished (sl_runner sl) ->
  sl_pending sl = None /\ (srcs (r_world (sl_runner sl)) = [[]] \/ srcs (r_world (sl_runner sl)) = []).
Proof.
  intros SI (P & _). split.
  - destruct (sl_pending sl) as [k|] eqn:E; auto. destruct (s_pend _ _ _ SI k E) as [_ A]. apply asking_iff in A as [A _]. congruence.
  - destruct (s_where _ _ _ SI) as [(A & _)|(l & k & _ & _ & _ & [(b & _ & _ & Q)|(_ & Q)])]; auto. congruence.
Qed.

Lemma filter_map_run rs ts : map rkey rs = map key ts -> map ar_work (firsts rs) = map id_of (filter (fun t => Nat.eqb (wt_run t) 1) ts).
Proof.
  revert ts. induction rs as [|r rs IH]; intros [|t ts] E; try discriminate; auto. cbn [map] in E. injection E as E1 E2 E3. unfold firsts in *. cbn [filter].
  rewrite E2. destruct (Nat.eqb (wt_run t) 1); cbn [map]; rewrite (IH ts E3); auto. now rewrite E1.
Qed.

(* A runner that has returned has reported a first attempt of every test it was sent, in order. *)
Lemma finished_firsts c ps y sl : sound c ps -> SInv c ps y -> In sl (y_slots y) -> finished (sl_runner sl) ->
  map ar_work (firsts (reported_by sl)) = got_tests c y sl.
Proof.
  intros SO I S F. destruct (slot_of c ps y sl I S) as [IP SI]. destruct (slot_rinv c ps y sl SO (y_reach _ _ _ I) IP SI) as (PR & M & B & R).
  pose proof (finished_all _ _ _ _ R F) as K. unfold reported_by. rewrite (filter_map_run _ _ K). fold (first_attempts (r_world (sl_runner sl))).
  destruct (finished_srcs _ _ _ SI F) as [_ SR]. destruct (v_hist _ _ _ _ R) as (es & IO & W).
  assert (FA : first_attempts (r_world (sl_runner sl)) = source_tests [script c (y_queue y) (sl_taken sl)]).
  { rewrite W in *. destruct (reach_inv _ _ es PR M IO) as (H1 & H2 & O & C & IV). rewrite (first_attempts_eq _ _ _ _ _ _ _ IV).
    destruct (i_src _ _ _ _ _ _ _ IV) as (X & X1 & X2 & X3). rewrite X1. destruct SR as [SR|SR].
    - rewrite X2, SR; [cbn [source_tests served]; now rewrite !app_nil_r|]. destruct (w_ended (run fstep _ es)) eqn:E; auto.
      pose proof (proj2 (s_tight _ _ _ SI)) as T. rewrite W in T. rewrite (T E) in SR. discriminate.
    - now rewrite X3, app_nil_r. }
  rewrite FA, (source_ids c ps y sl I S). apply ids_fresh.
Qed.

Lemma all_done c ps y : SInv c ps y -> all_finished y -> quiescent (y_queue y) /\ Permutation (flat_map sl_taken (y_slots y)) (st_log (y_queue y)).
Proof.
  intros I F. unfold all_finished in F. rewrite Forall_forall in F.
  assert (O : flat_map owned (y_slots y) = flat_map sl_taken (y_slots y)).
  { rewrite !flat_map_concat_map. f_equal. apply map_ext_in. intros sl S. destruct (slot_of c ps y sl I S) as [_ SI].
    destruct (finished_srcs _ _ _ SI (F sl S)) as [P _]. unfold owned. now rewrite P, app_nil_r. }
  pose proof (y_owned _ _ _ I) as P. rewrite O in P.
  assert (A : forall k, k < length (st_threads (y_queue y)) -> exists b, answer c (y_queue y) k = Some b).
  { intros k K. assert (X : In k (flat_map sl_taken (y_slots y))) by (apply (Permutation_in _ (Permutation_sym P)); apply in_seq; lia).
    apply in_flat_map in X as (sl & S & X). destruct (slot_of c ps y sl I S) as [_ SI]. pose proof (s_taken _ _ _ SI) as T. unfold answered_all in T. rewrite Forall_forall in T. auto. }
  split.
  - intros k t K. destruct (A k) as (b & Q); [apply nth_error_Some; congruence|]. apply answer_done in Q as (t' & s & e & K' & Q & _). right. exists s, e, (b_eow b). congruence.
  - destruct (log_complete c (y_queue y) (y_reach _ _ _ I)) as [LN LC]. apply NoDup_Permutation; auto.
    + eapply Permutation_NoDup; [apply Permutation_sym; exact P|apply seq_NoDup].
    + intros k. split; intros K.
      * apply (Permutation_in _ P) in K. apply in_seq in K. destruct (A k) as (b & Q); [lia|]. destruct (answer_answered c _ _ _ Q) as (who & n & D & _). eapply LC; eauto.
      * apply (Permutation_in _ (Permutation_sym P)). apply in_seq. split; [lia|]. apply (JobQueueProofs.inv_log_len _ _ (reachable_inv _ _ (y_reach _ _ _ I))) in K. lia.
Qed.

Lemma filter_flat_map {A B} (p : B -> bool) (f : A -> list B) l : filter p (flat_map f l) = flat_map (fun a => filter p (f a)) l.
Proof. induction l as [|a l IH]; auto. cbn [flat_map]. now rewrite filter_app, IH. Qed.
Lemma map_flat_map {A B C} (g : B -> C) (f : A -> list B) l : map g (flat_map f l) = flat_map (fun a => map g (f a)) l.
Proof. induction l as [|a l IH]; auto. cbn [flat_map]. now rewrite map_app, IH. Qed.

Lemma flat_map_perm {A B} (f : A -> list B) l l' : Permutation l l' -> Permutation (flat_map f l) (flat_map f l').
Proof. intros P. induction P as [|x l l' P IH|x y l|l l' l'' P1 IH1 P2 IH2]; cbn [flat_map]; auto.
  - now apply Permutation_app_head.
  - rewrite !app_assoc. apply Permutation_app_tail, Permutation_app_comm.
  - now rewrite IH1.
Qed.

Lemma flat_map_ext_in {A B} (f g : A -> list B) l : (forall a, In a l -> f a = g a) -> flat_map f l = flat_map g l.
Proof. intros H. rewrite !flat_map_concat_map. f_equal. now apply map_ext_in. Qed.

Lemma all_firsts c ps y : sound c ps -> SInv c ps y -> all_finished y ->
  Permutation (map ar_work (firsts (reported y))) (firstn (Nat.min (st_ptr (y_queue y)) (length (tests_of c))) (tests_of c)).
Proof.
  intros SO I F. destruct (all_done c ps y I F) as [Q P]. rewrite <- (responses_concat c (y_queue y) (y_reach _ _ _ I) Q), <- flat_map_concat_map.
  rewrite <- (flat_map_perm _ _ _ P). rewrite flat_map_flat_map. unfold firsts, reported. rewrite filter_flat_map, map_flat_map.
  apply Permutation_refl'. apply flat_map_ext_in. intros sl S. unfold all_finished in F. rewrite Forall_forall in F. apply (finished_firsts c ps y sl); auto.
Qed.

(* A runner that has returned and did not crash was told that there is no more work. *)
Lemma survivor_ended c ps y sl : sound c ps -> SInv c ps y -> In sl (y_slots y) -> survives sl ->
  r_task (sl_runner sl) = TDone false /\ w_ended (r_world (sl_runner sl)) = true /\
  complete [script c (y_queue y) (sl_taken sl)] /\ is_at_end c (y_queue y) = true.
Proof.
  intros SO I S [F NC]. destruct (slot_of c ps y sl I S) as [IP SI]. destruct (slot_rinv c ps y sl SO (y_reach _ _ _ I) IP SI) as (PR & M & B & R).
  assert (T : r_task (sl_runner sl) = TDone false).
  { destruct F as (_ & _ & [|] & T); auto. destruct NC. unfold crashed. now rewrite T. }
  pose proof (v_exit _ _ _ _ R (proj1 F) (or_intror T)) as E. pose proof (proj2 (s_tight _ _ _ SI) E) as N.
  destruct (s_where _ _ _ SI) as [(A & _)|(l & k & A & G & _ & [(b & _ & Q & _)|((b & Q & Eb) & _)])]; try congruence.
  split; auto. split; auto. split.
  - rewrite A, script_app, (script_one c _ k b Q). constructor; [|constructor]. rewrite (served_goes_on c _ l [Bundle b] G). cbn [snd served]. now rewrite Eb.
  - destruct (answer_answered c _ _ _ Q) as (who & n & D & _). rewrite Eb in D. eapply eow_all_claimed; eauto. exact (y_reach _ _ _ I).
Qed.

Lemma all_tests c ps y : sound c ps -> SInv c ps y -> all_finished y -> Exists survives (y_slots y) ->
  Permutation (map ar_work (firsts (reported y))) (tests_of c).
Proof.
  intros SO I F E. apply Exists_exists in E as (sl & S & SV). destruct (survivor_ended c ps y sl SO I S SV) as (_ & _ & _ & AE).
  rewrite (all_firsts c ps y SO I F). unfold is_at_end in AE. apply Nat.leb_le in AE. rewrite Nat.min_r; [|unfold tests_of; now rewrite map_length]. now rewrite firstn_all.
Qed.

(* The attempts of a test that was sent to a surviving runner. *)
Lemma slot_outcome c ps y sl id : sound c ps -> SInv c ps y -> In sl (y_slots y) -> survives sl -> In id (got_tests c y sl) ->
  exists k, 1 <= k <= p_max (sl_params sl) /\ (forall j, In (id, j) (map rkey (reported_by sl)) <-> 1 <= j <= k) /\
    (forall j, 1 <= j < k -> fails (reported_by sl) id j = true) /\ (k = p_max (sl_params sl) \/ fails (reported_by sl) id k = false).
Proof.
  intros SO I S SV G. destruct (slot_of c ps y sl I S) as [IP SI]. destruct (slot_rinv c ps y sl SO (y_reach _ _ _ I) IP SI) as (PR & M & B & R).
  destruct (survivor_ended c ps y sl SO I S SV) as (T & E & CP & _). destruct SV as [F _].
  pose proof (finished_all _ _ _ _ R F) as K. pose proof (v_sent _ _ _ _ R) as SE. destruct (v_hist _ _ _ _ R) as (es & IO & W). rewrite W in *.
  destruct (ended_eow _ _ es PR M CP IO E) as (b & Ib & Eb).
  assert (L : length (w_results (run fstep (start [script c (y_queue y) (sl_taken sl)] (p_max (sl_params sl))) es)) = length (handed (run fstep (start [script c (y_queue y) (sl_taken sl)] (p_max (sl_params sl))) es))).
  { rewrite <- SE. apply (f_equal (@length _)) in K. now rewrite !map_length in K. }
  destruct (outcome _ _ PR M es b IO Ib Eb L id) as (k & K1 & K2 & K3 & K4).
  { rewrite (source_ids c ps y sl I S), ids_fresh. exact G. }
  exists k. unfold reported_by. rewrite SE. split; auto. split; auto. split; auto. intros j J. unfold fails_through in K3. rewrite forallb_forall in K3. apply K3. apply in_seq. lia.
Qed.

(* For every test of the manifest. *)
Lemma run_outcome c ps y id : sound c ps -> SInv c ps y -> y_slots y <> [] -> Forall survives (y_slots y) -> In id (tests_of c) ->
  exists sl k, In sl (y_slots y) /\ 1 <= k <= p_max (sl_params sl) /\
    (forall j, In (id, j) (map rkey (reported y)) <-> 1 <= j <= k) /\
    (forall j, 1 <= j < k -> fails (reported y) id j = true) /\ (k = p_max (sl_params sl) \/ fails (reported y) id k = false) /\
    (forall r, In r (reported y) -> ar_work r = id -> In r (reported_by sl)).
Proof.
  intros SO I NE SV ID.
  assert (F : all_finished y) by (eapply Forall_impl; [|exact SV]; intros a [A _]; exact A).
  assert (EX : Exists survives (y_slots y)) by (apply Exists_exists; destruct (y_slots y) as [|sl l]; [congruence|]; exists sl; split; [now left|now inversion SV]).
  pose proof (all_tests c ps y SO I F EX) as P. apply (Permutation_in _ (Permutation_sym P)) in ID. apply in_map_iff in ID as (r & Er & R).
  unfold firsts in R. apply filter_In in R as [R _]. unfold reported in R. apply in_flat_map in R as (sl & S & R).
  destruct (slot_reports c ps y sl SO I S) as [_ SR]. destruct (SR r R) as [G _]. rewrite Er in G. rewrite Forall_forall in SV.
  destruct (slot_outcome c ps y sl id SO I S (SV sl S) G) as (k & K1 & K2 & K3 & K4). exists sl, k. split; auto. split; auto.
  apply In_nth_error in S as (i & Ei).
  assert (U : forall r', In r' (reported y) -> ar_work r' = id -> In r' (reported_by sl)).
  { intros r' R' E'. unfold reported in R'. apply in_flat_map in R' as (sl' & S' & R'). apply In_nth_error in S' as (j & Ej).
    assert (i = j) by (apply (one_runner c ps y i j sl sl' r r'); auto; congruence). subst j. rewrite Ei in Ej. injection Ej as <-. exact R'. }
  assert (INC : forall r', In r' (reported_by sl) -> In r' (reported y)) by (intros r' R'; unfold reported; apply in_flat_map; exists sl; split; auto; eapply nth_error_In; eauto).
  assert (FE : forall j, fails (reported y) id j = fails (reported_by sl) id j).
  { intros j. unfold fails. destruct (existsb _ (reported_by sl)) eqn:E.
    - apply existsb_exists in E as (r' & R' & E). apply existsb_exists. exists r'. auto.
    - destruct (existsb _ (reported y)) eqn:E'; auto. apply existsb_exists in E' as (r' & R' & E'). rewrite <- E. symmetry. apply existsb_exists. exists r'. split; auto. apply U; auto.
      apply andb_prop in E' as [E' _]. apply andb_prop in E' as [E' _]. now apply Nat.eqb_eq in E'. }
  split; [|split; [|split]].
  - intros j. rewrite <- K2. split; intros X; apply in_map_iff in X as (r' & E' & X); apply in_map_iff; exists r'; split; auto. apply U; auto. unfold rkey in E'. congruence.
  - intros j J. rewrite FE. auto.
  - rewrite FE. auto.
  - exact U.
Qed.
