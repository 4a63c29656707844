(* What follows from the invariant of CancelRunProofs. *)
From Verif Require Import Base JobQueueModel JobQueueSpec JobQueueLemmas.
From Verif Require Import StatusModel FetchModel FetchSpec FetchProofs FetchAttempts RunnerModel RunnerSpec RunnerProofs RunnerLive SystemModel SystemSpec RunnerFeed SystemProofs SystemEnd SystemLive.
From Verif Require Import CancelRunModel CancelRunSpec CancelRunProofs.

Implicit Types (c : config nat) (k : crun).

Lemma forall2_slots c ps k z : CInv c ps k z -> map sl_taken (y_slots (k_system k)) = map sl_taken (y_slots z) /\ map sl_params (y_slots (k_system k)) = ps.
Proof.
  intros I. rewrite <- (y_params _ _ _ (n_z _ _ _ _ I)). pose proof (n_len _ _ _ _ I) as L. pose proof (n_slot _ _ _ _ I) as SL.
  set (ss := y_slots (k_system k)) in *. set (zs := y_slots z) in *. clearbody ss zs.
  assert (H : forall i sl zl, nth_error ss i = Some sl -> nth_error zs i = Some zl -> sl_taken sl = sl_taken zl /\ sl_params sl = sl_params zl).
  { intros i sl zl E1 E2. destruct (SL i sl zl E1 E2) as [[_ C]|[_ ->]]; auto. split; [exact (u_taken _ _ _ C)|exact (u_params _ _ _ C)]. }
  clear SL. revert zs L H. induction ss as [|a ss IH]; intros [|b zs] L H; try discriminate; auto. cbn [map].
  destruct (H 0 a b eq_refl eq_refl) as [H1 H2]. destruct (IH zs) as [I1 I2]; [now injection L|intros i sl zl E1 E2; exact (H (S i) sl zl E1 E2)|]. split; congruence.
Qed.

Lemma got_same c ps k z : CInv c ps k z -> flat_map (got_tests c (k_system k)) (y_slots (k_system k)) = flat_map (got_tests c z) (y_slots z).
Proof.
  intros I. destruct (forall2_slots c ps k z I) as [E _]. unfold got_tests. rewrite (n_queue _ _ _ _ I).
  rewrite <- !flat_map_flat_map. f_equal. rewrite !flat_map_concat_map. now rewrite E.
Qed.

Lemma all_got_nodup c ps k z : sound c ps -> CInv c ps k z -> NoDup (flat_map (got_tests c (k_system k)) (y_slots (k_system k))).
Proof. intros SO I. rewrite (got_same c ps k z I). apply (got_nodup c ps); auto. exact (n_z _ _ _ _ I). Qed.

(* A runner, told to stop or not. *)
Lemma slot_view c ps k z sl : sound c ps -> CInv c ps k z -> In sl (y_slots (k_system k)) ->
  exists ss, proper ss /\ 1 <= p_max (sl_params sl) /\ 1 <= p_batch (sl_params sl) /\
    source_tests ss = map fresh (got_tests c (k_system k) sl) /\
    RInv ss (p_max (sl_params sl)) (p_batch (sl_params sl)) (sl_runner sl) /\ tight (r_world (sl_runner sl)) /\
    (finished (sl_runner sl) -> srcs (r_world (sl_runner sl)) = [[]] \/ srcs (r_world (sl_runner sl)) = []).
Proof.
  intros SO I S. apply In_nth_error in S as (i & E).
  assert (EZ : exists zl, nth_error (y_slots z) i = Some zl).
  { destruct (nth_error (y_slots z) i) eqn:Q; eauto. apply nth_error_None in Q. assert (i < length (y_slots (k_system k))) by (apply nth_error_Some; congruence). pose proof (n_len _ _ _ _ I). lia. }
  destruct EZ as (zl & EZ). pose proof (n_z _ _ _ _ I) as Z. pose proof (nth_error_In _ _ EZ) as SZ.
  destruct (n_slot _ _ _ _ I i sl zl E EZ) as [[_ C]|[_ ->]].
  - destruct (cut_runner c ps z zl sl SO Z SZ C) as (PR & _ & M & B & ST & R & TI & W). rewrite (u_params _ _ _ C).
    eexists. split; [exact PR|]. split; auto. split; auto. split; [|split; [exact R|split; auto]].
    + rewrite ST. unfold got_tests. now rewrite (n_queue _ _ _ _ I), (u_taken _ _ _ C).
    + intros (P & _). destruct W as [[_ W]|W]; [congruence|auto].
  - destruct (slot_of c ps z zl Z SZ) as [IP SI]. destruct (slot_rinv c ps z zl SO (y_reach _ _ _ Z) IP SI) as (PR & M & B & R).
    eexists. split; [exact PR|]. split; auto. split; auto. split; [|split; [exact R|split; [exact (s_tight _ _ _ SI)|]]].
    + rewrite (source_ids c ps z zl Z SZ). unfold got_tests. now rewrite (n_queue _ _ _ _ I).
    + intros F. now destruct (finished_srcs _ _ _ SI F).
Qed.

Lemma view_reports c ps k z sl : sound c ps -> CInv c ps k z -> In sl (y_slots (k_system k)) ->
  NoDup (map rkey (reported_by sl)) /\
  forall r, In r (reported_by sl) -> In (ar_work r) (got_tests c (k_system k) sl) /\ 1 <= ar_run r <= p_max (sl_params sl).
Proof.
  intros SO I S. destruct (slot_view c ps k z sl SO I S) as (ss & PR & M & B & ST & R & _).
  destruct (v_keys _ _ _ _ R) as (got & E1 & E2). destruct (v_hist _ _ _ _ R) as (es & IO & W).
  destruct (hist_runs _ _ PR M es IO) as (HR & HN & HI). rewrite <- W in HR, HN, HI.
  assert (K : exists later, map key (handed (r_world (sl_runner sl))) = map rkey (reported_by sl) ++ later).
  { rewrite E1, map_app, E2. unfold reports, reported_by. rewrite map_app, <- !app_assoc. eauto. }
  destruct K as (later & K). rewrite K in HN. split; [now apply NoDup_app_l in HN|]. intros r IR.
  assert (X : In (rkey r) (map key (handed (r_world (sl_runner sl))))) by (rewrite K; apply in_or_app; left; now apply in_map).
  apply in_map_iff in X as (t & Et & It). unfold key, rkey in Et. injection Et as Ei Er. split.
  - rewrite ST, ids_fresh in HI. rewrite <- Ei. apply HI. now apply in_map.
  - rewrite Forall_forall in HR. rewrite <- Er. auto.
Qed.

Lemma view_once c ps k z : sound c ps -> CInv c ps k z -> NoDup (map rkey (reported (k_system k))).
Proof.
  intros SO I. apply (NoDup_rkeys _ (got_tests c (k_system k))); [now apply (all_got_nodup c ps k z)|]. intros sl S.
  destruct (view_reports c ps k z sl SO I S) as [A B]. split; auto. intros r R. now apply B.
Qed.

Lemma view_one_runner c ps k z i j si sj ri rj : sound c ps -> CInv c ps k z ->
  nth_error (y_slots (k_system k)) i = Some si -> nth_error (y_slots (k_system k)) j = Some sj ->
  In ri (reported_by si) -> In rj (reported_by sj) -> ar_work ri = ar_work rj -> i = j.
Proof.
  intros SO I Ei Ej Ri Rj E. apply (flat_map_unique (got_tests c (k_system k)) (y_slots (k_system k)) i j si sj (ar_work ri)); auto.
  - now apply (all_got_nodup c ps k z).
  - apply (view_reports c ps k z si SO I); auto. eapply nth_error_In; eauto.
  - rewrite E. apply (view_reports c ps k z sj SO I); auto. eapply nth_error_In; eauto.
Qed.

Lemma got_answered c ps k z sl j : CInv c ps k z -> In sl (y_slots (k_system k)) -> In j (sl_taken sl) -> exists b, answer c (y_queue (k_system k)) j = Some b.
Proof.
  intros I S J. destruct (forall2_slots c ps k z I) as [E _].
  assert (X : In (sl_taken sl) (map sl_taken (y_slots z))) by (rewrite <- E; now apply in_map). apply in_map_iff in X as (zl & X & SZ).
  destruct (slot_of c ps z zl (n_z _ _ _ _ I) SZ) as [_ SI]. pose proof (s_taken _ _ _ SI) as F. unfold answered_all in F. rewrite Forall_forall, X in F.
  rewrite <- (n_queue _ _ _ _ I). auto.
Qed.

(* What was reported on was taken from the queue. *)
Lemma got_taken c ps k z sl x : CInv c ps k z -> In sl (y_slots (k_system k)) -> In x (got_tests c (k_system k) sl) -> In x (taken_from_queue c k).
Proof.
  intros I S X. unfold got_tests in X. apply in_flat_map in X as (j & J & X). unfold taken_from_queue. apply in_flat_map. exists j. split; auto.
  destruct (got_answered c ps k z sl j I S J) as (b & A). destruct (answer_answered c _ _ _ A) as (who & n & D & _).
  assert (RE : reachable c (y_queue (k_system k))) by (rewrite <- (n_queue _ _ _ _ I); exact (y_reach _ _ _ (n_z _ _ _ _ I))).
  destruct (log_complete c _ RE) as [_ LC]. eapply LC; eauto.
Qed.

Lemma taken_manifest c ps k z x : CInv c ps k z -> In x (taken_from_queue c k) -> In x (tests_of c).
Proof.
  intros I X. unfold taken_from_queue in X. apply in_flat_map in X as (j & _ & X). unfold response in X.
  destruct (nth_error _ j) as [t|]; [|destruct X]. unfold JobQueueModel.bundle in X. destruct (th_pc t); try destruct X.
  apply in_map_iff in X as (p & <- & X). unfold tests_of. apply in_map. apply in_slice in X as (i & _ & X). eapply nth_error_In; eauto.
Qed.

(* ---- after the cancellation ---- *)

Lemma cstep_cancelled c k e : k_cancelled k = true -> k_cancelled (cstep c k e) = true.
Proof.
  intros C. destruct e as [e|]; cbn [cstep].
  - rewrite C. cbn [negb]. destruct e as [i|j|i|i e]; cbn [k_cancelled]; auto. destruct (has_answer _ _ _); cbn [k_cancelled]; auto.
    destruct (has_request _ _); auto. unfold refuse. destruct (nth_error _ _); cbn [k_cancelled]; auto.
  - destruct (existsb _ _); auto.
Qed.

Lemma sstep_queue c y e : (forall j, e <> QStep j) -> y_queue (sstep c y e) = y_queue y \/ exists who n, y_queue (sstep c y e) = JobQueueModel.step c (y_queue y) (Arrive who n).
Proof.
  intros NE. destruct e as [i|j|i|i e]; cbn [sstep].
  - destruct (nth_error _ i); auto. destruct (sl_pending _); auto. destruct (_ && _); auto. right. do 2 eexists. reflexivity.
  - now destruct (NE j).
  - destruct (nth_error _ i); auto. destruct (sl_pending _); auto. destruct (nth_error _ _); auto. destruct (answer_of _ _); auto.
  - destruct (nth_error _ i); auto.
Qed.

Lemma arrive_frozen c q who n : JobQueueProofs.Inv c q ->
  st_log (JobQueueModel.step c q (Arrive who n)) = st_log q /\ st_ptr (JobQueueModel.step c q (Arrive who n)) = st_ptr q /\
  forall j, In j (st_log q) -> response c (JobQueueModel.step c q (Arrive who n)) j = response c q j.
Proof.
  intros IV. cbn [JobQueueModel.step]. destruct (Nat.eqb n 0); auto. cbn [st_log st_ptr]. split; auto. split; auto. intros j J.
  unfold response. cbn [st_threads]. rewrite nth_error_app1; auto. exact (JobQueueProofs.inv_log_len _ _ IV j J).
Qed.

Lemma cstep_frozen c ps k z e : CInv c ps k z -> k_cancelled k = true ->
  let q := y_queue (k_system k) in let q' := y_queue (k_system (cstep c k e)) in
  st_log q' = st_log q /\ st_ptr q' = st_ptr q /\ forall j, In j (st_log q) -> response c q' j = response c q j.
Proof.
  intros I C q q'.
  assert (IV : JobQueueProofs.Inv c q) by (apply reachable_inv; unfold q; rewrite <- (n_queue _ _ _ _ I); exact (y_reach _ _ _ (n_z _ _ _ _ I))).
  assert (H : q' = q \/ exists who n, q' = JobQueueModel.step c q (Arrive who n)).
  { unfold q', q. destruct e as [e|]; cbn [cstep].
    - rewrite C. cbn [negb]. destruct e as [i|j|i|i e]; auto; cbn [k_system].
      + apply sstep_queue. discriminate.
      + destruct (has_answer _ _ _); [apply sstep_queue; discriminate|]. destruct (has_request _ _); auto. unfold refuse. destruct (nth_error _ _); auto.
      + apply sstep_queue. discriminate.
    - destruct (existsb _ _); auto. }
  destruct H as [->|(who & n & ->)]; auto. now apply arrive_frozen.
Qed.

Lemma run_frozen c ps es : sound c ps -> forall k z, CInv c ps k z -> k_cancelled k = true ->
  k_cancelled (run (cstep c) k es) = true /\ taken_from_queue c (run (cstep c) k es) = taken_from_queue c k /\
  st_ptr (y_queue (k_system (run (cstep c) k es))) = st_ptr (y_queue (k_system k)).
Proof.
  intros SO. induction es as [|e es IH]; intros k z I C; auto. change (run (cstep c) k (e :: es)) with (run (cstep c) (cstep c k e) es).
  destruct (CInv_step c ps k z e SO I) as (z' & I'). destruct (IH _ z' I' (cstep_cancelled c k e C)) as (A & B & D). split; auto. rewrite B, D.
  destruct (cstep_frozen c ps k z e I C) as (E & F & G). split; auto. unfold taken_from_queue. rewrite E. apply flat_map_ext_in. exact G.
Qed.

(* ---- the end ---- *)

Lemma view_firsts c ps k z sl : sound c ps -> CInv c ps k z -> In sl (y_slots (k_system k)) -> finished (sl_runner sl) ->
  map ar_work (firsts (reported_by sl)) = got_tests c (k_system k) sl.
Proof.
  intros SO I S F. destruct (slot_view c ps k z sl SO I S) as (ss & PR & M & B & ST & R & TI & SR). specialize (SR F).
  pose proof (finished_all _ _ _ _ R F) as K. unfold reported_by. rewrite (filter_map_run _ _ K). fold (first_attempts (r_world (sl_runner sl))).
  destruct (v_hist _ _ _ _ R) as (es & IO & W).
  assert (FA : first_attempts (r_world (sl_runner sl)) = source_tests ss).
  { rewrite W in *. destruct (reach_inv _ _ es PR M IO) as (H1 & H2 & O & C & IV). rewrite (first_attempts_eq _ _ _ _ _ _ _ IV).
    destruct (i_src _ _ _ _ _ _ _ IV) as (X & X1 & X2 & X3). rewrite X1. destruct SR as [SR|SR].
    - rewrite X2, SR; [cbn [source_tests served]; now rewrite !app_nil_r|]. destruct (w_ended (run fstep _ es)) eqn:E; auto.
      rewrite (proj2 TI E) in SR. discriminate.
    - now rewrite X3, app_nil_r. }
  rewrite FA, ST. apply ids_fresh.
Qed.

Lemma view_done c ps k z : CInv c ps k z -> all_finished (k_system k) -> sound c ps ->
  quiescent (y_queue z) /\ Permutation (flat_map sl_taken (y_slots z)) (st_log (y_queue z)).
Proof.
  intros I F SO. pose proof (n_z _ _ _ _ I) as Z. destruct (k_cancelled k) eqn:CA.
  2:{ pose proof (live_same _ _ _ _ I CA) as EQ. rewrite <- EQ in F. now apply (all_done c ps z). }
  pose proof (n_quiet _ _ _ _ I CA) as QT. split; auto. destruct (log_complete c (y_queue z) (y_reach _ _ _ Z)) as [LN LC].
  apply NoDup_Permutation; auto; [now apply (taken_nodup c ps)|]. intros j. split; intros J.
  - apply in_flat_map in J as (sl & S & J). destruct (slot_of c ps z sl Z S) as [_ SI]. pose proof (s_taken _ _ _ SI) as T. unfold answered_all in T. rewrite Forall_forall in T.
    destruct (T j J) as (b & A). destruct (answer_answered c _ _ _ A) as (who & n & D & _). eapply LC; eauto.
  - pose proof (reachable_inv _ _ (y_reach _ _ _ Z)) as IV. pose proof (JobQueueProofs.inv_log_len _ _ IV j J) as L.
    assert (X : In j (flat_map owned (y_slots z))) by (apply (Permutation_in _ (Permutation_sym (y_owned _ _ _ Z))); apply in_seq; lia).
    apply in_flat_map in X as (zl & SZ & X). apply in_flat_map. exists zl. split; auto. unfold owned in X. apply in_app_or in X as [X|X]; auto. exfalso.
    destruct (sl_pending zl) as [j'|] eqn:PE; [|destruct X]. destruct X as [->|[]].
    apply In_nth_error in SZ as (i & EZ).
    assert (ES : exists sl, nth_error (y_slots (k_system k)) i = Some sl).
    { destruct (nth_error (y_slots (k_system k)) i) eqn:Q; eauto. apply nth_error_None in Q. assert (i < length (y_slots z)) by (apply nth_error_Some; congruence). pose proof (n_len _ _ _ _ I). lia. }
    destruct ES as (sl & ES). destruct (n_slot _ _ _ _ I i sl zl ES EZ) as [[_ C]|[_ ->]].
    + destruct (u_request _ _ _ C) as (j' & E & t & K & P). rewrite PE in E. injection E as <-. now apply (JobQueueProofs.inv_log _ _ IV j t K) in J.
    + destruct (slot_of c ps z zl Z (nth_error_In _ _ EZ)) as [_ SI]. unfold all_finished in F. rewrite Forall_forall in F. 
      destruct (finished_srcs _ _ _ SI (F zl (nth_error_In _ _ ES))) as [P _]. congruence.
Qed.

Lemma view_all c ps k z : sound c ps -> CInv c ps k z -> all_finished (k_system k) ->
  Permutation (map ar_work (firsts (reported (k_system k)))) (taken_from_queue c k) /\
  taken_from_queue c k = firstn (Nat.min (st_ptr (y_queue (k_system k))) (length (tests_of c))) (tests_of c).
Proof.
  intros SO I F. destruct (view_done c ps k z I F SO) as [Q P]. pose proof (n_queue _ _ _ _ I) as EQ. pose proof (n_z _ _ _ _ I) as Z. split.
  - unfold taken_from_queue. rewrite <- EQ. rewrite <- (flat_map_perm _ _ _ P).
    destruct (forall2_slots c ps k z I) as [E _].
    assert (X : flat_map sl_taken (y_slots z) = flat_map sl_taken (y_slots (k_system k))) by (rewrite !flat_map_concat_map; now rewrite E). rewrite X.
    rewrite flat_map_flat_map. unfold firsts, reported. rewrite filter_flat_map, map_flat_map.
    apply Permutation_refl'. apply flat_map_ext_in. intros sl S. unfold all_finished in F. rewrite Forall_forall in F. rewrite EQ. apply (view_firsts c ps k z sl); auto.
  - unfold taken_from_queue. rewrite <- EQ, flat_map_concat_map. apply (responses_concat c (y_queue z) (y_reach _ _ _ Z) Q).
Qed.

(* ---- it goes on ---- *)

Lemma view_moves c ps k z : sound c ps -> CInv c ps k z -> ~ all_finished (k_system k) ->
  Forall (fun sl => flushing (sl_runner sl) -> r_prod (sl_runner sl) = PFetch -> attempt (r_world (sl_runner sl)) = p_max (sl_params sl)) (y_slots (k_system k)) ->
  run_moves c k.
Proof.
  intros SO I NF FL. pose proof (n_z _ _ _ _ I) as Z. destruct (k_cancelled k) eqn:CA.
  2:{ pose proof (live_same _ _ _ _ I CA) as EQ. rewrite <- EQ in NF, FL.
      assert (NE : forall e, sstep c z e <> z -> cstep c k (Sys e) <> k).
      { intros e N Q. apply N. cbn [cstep] in Q. rewrite CA in Q. cbn [negb] in Q. apply (f_equal k_system) in Q. cbn [k_system] in Q. now rewrite <- EQ in Q. }
      destruct (system_progress c ps z SO Z NF FL) as [(i & M)|(e & N & M)]; [left; exists i; intros o; now apply NE|].
      right. exists (Sys e). split; [intros i o [= ->]; now apply (N i o)|]. split; [discriminate|]. now apply NE. }
  assert (D : forall l, ~ Forall (fun sl => finished (sl_runner sl)) l -> exists sl, In sl l /\ ~ finished (sl_runner sl)).
  { induction l as [|a l IH]; intros N; [destruct N; constructor|].
    assert (DE : finished (sl_runner a) \/ ~ finished (sl_runner a)).
    { unfold finished. destruct (r_prod (sl_runner a)), (r_sender_done (sl_runner a)), (r_task (sl_runner a)); try (right; intros (? & ? & ? & ?); discriminate). left. eauto. }
    destruct DE as [F|F]; [|exists a; split; [now left|auto]]. destruct IH as (sl & S & F'); [intros X; apply N; now constructor|]. exists sl. split; [now right|auto]. }
  destruct (D _ NF) as (sl & S & NFS). rewrite Forall_forall in FL. specialize (FL sl S). apply In_nth_error in S as (i & E). pose proof (nth_error_In _ _ E) as S.
  assert (EZ : exists zl, nth_error (y_slots z) i = Some zl).
  { destruct (nth_error (y_slots z) i) eqn:Q; eauto. apply nth_error_None in Q. assert (i < length (y_slots (k_system k))) by (apply nth_error_Some; congruence). pose proof (n_len _ _ _ _ I). lia. }
  destruct EZ as (zl & EZ). pose proof (nth_error_In _ _ EZ) as SZ.
  assert (GO : forall e, rstep (p_batch (sl_params sl)) (sl_runner sl) e <> sl_runner sl -> cstep c k (Sys (Go i e)) <> k).
  { intros e N Q. cbn [cstep] in Q. rewrite CA in Q. cbn [negb sstep] in Q. rewrite E in Q. apply (f_equal k_system) in Q. cbn [k_system] in Q. revert Q.
    apply (with_slot_neq _ _ i sl); auto. intros Q. apply (f_equal sl_runner) in Q. cbn in Q. congruence. }
  assert (MV : can_move (p_batch (sl_params sl)) (sl_runner sl) -> run_moves c k).
  { intros [MV|[MV|MV]].
    - right. exists (Sys (Go i Producer)). split; [discriminate|]. split; [discriminate|auto].
    - right. exists (Sys (Go i Sender)). split; [discriminate|]. split; [discriminate|auto].
    - left. exists i. auto. }
  destruct (n_slot _ _ _ _ I i sl zl E EZ) as [[_ C]|[T ->]].
  - apply MV. destruct (cut_runner c ps z zl sl SO Z SZ C) as (PR & CP & M & B & _ & R & _). rewrite (u_params _ _ _ C) in *. now apply (progress _ _ _ _ PR M B CP R).
  - destruct (slot_of c ps z zl Z SZ) as [IP SI]. destruct (sl_pending zl) as [j|] eqn:PE.
    + right. exists (Sys (Reply i)). split; [discriminate|]. split; [discriminate|]. cbn [cstep]. rewrite CA. cbn [negb].
      destruct (has_answer c (k_system k) i) eqn:HA.
      * intros Q. apply (f_equal k_system) in Q. cbn [k_system sstep] in Q. revert Q. unfold has_answer in HA. rewrite E, PE in *.
        destruct (nth_error (st_threads _) j) as [t|]; [|discriminate]. destruct (answer_of c t); [|discriminate]. apply (with_slot_neq _ _ i zl); auto.
        intros Q. apply (f_equal sl_pending) in Q. cbn in Q. congruence.
      * unfold has_request, refuse. rewrite E, PE. intros Q. apply (f_equal k_system) in Q. cbn [k_system] in Q. revert Q. apply (with_slot_neq _ _ i zl); auto.
        intros Q. apply (f_equal sl_pending) in Q. cbn in Q. congruence.
    + destruct (asking (sl_runner zl)) eqn:AS; [|apply MV; now apply (slot_moves c ps z zl)].
      right. exists (Sys (Ask i)). split; [discriminate|]. split; [discriminate|]. cbn [cstep]. rewrite CA. cbn [negb sstep]. rewrite E, PE, AS.
      destruct SO as [_ SO]. rewrite Forall_forall in SO. destruct (SO _ IP) as [B _].
      destruct (Nat.eqb_spec (p_batch (sl_params zl)) 0) as [|NZ]; [lia|]. cbn [negb andb]. intros Q. apply (f_equal k_system) in Q. cbn [k_system] in Q. revert Q. apply (with_slot_neq _ _ i zl); auto.
      intros Q. apply (f_equal sl_pending) in Q. cbn in Q. congruence.
Qed.

Lemma no_crash_cstep c k e : (forall i, e <> Sys (Go i (Task Failed))) -> Forall (fun sl => ~ crashed (sl_runner sl)) (y_slots (k_system k)) ->
  Forall (fun sl => ~ crashed (sl_runner sl)) (y_slots (k_system (cstep c k e))).
Proof.
  intros NE F. destruct e as [e|]; cbn [cstep]; [|destruct (existsb _ _); auto].
  assert (G : Forall (fun sl => ~ crashed (sl_runner sl)) (y_slots (sstep c (k_system k) e))) by (apply no_crash_system; auto; intros i ->; now apply (NE i)).
  destruct (k_cancelled k); cbn [negb]; auto. destruct e as [i|j|i|i e]; auto. destruct (has_answer _ _ _); auto. destruct (has_request _ _); auto.
  unfold refuse. destruct (nth_error _ i) as [sl|] eqn:E; auto. cbn [k_system with_slot y_slots]. apply Forall_upd; auto. cbn [sl_runner].
  rewrite Forall_forall in F. exact (F sl (nth_error_In _ _ E)).
Qed.
Lemma no_crash_crun c es : forall k, Forall (fun e => forall i, e <> Sys (Go i (Task Failed))) es -> Forall (fun sl => ~ crashed (sl_runner sl)) (y_slots (k_system k)) ->
  Forall (fun sl => ~ crashed (sl_runner sl)) (y_slots (k_system (run (cstep c) k es))).
Proof.
  induction es as [|e es IH]; intros k NF F; auto. inversion NF; subst. apply (IH (cstep c k e)); auto. now apply no_crash_cstep.
Qed.
