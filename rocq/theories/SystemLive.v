(* The system goes on until all runners have returned, and does so in a bounded number of steps. *)
From Verif Require Import Base JobQueueModel JobQueueSpec JobQueueLemmas.
From Verif Require Import StatusModel FetchModel FetchSpec FetchProofs FetchAttempts RunnerModel RunnerSpec RunnerProofs RunnerLive SystemModel SystemSpec RunnerFeed SystemProofs SystemEnd.

Implicit Types (c : config nat) (st : JobQueueModel.state).

Definition last_reply : reply := Bundle {| b_work := []; b_eow := true |}.

(* A runner that is not waiting for the queue can go on. *)
Lemma slot_moves c ps y sl : sound c ps -> SInv c ps y -> In sl (y_slots y) -> ~ finished (sl_runner sl) -> asking (sl_runner sl) = false ->
  (flushing (sl_runner sl) -> r_prod (sl_runner sl) = PFetch -> attempt (r_world (sl_runner sl)) = p_max (sl_params sl)) ->
  can_move (p_batch (sl_params sl)) (sl_runner sl).
Proof.
  intros SO I S NF NA FL. destruct (slot_of c ps y sl I S) as [IP SI]. destruct (slot_rinv c ps y sl SO (y_reach _ _ _ I) IP SI) as (PR & M & B & R).
  destruct (script_tests c (y_queue y) (sl_taken sl) (slot_one_last _ _ _ SI)) as [ST [G|CP]]; [|now apply (progress _ _ _ _ PR M B CP R)].
  destruct (s_run _ _ _ SI) as (es & RU). pose proof (script_ok c (y_queue y) (sl_taken sl) (y_reach _ _ _ I)) as OK.
  destruct (feed_run (p_batch (sl_params sl)) (p_max (sl_params sl)) _ {| b_work := []; b_eow := true |} es OK) as (es' & RU' & _). rewrite <- RU in RU'.
  assert (ST' : source_tests [script c (y_queue y) (sl_taken sl) ++ [last_reply]] = source_tests [script c (y_queue y) (sl_taken sl)]).
  { rewrite ST. cbn [source_tests]. rewrite (served_goes_on c _ _ [last_reply] G). cbn [served last_reply b_eow b_work fst snd]. now rewrite !app_nil_r. }
  assert (PR' : proper [script c (y_queue y) (sl_taken sl) ++ [last_reply]]) by (split; [discriminate|]; rewrite ST'; exact (proj2 PR)).
  assert (CP' : complete [script c (y_queue y) (sl_taken sl) ++ [last_reply]]).
  { constructor; [|constructor]. rewrite (served_goes_on c _ _ [last_reply] G). reflexivity. }
  pose proof (reach_rinv _ (p_max (sl_params sl)) (p_batch (sl_params sl)) es' PR' M B) as R'. fold last_reply in RU'. rewrite <- RU' in R'.
  rewrite feed_grow in *. fold last_reply in *. set (s := sl_runner sl) in *. set (batch := p_batch (sl_params sl)) in *.
  assert (MV : can_move batch (growr [last_reply] s)) by (apply (progress _ _ _ _ PR' M B CP' R'); auto).
  assert (K : forall e, rstep batch (growr [last_reply] s) e <> growr [last_reply] s -> rstep batch s e <> s).
  { intros e NE E. destruct (rstep_grow [last_reply] batch s e (proj1 (s_tight _ _ _ SI))) as [_ [[_ G1]|G1]]; [congruence|]. apply NE. now rewrite G1, E. }
  destruct MV as [MV|[MV|MV]]; [left|right; left|right; right]; auto.
Qed.

Lemma with_slot_neq y q i sl sl' : nth_error (y_slots y) i = Some sl -> sl' <> sl -> with_slot y q i sl' <> y.
Proof.
  intros E N Q. apply (f_equal (fun z => nth_error (y_slots z) i)) in Q. cbn [with_slot y_slots] in Q. rewrite nth_error_upd_eq in Q; [congruence|]. apply nth_error_Some. congruence.
Qed.

Lemma undone_moves c st k t : reachable c st -> nth_error (st_threads st) k = Some t -> answer_of c t = None -> JobQueueModel.step c st (Step k) <> st.
Proof.
  intros R K A E. destruct (togo_step c st k t (reachable_inv _ _ R) K) as (t' & K' & L). rewrite E, K in K'. injection K' as <-.
  pose proof (never_panics c st k t R K) as NP. unfold answer_of, eow_of, status_of in A. destruct (th_pc t) as [| | | |s e [|]|]; cbn [togo] in L; try lia; try congruence.
  - destruct (JobQueueModel.bundle c t); discriminate.
  - discriminate.
Qed.

Lemma system_progress c ps y : sound c ps -> SInv c ps y -> ~ all_finished y ->
  Forall (fun sl => flushing (sl_runner sl) -> r_prod (sl_runner sl) = PFetch -> attempt (r_world (sl_runner sl)) = p_max (sl_params sl)) (y_slots y) ->
  system_moves c y.
Proof.
  intros SO I NF FL.
  assert (D : forall l, ~ Forall (fun sl => finished (sl_runner sl)) l -> exists sl, In sl l /\ ~ finished (sl_runner sl)).
  { induction l as [|a l IH]; intros N; [destruct N; constructor|].
    assert (DE : finished (sl_runner a) \/ ~ finished (sl_runner a)).
    { unfold finished. destruct (r_prod (sl_runner a)), (r_sender_done (sl_runner a)), (r_task (sl_runner a)); try (right; intros (? & ? & ? & ?); discriminate). left. eauto. }
    destruct DE as [F|F]; [|exists a; split; [now left|auto]]. destruct IH as (sl & S & F'); [intros X; apply N; now constructor|]. exists sl. split; [now right|auto]. }
  destruct (D _ NF) as (sl & S & NFS). destruct (slot_of c ps y sl I S) as [IP SI]. rewrite Forall_forall in FL. specialize (FL sl S).
  apply In_nth_error in S as (i & E). pose proof (nth_error_In _ _ E) as S. destruct (sl_pending sl) as [k|] eqn:PE.
  - right. destruct (s_pend _ _ _ SI k PE) as [LT AS]. destruct (nth_error (st_threads (y_queue y)) k) as [t|] eqn:K; [|apply nth_error_None in K; lia].
    destruct (answer_of c t) as [b|] eqn:A.
    + exists (Reply i). split; [discriminate|]. cbn [sstep]. rewrite E, PE, K, A. apply (with_slot_neq y _ i sl); auto. intros Q. apply (f_equal sl_pending) in Q. cbn in Q. congruence.
    + exists (QStep k). split; [discriminate|]. cbn [sstep]. intros Q. apply (f_equal y_queue) in Q. cbn [y_queue] in Q. exact (undone_moves c _ k t (y_reach _ _ _ I) K A Q).
  - destruct (asking (sl_runner sl)) eqn:AS.
    + right. exists (Ask i). split; [discriminate|]. cbn [sstep]. rewrite E, PE, AS. destruct SO as [_ SO]. rewrite Forall_forall in SO. destruct (SO _ IP) as [B _].
      destruct (Nat.eqb_spec (p_batch (sl_params sl)) 0) as [|NZ]; [lia|]. cbn [negb andb]. apply (with_slot_neq y _ i sl); auto. intros Q. apply (f_equal sl_pending) in Q. cbn in Q. congruence.
    + assert (NE : forall e, rstep (p_batch (sl_params sl)) (sl_runner sl) e <> sl_runner sl -> sstep c y (Go i e) <> y).
      { intros e N. cbn [sstep]. rewrite E. apply (with_slot_neq y _ i sl); auto. intros Q. apply (f_equal sl_runner) in Q. cbn in Q. congruence. }
      destruct (slot_moves c ps y sl SO I S NFS AS FL) as [MV|[MV|MV]].
      * right. exists (Go i Producer). split; [discriminate|auto].
      * right. exists (Go i Sender). split; [discriminate|auto].
      * left. exists i. auto.
Qed.

(* ---- no crash ---- *)

Lemma no_crash_system c y e : (forall i, e <> Go i (Task Failed)) -> Forall (fun sl => ~ crashed (sl_runner sl)) (y_slots y) ->
  Forall (fun sl => ~ crashed (sl_runner sl)) (y_slots (sstep c y e)).
Proof.
  intros NE F. destruct e as [i|k|i|i e]; cbn [sstep]; auto.
  - destruct (nth_error (y_slots y) i) as [sl|] eqn:E; auto. destruct (sl_pending sl); auto. destruct (_ && _); auto. cbn [with_slot y_slots].
    apply Forall_upd; auto. rewrite Forall_forall in F. exact (F sl (nth_error_In _ _ E)).
  - destruct (nth_error (y_slots y) i) as [sl|] eqn:E; auto. destruct (sl_pending sl); auto. destruct (nth_error _ n); auto. destruct (answer_of c t); auto.
    cbn [with_slot y_slots]. apply Forall_upd; auto. rewrite Forall_forall in F. exact (F sl (nth_error_In _ _ E)).
  - destruct (nth_error (y_slots y) i) as [sl|] eqn:E; auto. cbn [with_slot y_slots]. apply Forall_upd; auto. cbn [sl_runner]. apply no_crash_step.
    + intros ->. exact (NE i eq_refl).
    + rewrite Forall_forall in F. exact (F sl (nth_error_In _ _ E)).
Qed.

Lemma no_crash_run c es : forall y, no_failure es -> Forall (fun sl => ~ crashed (sl_runner sl)) (y_slots y) ->
  Forall (fun sl => ~ crashed (sl_runner sl)) (y_slots (run (sstep c) y es)).
Proof.
  induction es as [|e es IH]; intros y NF F; auto. inversion NF as [|? ? N1 N2]; subst. change (run (sstep c) y (e :: es)) with (run (sstep c) (sstep c y e) es).
  apply IH; auto. now apply no_crash_system.
Qed.

Lemma no_crash_init c ps : Forall (fun sl => ~ crashed (sl_runner sl)) (y_slots (sinit c ps)).
Proof. apply Forall_forall. intros sl S. apply in_map_iff in S as (p & <- & _). exact (fun H => H). Qed.

(* ---- the number of steps ---- *)

Definition sum (l : list nat) : nat := fold_right Nat.add 0 l.
Lemma sum_app l l' : sum (l ++ l') = sum l + sum l'.
Proof. induction l as [|a l IH]; cbn [sum fold_right app]; auto. change (fold_right Nat.add 0 (l ++ l')) with (sum (l ++ l')). rewrite IH. unfold sum. lia. Qed.
Lemma sum_upd {A} (f : A -> nat) l i x x' : nth_error l i = Some x -> sum (map f (upd i x' l)) + f x = sum (map f l) + f x'.
Proof.
  revert i. induction l as [|a l IH]; intros [|i] E; try discriminate; cbn [nth_error upd map sum fold_right] in *.
  - injection E as ->. lia.
  - specialize (IH i E). unfold sum in IH. lia.
Qed.

Section Measure.
Variable c : config nat.
Let N := length (tests_of c).

Definition waits (sl : slot) : nat :=
  (N + 8) * (1 + N - length (sl_taken sl)) - match sl_pending sl with Some _ => N + 5 | None => 0 end.
Definition slot_measure (sl : slot) : nat := measure (N * p_max (sl_params sl)) (sl_runner sl) + waits sl.
Definition thread_measure (t : thread) : nat := togo N (th_pc t).
Definition system_measure (y : system) : nat := sum (map slot_measure (y_slots y)) + sum (map thread_measure (st_threads (y_queue y))).

Lemma few_taken ps y sl : sound c ps -> SInv c ps y -> In sl (y_slots y) -> Forall (goes_on c (y_queue y)) (sl_taken sl) -> length (sl_taken sl) <= N.
Proof.
  intros SO I S G. destruct (slot_of c ps y sl I S) as [IP SI].
  assert (L : length (sl_taken sl) <= length (got_tests c y sl)).
  { unfold got_tests. pose proof (y_reach _ _ _ I) as R. induction G as [|k l (b & A & E) G IH]; auto. cbn [flat_map length]. rewrite app_length.
    destruct (answer_answered c _ k b A) as (who & n & D & _). rewrite E in D. apply (not_eow_nonempty c _ k who n _ R) in D.
    destruct (response c (y_queue y) k); [congruence|]. cbn [length]. lia. }
  assert (L2 : length (got_tests c y sl) <= N).
  { apply NoDup_incl_length.
    - pose proof (got_nodup c ps y SO I) as ND. apply in_split in S as (l1 & l2 & E). rewrite E, flat_map_app in ND. apply NoDup_app_r in ND. now apply NoDup_app_l in ND.
    - intros x X. now apply (got_in_manifest c ps y sl). }
  lia.
Qed.

Lemma runner_measure ps y sl e : sound c ps -> SInv c ps y -> In sl (y_slots y) ->
  rstep (p_batch (sl_params sl)) (sl_runner sl) e = sl_runner sl \/
  measure (N * p_max (sl_params sl)) (rstep (p_batch (sl_params sl)) (sl_runner sl) e) < measure (N * p_max (sl_params sl)) (sl_runner sl).
Proof.
  intros SO I S. destruct (slot_of c ps y sl I S) as [IP SI]. destruct (slot_rinv c ps y sl SO (y_reach _ _ _ I) IP SI) as (PR & M & B & R).
  destruct e as [|o|]; cbn [rstep]; [|apply task_measure|apply sender_measure].
  set (ss := [script c (y_queue y) (sl_taken sl)]) in *. set (max := p_max (sl_params sl)) in *. set (batch := p_batch (sl_params sl)) in *. set (s := sl_runner sl) in *.
  destruct (producer_measure ss max batch s PR M R) as [Q|Q]; auto. right.
  assert (LE : length (source_tests ss) <= N).
  { unfold ss. rewrite (source_ids c ps y sl I S), map_length. apply NoDup_incl_length.
    - pose proof (got_nodup c ps y SO I) as ND. apply in_split in S as (l1 & l2 & E). rewrite E, flat_map_app in ND. apply NoDup_app_r in ND. now apply NoDup_app_l in ND.
    - intros x X. now apply (got_in_manifest c ps y sl). }
  pose proof (handed_bound ss max _ PR M (v_hist _ _ _ _ R)) as H1.
  pose proof (handed_bound ss max _ PR M (v_hist _ _ _ _ (rstep_inv _ _ _ _ Producer PR M B R))) as H2. cbn [rstep] in H2.
  assert (LM : length (source_tests ss) * max <= N * max) by (apply Nat.mul_le_mono_r; auto).
  unfold measure in *. lia.
Qed.

Lemma sstep_measure ps y e : sound c ps -> SInv c ps y -> sstep c y e = y \/ system_measure (sstep c y e) < system_measure y.
Proof.
  intros SO I. destruct e as [i|k|i|i e]; cbn [sstep].
  - destruct (nth_error (y_slots y) i) as [sl|] eqn:E; auto. destruct (sl_pending sl) as [k|] eqn:PE; auto.
    destruct (asking (sl_runner sl)) eqn:AS; auto. destruct (Nat.eqb_spec (p_batch (sl_params sl)) 0) as [|NZ]; auto. cbn [negb andb]. right.
    pose proof (nth_error_In _ _ E) as S. destruct (slot_of c ps y sl I S) as [IP SI].
    assert (L : length (sl_taken sl) <= N).
    { apply (few_taken ps y sl); auto. apply asking_iff in AS as [AS1 AS2]. destruct (s_where _ _ _ SI) as [W|(l & k & A & B & _ & [(b & D1 & D2 & D3)|(D1 & D2)])]; [tauto|congruence|congruence]. }
    unfold system_measure. cbn [with_slot y_slots y_queue JobQueueModel.step]. destruct (Nat.eqb_spec (p_batch (sl_params sl)) 0); [contradiction|]. cbn [st_threads].
    rewrite map_app, sum_app. cbn [map sum fold_right thread_measure th_pc togo].
    pose proof (sum_upd slot_measure (y_slots y) i sl {| sl_params := sl_params sl; sl_pending := Some (length (st_threads (y_queue y))); sl_taken := sl_taken sl; sl_runner := sl_runner sl |} E) as Q.
    unfold slot_measure at 2 4 in Q. unfold waits in Q. cbn [sl_params sl_pending sl_taken sl_runner] in Q. rewrite PE in Q.
    assert (X : N + 8 <= (N + 8) * (1 + N - length (sl_taken sl))) by (rewrite <- (Nat.mul_1_r (N + 8)) at 1; apply Nat.mul_le_mono_l; lia). lia.
  - destruct (nth_error (st_threads (y_queue y)) k) as [t|] eqn:K; [|left; cbn [JobQueueModel.step]; rewrite K; now destruct y].
    destruct (answer_of c t) as [b|] eqn:A.
    + left. unfold answer_of, eow_of, status_of in A. cbn [JobQueueModel.step]. rewrite K. unfold thread_step, claims_now. destruct t as [tg n p]. cbn [th_pc th_tag th_n] in *.
      destruct p as [| | | |s e d|]; try discriminate. destruct y as [[p o ts lg] sls]. cbn [y_queue st_ptr st_owner st_threads st_log y_slots] in *. repeat f_equal.
      clear -K. revert k K. induction ts as [|a ts IH]; intros [|k] K; try discriminate; cbn [upd nth_error] in *; [congruence|]. f_equal. auto.
    + right. destruct (togo_step c _ k t (reachable_inv _ _ (y_reach _ _ _ I)) K) as (t' & K' & L).
      assert (NZ : 0 < togo (length (cf_queue c)) (th_pc t)).
      { pose proof (never_panics c _ k t (y_reach _ _ _ I) K) as NP. unfold answer_of, eow_of, status_of in A. destruct (th_pc t) as [| | | |s e [|]|]; cbn [togo]; try lia; try congruence.
        - destruct (JobQueueModel.bundle c t); discriminate.
        - discriminate. }
      unfold system_measure. cbn [y_slots y_queue]. cbn [JobQueueModel.step] in *. rewrite K in *. destruct (thread_step c _ _ t) as [[p' o'] pc']. cbn [st_threads] in *.
      rewrite nth_error_upd_eq in K' by (apply nth_error_Some; congruence). injection K' as <-. cbn [th_pc] in L.
      pose proof (sum_upd thread_measure (st_threads (y_queue y)) k t {| th_tag := th_tag t; th_n := th_n t; th_pc := pc' |} K) as Q. unfold thread_measure at 2 4 in Q. cbn [th_pc] in Q.
      assert (EN : N = length (cf_queue c)) by (unfold N, tests_of; apply map_length). rewrite EN in Q. lia.
  - destruct (nth_error (y_slots y) i) as [sl|] eqn:E; auto. destruct (sl_pending sl) as [k|] eqn:PE; auto.
    destruct (nth_error (st_threads (y_queue y)) k) as [t|] eqn:K; auto. destruct (answer_of c t) as [b|] eqn:AO; auto. right.
    pose proof (nth_error_In _ _ E) as S. destruct (slot_of c ps y sl I S) as [IP SI]. destruct (s_pend _ _ _ SI k PE) as [_ AS].
    assert (L : length (sl_taken sl) <= N).
    { apply (few_taken ps y sl); auto. destruct (s_where _ _ _ SI) as [W|(l & k0 & A & B & Q & _)]; [tauto|congruence]. }
    unfold system_measure. cbn [with_slot y_slots y_queue].
    pose proof (sum_upd slot_measure (y_slots y) i sl {| sl_params := sl_params sl; sl_pending := None; sl_taken := sl_taken sl ++ [k]; sl_runner := feed b (sl_runner sl) |} E) as Q.
    unfold slot_measure at 2 4 in Q. unfold waits in Q. cbn [sl_params sl_pending sl_taken sl_runner] in Q. rewrite PE, app_length in Q. cbn [length] in Q.
    assert (MF : measure (N * p_max (sl_params sl)) (feed b (sl_runner sl)) = 1 + (measure (N * p_max (sl_params sl)) (sl_runner sl))).
    { apply asking_iff in AS as [_ AS]. unfold measure. rewrite feed_grow. unfold growr, growf. cbn [set_prod r_world with_fetcher w_fetcher f_sources r_prod r_chan r_refills r_task r_results r_sender_done]. rewrite AS.
      change (handed (with_fetcher (r_world (sl_runner sl)) _)) with (handed (r_world (sl_runner sl))). cbn [concat app length]. lia. }
    rewrite MF in Q. destruct (1 + N - length (sl_taken sl)) as [|m] eqn:SM; [lia|]. replace (1 + N - (length (sl_taken sl) + 1)) with m in Q by lia.
    rewrite Nat.mul_succ_r in Q. lia.
  - destruct (nth_error (y_slots y) i) as [sl|] eqn:E; auto. pose proof (nth_error_In _ _ E) as S.
    destruct (runner_measure ps y sl e SO I S) as [Q|Q].
    + left. rewrite Q. unfold with_slot. destruct y as [q sls]. cbn [y_slots y_queue] in *. f_equal. clear -E. revert i E. induction sls as [|a sls IH]; intros [|i] E; try discriminate; cbn [upd nth_error] in *.
      * injection E as ->. now destruct sl.
      * f_equal. auto.
    + right. unfold system_measure. cbn [with_slot y_slots y_queue].
      pose proof (sum_upd slot_measure (y_slots y) i sl {| sl_params := sl_params sl; sl_pending := sl_pending sl; sl_taken := sl_taken sl; sl_runner := rstep (p_batch (sl_params sl)) (sl_runner sl) e |} E) as Z.
      unfold slot_measure at 2 4 in Z. unfold waits in Z. cbn [sl_params sl_pending sl_taken sl_runner] in Z. lia.
Qed.

Lemma effective_measure ps es : sound c ps -> forall y, SInv c ps y -> all_effective c y es -> length es <= system_measure y.
Proof.
  intros SO. induction es as [|e es IH]; intros y I E; cbn [length]; [lia|]. destruct E as [E1 E2]. specialize (IH _ (sstep_inv c ps y e SO I) E2).
  destruct (sstep_measure ps y e SO I) as [Q|Q]; [congruence|lia].
Qed.

Lemma init_measure ps : system_measure (sinit c ps) = sum (map (fun p => 36 * (N * p_max p) + 5 + (N + 8) * (N + 1)) ps).
Proof.
  unfold system_measure, sinit. cbn [y_slots y_queue JobQueueModel.init st_threads]. change (sum (map thread_measure [])) with 0. rewrite Nat.add_0_r, map_map. f_equal. apply map_ext. intros p.
  unfold slot_measure, waits, measure. cbn [sl_params sl_pending sl_taken sl_runner rinit r_world r_prod r_chan r_refills r_task r_results r_sender_done w_prod w_task length start w_fetcher f_sources concat].
  change (handed (start [[]] (p_max p))) with (@nil wtest). cbn [length]. replace (1 + N - 0) with (N + 1) by lia. rewrite Nat.sub_0_r. cbn [app length]. lia.
Qed.
End Measure.
