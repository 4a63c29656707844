(* Hand-out properties at the level of runs. *)
From Verif Require Import Base JobQueueModel WorkerSetModel RunModel RunSpec RunProofs RunInv RunNext RunLemmas RunParts RunTimers.
From Verif Require JobQueueSpec JobQueueProofs JobQueueLemmas.
From Coq Require Import Permutation.

Lemma flat_map_ext_in {A B} (f g : A -> list B) (l : list A) : (forall a, In a l -> f a = g a) -> flat_map f l = flat_map g l.
Proof. induction l as [|a l IH]; intros H; simpl; auto. rewrite H by (simpl; auto). f_equal. apply IH. intros; apply H; simpl; auto. Qed.

Lemma NoDup_app_intro {A} (l1 l2 : list A) : NoDup l1 -> NoDup l2 -> (forall x, In x l1 -> ~ In x l2) -> NoDup (l1 ++ l2).
Proof.
  induction l1 as [|a l1 IH]; intros H1 H2 Hd; simpl; auto. inversion H1; subst. constructor.
  - rewrite in_app_iff. intros [|]; auto. eapply Hd; simpl; eauto.
  - apply IH; auto. intros x Hx. apply Hd; simpl; auto.
Qed.

Lemma flat_map_seq {A B} (f : A -> list B) (l : list A) :
  flat_map f l = flat_map (fun k => match nth_error l k with Some x => f x | None => [] end) (seq 0 (length l)).
Proof.
  induction l as [|x l IH] using rev_ind; auto.
  rewrite flat_map_app, app_length, seq_app, flat_map_app. simpl. f_equal.
  - rewrite IH. apply flat_map_ext_in. intros k Hk. apply in_seq in Hk. rewrite nth_error_app1 by lia. reflexivity.
  - rewrite nth_error_app2, Nat.sub_diag by lia. reflexivity.
Qed.

Lemma NoDup_flat_map_opt {A B} (f : A -> option B) (l : list A) : NoDup l ->
  (forall a a' b, In a l -> In a' l -> f a = Some b -> f a' = Some b -> a = a') ->
  NoDup (flat_map (fun a => match f a with Some b => [b] | None => [] end) l).
Proof.
  induction l as [|a l IH]; intros HN Hi; simpl; [constructor|].
  inversion HN as [|? ? Hni HN']; subst.
  assert (NoDup (flat_map (fun a => match f a with Some b => [b] | None => [] end) l)).
  { apply IH; auto. intros; eapply Hi; simpl; eauto. }
  destruct (f a) as [b|] eqn:Ea; simpl; auto. constructor; auto.
  rewrite in_flat_map. intros (a' & Ha' & Hb). destruct (f a') as [b'|] eqn:Ea'; [|destruct Hb].
  destruct Hb as [->|[]]. assert (a = a') by (eapply Hi; simpl; eauto). subst. auto.
Qed.

Section Lift.
Context {T M : Type}.
Implicit Types (st : state T M) (r : run_id) (h : list (obs T M)).

Lemma owork_ans st k r e ts eow p : reachable st -> In (OWork k r e ts eow p) (s_log st) -> ts <> [] ->
  exists c js j n, the_queue st r = Some (c, js) /\
    nth_error (s_reqs st) k = Some (QNext r e (NAnswered (Some j))) /\
    JobQueueSpec.reachable c js /\ JobQueueSpec.answered c js j (en_tag e) n ts eow.
Proof.
  intros HR Hin Hne. assert (I := i_n _ (reachable_inv _ HR)).
  destruct (n_log _ I _ _ _ _ _ _ Hin) as ([j|] & Hk & H); [|destruct H; congruence].
  destruct H as (c & js & t & Hq & Ht & Hb & He). exists c, js, j, (th_n t). repeat split; auto.
  - apply (n_q _ I _ _ _ Hq).
  - exists t. repeat split; auto.
    destruct (n_thr _ I _ _ _ _ j Hk eq_refl) as (c' & js' & t' & Hq' & Ht' & Htag & _). congruence.
Qed.

Lemma run_no_test_twice st r k1 e1 ts1 w1 p1 k2 e2 ts2 w2 p2 : reachable st -> NoDup (manifest_of st r) ->
  In (OWork k1 r e1 ts1 w1 p1) (s_log st) -> In (OWork k2 r e2 ts2 w2 p2) (s_log st) -> k1 <> k2 ->
  forall x, In x ts1 -> ~ In x ts2.
Proof.
  intros HR HN H1 H2 Hne x Hx1 Hx2.
  assert (N1 : ts1 <> []) by (intros ->; contradiction).
  assert (N2 : ts2 <> []) by (intros ->; contradiction).
  destruct (owork_ans _ _ _ _ _ _ _ HR H1 N1) as (c & js & j1 & n1 & Q1 & K1 & R1 & A1).
  destruct (owork_ans _ _ _ _ _ _ _ HR H2 N2) as (c' & js' & j2 & n2 & Q2 & K2 & R2 & A2).
  rewrite Q1 in Q2. injection Q2 as <- <-.
  assert (Hj : j1 <> j2).
  { intros <-. apply Hne. eapply (n_inj _ (i_n _ (reachable_inv _ HR))); [exact K1|exact K2|reflexivity|reflexivity]. }
  unfold manifest_of in HN. rewrite Q1 in HN.
  eapply (JobQueueLemmas.no_test_twice c js j1 j2); eauto.
Qed.

Lemma run_no_dup_in_answer st r k e ts w p : reachable st -> NoDup (manifest_of st r) ->
  In (OWork k r e ts w p) (s_log st) -> NoDup ts.
Proof.
  intros HR HN H. destruct ts as [|x ts]; [constructor|].
  destruct (owork_ans _ _ _ _ _ _ _ HR H) as (c & js & j & n & Q & K & R & A); [discriminate|].
  unfold manifest_of in HN. rewrite Q in HN. eapply JobQueueLemmas.response_nodup; eauto.
Qed.

Lemma one_answer st : reachable st -> forall h1 k r e ts w p h2 r' e' ts' w' p',
  s_log st = h1 ++ OWork k r e ts w p :: h2 -> ~ In (OWork k r' e' ts' w' p') (h1 ++ h2).
Proof.
  intros HR h1 k r e ts w p h2 r' e' ts' w' p' Heq Hin.
  assert (HN := n_once _ (i_n _ (reachable_inv _ HR))). rewrite Heq, work_keys_app in HN. simpl in HN.
  apply NoDup_remove_2 in HN. apply HN. rewrite <- work_keys_app.
  apply in_work_keys. eauto 6.
Qed.

(* ---- counting ---- *)
Definition pend_req st r k : bool :=
  match nth_error (s_reqs st) k with Some (QNext r' _ (NEnd _ _)) => Nat.eqb r' r | _ => false end.
Definition req_thread st r k : option nat :=
  match nth_error (s_reqs st) k with
  | Some (QNext r' _ pc) => if Nat.eqb r' r then thread_of pc else None
  | _ => None
  end.
Definition opt_list {A} (o : option A) : list A := match o with Some x => [x] | None => [] end.

Lemma work_keys_history st r : NoDup (work_keys (s_log st)) -> NoDup (work_keys (history st r)).
Proof.
  unfold history. induction (s_log st) as [|o l IH]; simpl; auto.
  intros HN. assert (HN' : NoDup (work_keys l)).
  { destruct o; simpl in HN; auto. inversion HN; auto. }
  destruct (about r o); [|auto]. destruct o; simpl in *; auto.
  constructor; auto. inversion HN as [|? ? Hni _]; subst.
  rewrite in_work_keys in *. intros (r1 & e1 & ts1 & w1 & p1 & Hin). apply Hni.
  apply filter_In in Hin. destruct Hin. eauto 6.
Qed.

Lemma run_claims st r c js : reachable st -> the_queue st r = Some (c, js) -> busy st r = false ->
  Permutation (flat_map sent_tests (history st r) ++ pending_tests st r) (claimed_tests st r).
Proof.
  intros HR Hq Hb. assert (I := i_n _ (reachable_inv _ HR)).
  assert (Hqa : qa st r = Some (c, js)) by exact Hq.
  assert (HRq := n_q _ I _ _ _ Hqa). assert (HI := JobQueueLemmas.reachable_inv _ _ HRq).
  assert (HQ := not_busy_quiescent _ _ _ _ HR Hqa Hb).
  set (K1 := work_keys (history st r)).
  set (K2 := filter (pend_req st r) (seq 0 (length (s_reqs st)))).
  set (f := req_thread st r).
  set (J := fun K => flat_map (fun k => match f k with Some j => [j] | None => [] end) K).
  set (resp := JobQueueSpec.response c js).
  (* what was sent *)
  assert (H1 : flat_map sent_tests (history st r) = flat_map resp (J K1)).
  { assert (Hall : forall o, In o (history st r) -> In o (s_log st) /\ about r o = true) by (intros o Ho; now apply filter_In in Ho).
    unfold K1. revert Hall. generalize (history st r). induction l as [|o l IH]; intros Hall; auto.
    simpl. rewrite IH by (intros; apply Hall; simpl; auto). 
    destruct (Hall o (or_introl eq_refl)) as [Hin Hab].
    destruct o as [| | |k r0 e ts w p| | | | | | | | |]; auto. simpl in *.
    unfold about in Hab; simpl in Hab. apply Nat.eqb_eq in Hab. subst r0.
    destruct (n_log _ I _ _ _ _ _ _ Hin) as (jo & Hk & H).
    unfold J. simpl. unfold f at 2, req_thread. rewrite Hk, Nat.eqb_refl. simpl. fold (J (work_keys l)).
    destruct jo as [j|]; simpl.
    - destruct H as (c' & js' & t & Hq' & Ht & Hbd & _). rewrite Hqa in Hq'. injection Hq' as <- <-.
      unfold resp at 2, JobQueueSpec.response. rewrite Ht. now rewrite Hbd.
    - destruct H as [-> _]. reflexivity. }
  assert (H2 : pending_tests st r = flat_map resp (J K2)).
  { unfold pending_tests. rewrite flat_map_seq. unfold K2.
    assert (Hs : forall k, In k (seq 0 (length (s_reqs st))) -> k < length (s_reqs st)) by (intros k Hk; apply in_seq in Hk; lia).
    revert Hs. generalize (seq 0 (length (s_reqs st))). induction l as [|k l IH]; intros Hs; auto.
    simpl. rewrite IH by (intros; apply Hs; simpl; auto).
    unfold pend_req at 2. destruct (nth_error (s_reqs st) k) as [[|r0 e [j|j ts|jo]|]|] eqn:Ek; auto.
    destruct (Nat.eqb_spec r0 r); auto. subst r0.
    unfold J. simpl. unfold f at 2, req_thread. rewrite Ek, Nat.eqb_refl. simpl.
    f_equal. destruct (n_thr _ I _ _ _ _ j Ek eq_refl) as (c' & js' & t & Hq' & Ht & _ & Hbd & _).
    rewrite Hqa in Hq'. injection Hq' as <- <-. unfold resp, JobQueueSpec.response. rewrite Ht. now rewrite Hbd. }
  rewrite H1, H2, <- flat_map_app.
  replace (J K1 ++ J K2) with (J (K1 ++ K2)) by (unfold J; apply flat_map_app).
  unfold claimed_tests. rewrite Hq.
  replace (firstn (read_index js) (map fst (cf_queue c)))
    with (flat_map resp (st_log js)).
  2:{ rewrite flat_map_concat_map. unfold resp. rewrite JobQueueLemmas.responses_concat by auto.
      unfold JobQueueSpec.tests_of, read_index. rewrite map_length.
      destruct (Nat.le_ge_cases (st_ptr js) (length (cf_queue c))).
      - now rewrite Nat.min_l by lia.
      - rewrite Nat.min_r by lia. rewrite (firstn_all2 (n := st_ptr js)) by (rewrite map_length; lia).
        rewrite <- (map_length fst (cf_queue c)) at 1. apply firstn_all. }
  apply Permutation_flat_map.
  assert (Hrt : forall k j, f k = Some j -> exists e pc, nth_error (s_reqs st) k = Some (QNext r e pc) /\ thread_of pc = Some j).
  { intros k j. unfold f, req_thread. destruct (nth_error (s_reqs st) k) as [[|r0 e pc|]|]; try discriminate.
    destruct (Nat.eqb_spec r0 r); try discriminate. subst. eauto. }
  apply NoDup_Permutation.
  - apply NoDup_flat_map_opt.
    + apply NoDup_app_intro.
      * apply work_keys_history, (n_once _ I).
      * apply NoDup_filter, seq_NoDup.
      * intros k Hk1 Hk2. apply filter_In in Hk2 as [_ Hk2]. unfold pend_req in Hk2.
        apply in_work_keys in Hk1 as (r1 & e1 & ts1 & w1 & p1 & Hin). apply filter_In in Hin as [Hin _].
        destruct (n_log _ I _ _ _ _ _ _ Hin) as (jo & Hk & _). rewrite Hk in Hk2. discriminate.
    + intros a a' b _ _ Ha Ha'.
      apply Hrt in Ha as (e & pc & Ha & Hta). apply Hrt in Ha' as (e' & pc' & Ha' & Hta').
      eapply (n_inj _ I); eauto.
  - apply (JobQueueProofs.inv_nodup _ _ HI).
  - intros j. unfold J. rewrite in_flat_map. split.
    + intros (k & Hk & Hj). destruct (f k) as [j'|] eqn:Ef; [|destruct Hj]. destruct Hj as [->|[]].
      apply Hrt in Ef as (e & pc & Hk' & Ht).
      destruct (n_thr _ I _ _ _ _ _ Hk' Ht) as (c' & js' & t & Hq' & Hj & _ & Hpc).
      rewrite Hqa in Hq'. injection Hq' as <- <-.
      apply (JobQueueProofs.inv_log _ _ HI _ _ Hj).
      assert (He : eow_of c t <> None).
      { destruct pc as [j0|j0 ts|jo]; simpl in Hpc.
        - exfalso. eapply busy_false; eauto.
        - destruct Hpc as [_ ->]. discriminate.
        - destruct Hpc as [b ->]. discriminate. }
      apply eow_done in He as (s & e0 & b & ->). discriminate.
    + intros Hj. assert (Hlt := JobQueueProofs.inv_log_len _ _ HI _ Hj).
      destruct (n_sur _ I _ _ _ _ Hqa Hlt) as (k & e & pc & Hk & Ht).
      exists k. split.
      * apply in_app_iff. destruct pc as [j0|j0 ts|jo].
        -- exfalso. eapply busy_false; eauto.
        -- right. apply filter_In. split.
           ++ apply in_seq. split; [lia|]. apply nth_error_Some. congruence.
           ++ unfold pend_req. rewrite Hk. apply Nat.eqb_refl.
        -- left. destruct (n_logc _ I _ _ _ _ Hk) as (ts & w & p & Hin).
           apply in_work_keys. exists r, e, ts, w, p. apply filter_In. split; auto. unfold about; simpl. apply Nat.eqb_refl.
      * unfold f, req_thread. rewrite Hk, Nat.eqb_refl, Ht. simpl; auto.
Qed.

Lemma over_all_sent st r : reachable st -> phase_of st r = Some PhOver -> manifest_of st r <> [] ->
  Permutation (flat_map sent_tests (history st r) ++ pending_tests st r) (manifest_of st r).
Proof.
  intros HR Hp Hm. assert (Hb := closed_not_busy _ _ HR (or_introl Hp)).
  unfold manifest_of in *. destruct (the_queue st r) as [[c js]|] eqn:Eq; [|congruence].
  assert (P := run_claims _ _ _ _ HR Eq Hb). unfold claimed_tests in P. rewrite Eq in P.
  assert (E := over_at_end st r HR). unfold phase_of, the_queue in *.
  destruct (get r (s_runs st)) as [[| |? ? ? ? ? old|]|]; simpl in *; try discriminate. subst old.
  unfold is_at_end in E. apply Nat.leb_le in E.
  rewrite firstn_all2 in P by (rewrite map_length; unfold read_index; lia). exact P.
Qed.

(* A queue is only there when a manifest with tests was accepted. *)
Lemma retry_says st r e : reachable st -> forall work eow,
  history (step st (ERetryManifest r e)) r = history st r ++ [ORetry r e (RManifest work eow)] ->
  (phase_of st r = Some PhOpen /\ eow = true /\ exists c js, the_queue st r = Some (c, js) /\ work = partition_for c js (en_tag e)) \/
  (phase_of st r = Some PhOver /\ work = [] /\ eow = true /\ the_queue st r = None).
Proof.
  intros HR work eow. unfold step, history.
  assert (Hmp : forall ec m seen hh old, get r (s_runs st) = Some (Done ec m seen MEmpty hh old) -> old = None).
  { assert (H := history_ind r (fun (o : option (run_state T M)) _ => match o with Some (Done _ _ _ MEmpty _ old) => old = None | _ => True end)).
    assert (Hx : match get r (s_runs st) with Some (Done _ _ _ MEmpty _ old) => old = None | _ => True end).
    { apply H; auto. clear. intros st os o' HR IH He.
      destruct He; auto; try (match goal with H : get _ _ = _ |- _ => rewrite H in IH end); try op_cases; auto. }
    intros. rewrite H0 in Hx. auto. }
  unfold phase_of, the_queue.
  destruct (get r (s_runs st)) as [[|[c js] m b active hh|ec m seen [[]|] hh old|]|] eqn:Eg; simpl;
    rewrite filter_app; simpl; unfold about; simpl; rewrite ?Nat.eqb_refl; intros H; apply app_inv_head in H;
    try discriminate; injection H as <- <-.
  - left. repeat split; auto. eauto.
  - right. repeat split; eauto.
Qed.

Lemma retry_has_all st r e work k e' ts w p x : reachable st ->
  history (step st (ERetryManifest r e)) r = history st r ++ [ORetry r e (RManifest work true)] ->
  In (OWork k r e' ts w p) (s_log st) -> en_tag e' = en_tag e -> In x ts -> In x work.
Proof.
  intros HR Hh Hin Ht Hx.
  assert (N : ts <> []) by (intros ->; contradiction).
  destruct (owork_ans _ _ _ _ _ _ _ HR Hin N) as (c & js & j & n & Q & K & R & A).
  destruct (retry_says _ _ _ HR _ _ Hh) as [(_ & _ & c' & js' & Q' & ->)|(_ & _ & _ & Q')]; [|congruence].
  rewrite Q in Q'. injection Q' as <- <-. rewrite Ht in A.
  eapply JobQueueLemmas.partition_lower; eauto.
Qed.

Lemma retry_has_only st r e work k e' ts w p x : reachable st -> NoDup (manifest_of st r) ->
  en_tag e <> TExternalClient ->
  history (step st (ERetryManifest r e)) r = history st r ++ [ORetry r e (RManifest work true)] ->
  In x work -> In (OWork k r e' ts w p) (s_log st) -> In x ts -> en_tag e' = en_tag e.
Proof.
  intros HR HN Hne Hh Hx Hin Hxt.
  assert (N : ts <> []) by (intros ->; contradiction).
  destruct (owork_ans _ _ _ _ _ _ _ HR Hin N) as (c & js & j & n & Q & K & R & A).
  destruct (retry_says _ _ _ HR _ _ Hh) as [(_ & _ & c' & js' & Q' & ->)|(_ & _ & _ & Q')]; [|congruence].
  rewrite Q in Q'. injection Q' as <- <-.
  unfold manifest_of in HN. rewrite Q in HN.
  destruct (JobQueueLemmas.partition_upper _ _ _ _ R Hne Hx) as (k1 & t1 & s1 & e1 & i1 & g1 & Hk1 & Ht1 & Hr1 & Hi1 & Hn1).
  destruct (JobQueueLemmas.answered_done _ _ _ _ _ _ _ A) as (t & s & e0 & Hk & Hw & Hn & Hp & ->).
  apply JobQueueLemmas.in_bundle in Hxt as (i & Hi & Hni).
  assert (Hi1' : nth_error (JobQueueSpec.tests_of c) i1 = Some x).
  { unfold JobQueueSpec.tests_of. rewrite nth_error_map, Hn1. reflexivity. }
  assert (i = i1) by (eapply JobQueueLemmas.NoDup_nth_unique; [exact HN|exact Hni|exact Hi1']). subst i1.
  assert (HI := JobQueueLemmas.reachable_inv _ _ R).
  destruct (Nat.eq_dec k1 j) as [->|Hd]; [congruence|exfalso].
  assert (Hin1 : In k1 (st_log js)).
  { rewrite (JobQueueProofs.inv_log _ _ HI _ _ Hk1). intros Hs. rewrite Hs in Hr1. discriminate. }
  assert (Hinj : In j (st_log js)).
  { rewrite (JobQueueProofs.inv_log _ _ HI _ _ Hk). congruence. }
  assert (Hr : JobQueueProofs.range_of (length (cf_queue c)) (st_threads js) j = Some (s, e0)).
  { unfold JobQueueProofs.range_of. now rewrite Hk, Hp. }
  assert (Hr1' : JobQueueProofs.range_of (length (cf_queue c)) (st_threads js) k1 = Some (s1, e1)).
  { unfold JobQueueProofs.range_of. now rewrite Hk1. }
  destruct (JobQueueProofs.tiles_disjoint _ _ _ _ _ _ _ _ _ _ _ (JobQueueProofs.inv_tiles _ _ HI) (JobQueueProofs.inv_nodup _ _ HI) Hin1 Hinj Hd Hr1' Hr); lia.
Qed.

(* Batch sizes *)
Lemma batch_bound st r pg d k e ts w p : reachable st ->
  In (OAssigned pg (AssignedRun (Fresh true) d)) (history st r) -> fp_strategy pg = ByTest ->
  In (OWork k r e ts w p) (s_log st) ->
  length ts <= Nat.min (fp_batch pg) 100.
Proof.
  intros HR Hg Hs Hin. destruct ts as [|x ts]; [simpl; lia|].
  destruct (owork_ans _ _ _ _ _ _ _ HR Hin) as (c & js & j & n & Q & K & R & A); [discriminate|].
  assert (G := ginv_ok r st HR pg d Hg). 
  assert (HH : cf_strategy c = fp_strategy pg /\ thr_n (c, js) (Nat.min (fp_batch pg) MAX_BATCH_SIZE)).
  { unfold the_queue in Q. destruct (get r (s_runs st)) as [[| |? ? ? ? ? old|]|]; simpl in *; try discriminate.
    - injection Q as ->. simpl in G. tauto.
    - subst. tauto.
    - subst. tauto. }
  destruct HH as [H1 H2]. 
  destruct A as (t & Ht & A). assert (Hn := H2 t (nth_error_In _ _ Ht)). 
  destruct (JobQueueLemmas.bytest_size c js j (en_tag e) n (x :: ts) w R) as [Hle _]; [congruence| |].
  - exists t. tauto.
  - destruct A as (_ & Htn & _). unfold MAX_BATCH_SIZE in Hn. lia.
Qed.

End Lift.
