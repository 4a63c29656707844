(* Consequences of the invariant, in the vocabulary of JobQueueSpec. *)
From Verif Require Import Base JobQueueModel JobQueueSpec JobQueueProofs
  ManifestViewModel ManifestViewProofs.

Section L.
Context {T : Type}.
Implicit Types (c : config T) (st : state).

Lemma reachable_inv c st : reachable c st -> Inv c st.
Proof. intros [es ->]. apply inv_run. Qed.

Lemma reachable_step c st ev : reachable c st -> reachable c (step c st ev).
Proof. intros [es ->]. exists (es ++ [ev]). now rewrite run_app. Qed.

Lemma reachable_run c st es : reachable c st -> reachable c (run (step c) st es).
Proof. intros [es0 ->]. exists (es0 ++ es). now rewrite run_app. Qed.

Lemma answered_done c st k who n tests eow :
  answered c st k who n tests eow ->
  exists t s e, nth_error (st_threads st) k = Some t /\ th_tag t = who /\ th_n t = n /\
    th_pc t = PDone s e eow /\ tests = map fst (slice (cf_queue c) s e).
Proof.
  intros (t & Hk & Hw & Hn & Hb & He). exists t.
  unfold eow_of, status_of, bundle in *.
  destruct (th_pc t) as [| | | |s e b|] eqn:Hp; try discriminate.
  exists s, e. repeat split; auto.
  destruct b; [|simpl in He; congruence].
  destruct (map fst (slice (cf_queue c) s e)); simpl in He; congruence.
Qed.

Lemma done_answered c st k t s e b :
  nth_error (st_threads st) k = Some t -> th_pc t = PDone s e b ->
  answered c st k (th_tag t) (th_n t) (map fst (slice (cf_queue c) s e)) b.
Proof.
  intros Hk Hp. exists t. unfold eow_of, status_of, bundle. rewrite Hp. repeat split; auto.
  destruct b; auto. now destruct (map fst (slice (cf_queue c) s e)).
Qed.

Lemma done_range c st k t s e b :
  Inv c st -> nth_error (st_threads st) k = Some t -> th_pc t = PDone s e b ->
  In k (st_log st) /\ range_of (length (cf_queue c)) (st_threads st) k = Some (s, e) /\
  s <= e /\ e <= length (cf_queue c) /\ e <= st_ptr st.
Proof.
  intros HI Hk Hp.
  assert (Hin : In k (st_log st)) by (rewrite (inv_log c st HI k t Hk); congruence).
  destruct (tiles_in _ _ _ _ _ _ (inv_tiles c st HI) Hin) as (s0 & e0 & HR & _ & Hse & Hef & _).
  pose proof HR as HR'. unfold range_of in HR'. rewrite Hk, Hp in HR'. simpl in HR'.
  injection HR' as <- <-. repeat split; auto; lia.
Qed.

(* C01 *)
Lemma ranges_disjoint c st j k sj ej sk ek :
  reachable c st -> j <> k -> answered_range c st j sj ej -> answered_range c st k sk ek ->
  forall i, ~ (sj <= i < ej /\ sk <= i < ek).
Proof.
  intros HR Hne (tj & bj & Hj & Hpj) (tk & bk & Hk & Hpk) i [Hi1 Hi2].
  pose proof (reachable_inv _ _ HR) as HI.
  destruct (done_range _ _ _ _ _ _ _ HI Hj Hpj) as (Ij & Rj & _).
  destruct (done_range _ _ _ _ _ _ _ HI Hk Hpk) as (Ik & Rk & _).
  destruct (tiles_disjoint _ _ _ _ _ _ _ _ _ _ _ (inv_tiles c st HI) (inv_nodup c st HI) Ij Ik Hne Rj Rk); lia.
Qed.

Lemma NoDup_nth_unique {A} (l : list A) i j x :
  NoDup l -> nth_error l i = Some x -> nth_error l j = Some x -> i = j.
Proof.
  intros HN Hi Hj. rewrite NoDup_nth_error in HN. apply HN.
  - apply nth_error_Some. congruence.
  - congruence.
Qed.

Lemma in_bundle c s e x :
  In x (map fst (slice (cf_queue c) s e)) <->
  exists i, s <= i < e /\ nth_error (tests_of c) i = Some x.
Proof. rewrite slice_map. apply in_slice. Qed.

Lemma no_test_twice c st j k wj nj tj ej wk nk tk ek :
  reachable c st -> NoDup (tests_of c) -> j <> k ->
  answered c st j wj nj tj ej -> answered c st k wk nk tk ek ->
  forall x, In x tj -> ~ In x tk.
Proof.
  intros HR HN Hne Hj Hk x Hxj Hxk.
  destruct (answered_done _ _ _ _ _ _ _ Hj) as (t1 & s1 & e1 & H1 & _ & _ & P1 & ->).
  destruct (answered_done _ _ _ _ _ _ _ Hk) as (t2 & s2 & e2 & H2 & _ & _ & P2 & ->).
  apply in_bundle in Hxj as (i1 & Hi1 & Hn1). apply in_bundle in Hxk as (i2 & Hi2 & Hn2).
  assert (i1 = i2) by (eapply NoDup_nth_unique; eauto). subst i2.
  apply (ranges_disjoint c st j k s1 e1 s2 e2 HR Hne) with (i := i1); auto;
    [exists t1, ej; auto|exists t2, ek; auto].
Qed.

Lemma NoDup_firstn {A} n (l : list A) : NoDup l -> NoDup (firstn n l).
Proof.
  revert n; induction l as [|a l IH]; intros [|n] HN; simpl; try constructor.
  - inversion HN as [|? ? Hni HN']; subst. intros Hin. apply Hni.
    rewrite <- (firstn_skipn n l). apply in_or_app; auto.
  - inversion HN; subst; auto.
Qed.

Lemma NoDup_skipn {A} n (l : list A) : NoDup l -> NoDup (skipn n l).
Proof.
  revert n; induction l as [|a l IH]; intros [|n] HN; simpl; auto.
  inversion HN; subst; auto.
Qed.

Lemma NoDup_slice {A} (l : list A) s e : NoDup l -> NoDup (slice l s e).
Proof. intros; unfold slice. now apply NoDup_firstn, NoDup_skipn. Qed.

Lemma response_nodup c st k w n ts e :
  NoDup (tests_of c) -> answered c st k w n ts e -> NoDup ts.
Proof.
  intros HN H. destruct (answered_done _ _ _ _ _ _ _ H) as (t & s1 & e1 & _ & _ & _ & _ & ->).
  rewrite slice_map. now apply NoDup_slice.
Qed.

(* C02 *)
Lemma responses_concat c st :
  reachable c st -> quiescent st ->
  concat (map (response c st) (st_log st)) = firstn (Nat.min (st_ptr st) (length (tests_of c))) (tests_of c).
Proof.
  intros HR HQ. pose proof (reachable_inv _ _ HR) as HI.
  pose proof (inv_tiles c st HI) as HT.
  replace (length (cf_queue c)) with (length (tests_of c)) in HT by apply map_length.
  apply (tiles_concat (tests_of c)) in HT.
  unfold slice in HT at 2. simpl in HT. rewrite Nat.sub_0_r in HT.
  rewrite <- HT. f_equal. apply map_ext_in. intros k Hk.
  unfold response, range_of.
  destruct (nth_error (st_threads st) k) as [t|] eqn:Ht; auto.
  destruct (HQ _ _ Ht) as [Hp|(s & e & b & Hp)].
  - apply (inv_log c st HI k t Ht) in Hk. congruence.
  - unfold bundle. rewrite Hp. simpl. now rewrite slice_map.
Qed.

Lemma responses_exhaust c st :
  reachable c st -> quiescent st -> is_at_end c st = true ->
  concat (map (response c st) (st_log st)) = tests_of c.
Proof.
  intros HR HQ HE. rewrite responses_concat by auto.
  unfold is_at_end in HE. apply Nat.leb_le in HE.
  unfold tests_of in *. rewrite map_length. rewrite Nat.min_r by auto.
  rewrite <- (map_length fst (cf_queue c)). apply firstn_all.
Qed.

(* The log holds each answered request once. *)
Lemma log_complete c st :
  reachable c st -> NoDup (st_log st) /\
  forall k w n ts e, answered c st k w n ts e -> In k (st_log st).
Proof.
  intros HR. pose proof (reachable_inv _ _ HR) as HI. split; [apply (inv_nodup c st HI)|].
  intros k w n ts e H. destruct (answered_done _ _ _ _ _ _ _ H) as (t & s1 & e1 & Hk & _ & _ & Hp & _).
  now apply (done_range _ _ _ _ _ _ _ HI Hk Hp).
Qed.

Lemma log_step c st ev : exists l, st_log (step c st ev) = st_log st ++ l.
Proof.
  destruct ev as [who n|k]; simpl.
  - exists []. rewrite app_nil_r. now destruct (Nat.eqb n 0).
  - destruct (nth_error (st_threads st) k) as [t|]; [|exists []; now rewrite app_nil_r].
    destruct (thread_step c (st_ptr st) (st_owner st) t) as [[p o] q]. simpl.
    destruct (claims_now t); [exists [k]|exists []]; auto. now rewrite app_nil_r.
Qed.

Lemma log_prefix c st es : exists l, st_log (run (step c) st es) = st_log st ++ l.
Proof.
  revert st; induction es as [|ev es IH]; intros st; simpl.
  - exists []. now rewrite app_nil_r.
  - destruct (log_step c st ev) as [l1 H1]. destruct (IH (step c st ev)) as [l2 H2].
    exists (l1 ++ l2). unfold run in *. rewrite H2, H1. now rewrite app_assoc.
Qed.

(* C03 *)
Lemma group_atomic c st k s e i :
  reachable c st -> cf_strategy c = ByTopLevelGroup ->
  answered_range c st k s e -> same_file c i ->
  (s <= i < e <-> s <= S i < e).
Proof.
  intros HR Hst (t & b & Hk & Hp) (g & Hg1 & Hg2).
  pose proof (reachable_inv _ _ HR) as HI.
  destruct (done_range _ _ _ _ _ _ _ HI Hk Hp) as (_ & _ & Hse & Hel & _).
  pose proof (inv_bounds c st HI k t Hk) as HB.
  unfold pc_bounds_ok in HB. rewrite Hp in HB. simpl in HB. unfold bounds_ok in HB. rewrite Hst in HB.
  destruct HB as (Bs & Be & _).
  assert (Hlen : S i < length (cf_queue c)).
  { apply nth_error_Some. destruct (nth_error (cf_queue c) (S i)); [congruence|discriminate]. }
  assert (Hnb : ~ is_boundary (cf_queue c) (S i)).
  { intros [H|[H|H]]; try lia. apply H. unfold grp.
    replace (S i - 1) with i by lia. congruence. }
  destruct (Nat.eq_dec s (S i)) as [->|]; [contradiction|].
  destruct (Nat.eq_dec e (S i)) as [->|]; [contradiction|]. lia.
Qed.

Lemma group_minimal c st k s e i n :
  reachable c st -> cf_strategy c = ByTopLevelGroup ->
  answered_range c st k s e ->
  option_map th_n (nth_error (st_threads st) k) = Some n ->
  s <= i -> S i < e -> ~ same_file c i -> S i - s < n.
Proof.
  intros HR Hst (t & b & Hk & Hp) Hn Hi He Hnsf.
  pose proof (reachable_inv _ _ HR) as HI.
  destruct (done_range _ _ _ _ _ _ _ HI Hk Hp) as (_ & _ & Hse & Hel & _).
  pose proof (inv_bounds c st HI k t Hk) as HB.
  unfold pc_bounds_ok in HB. rewrite Hp in HB. simpl in HB. unfold bounds_ok in HB. rewrite Hst in HB.
  destruct HB as (_ & _ & _ & HB). rewrite Hk in Hn; simpl in Hn; injection Hn as <-.
  apply HB; [lia|]. unfold grp. replace (S i - 1) with i by lia. intros Heq.
  apply Hnsf. unfold same_file.
  destruct (nth_error (cf_queue c) i) as [[x g]|] eqn:Hx.
  - exists g. simpl in *. split; congruence.
  - apply nth_error_None in Hx. lia.
Qed.

Lemma bytest_size c st k who n ts eow :
  reachable c st -> cf_strategy c = ByTest ->
  answered c st k who n ts eow ->
  length ts <= n /\
  (length ts < n -> exists s, answered_range c st k s (length (cf_queue c))).
Proof.
  intros HR Hst Hans.
  destruct (answered_done _ _ _ _ _ _ _ Hans) as (t & s & e & Hk & Hw & Hn & Hp & ->).
  pose proof (reachable_inv _ _ HR) as HI.
  destruct (done_range _ _ _ _ _ _ _ HI Hk Hp) as (_ & _ & Hse & Hel & _).
  pose proof (inv_bounds c st HI k t Hk) as HB.
  unfold pc_bounds_ok in HB. rewrite Hp in HB. simpl in HB. unfold bounds_ok in HB. rewrite Hst in HB.
  rewrite map_length, slice_length by auto. split; [lia|].
  intros Hlt. exists s, t, eow. split; auto. assert (e = length (cf_queue c)) by lia. now subst e.
Qed.

(* C04 *)
Lemma not_eow_nonempty c st k who n ts :
  reachable c st -> answered c st k who n ts false -> ts <> [].
Proof.
  intros HR Hans.
  destruct (answered_done _ _ _ _ _ _ _ Hans) as (t & s & e & Hk & _ & _ & Hp & ->).
  pose proof (reachable_inv _ _ HR) as HI.
  destruct (done_range _ _ _ _ _ _ _ HI Hk Hp) as (_ & _ & Hse & Hel & _).
  destruct (inv_done c st HI _ _ _ _ _ Hk Hp) as [_ H]. destruct (H eq_refl).
  intros Hnil. apply (f_equal (@length T)) in Hnil.
  rewrite map_length, slice_length in Hnil by auto. simpl in Hnil. lia.
Qed.

Lemma eow_all_claimed c st k who n ts :
  reachable c st -> answered c st k who n ts true -> is_at_end c st = true.
Proof.
  intros HR Hans.
  destruct (answered_done _ _ _ _ _ _ _ Hans) as (t & s & e & Hk & _ & _ & Hp & ->).
  pose proof (reachable_inv _ _ HR) as HI.
  destruct (inv_done c st HI _ _ _ _ _ Hk Hp) as [H _].
  apply Nat.leb_le. auto.
Qed.

Lemma last_gets_eow c st k who n ts eow s :
  reachable c st -> answered c st k who n ts eow ->
  answered_range c st k s (length (cf_queue c)) -> eow = true.
Proof.
  intros HR Hans (t & b & Hk & Hp).
  destruct (answered_done _ _ _ _ _ _ _ Hans) as (t' & s' & e' & Hk' & _ & _ & Hp' & ->).
  pose proof (reachable_inv _ _ HR) as HI.
  assert (t' = t) by congruence. subst t'. rewrite Hp in Hp'. injection Hp' as <- <- <-.
  destruct (inv_done c st HI _ _ _ _ _ Hk Hp) as [_ H].
  destruct b; auto. destruct (H eq_refl). lia.
Qed.

Lemma group_size c st k who n ts eow :
  reachable c st -> cf_strategy c = ByTopLevelGroup ->
  answered c st k who n ts eow ->
  length ts < n -> eow = true.
Proof.
  intros HR Hst Hans Hlt.
  destruct (answered_done _ _ _ _ _ _ _ Hans) as (t & s & e & Hk & Hw & Hn & Hp & ->).
  pose proof (reachable_inv _ _ HR) as HI.
  destruct (done_range _ _ _ _ _ _ _ HI Hk Hp) as (_ & _ & Hse & Hel & _).
  pose proof (inv_bounds c st HI k t Hk) as HB.
  unfold pc_bounds_ok in HB. rewrite Hp in HB. simpl in HB. unfold bounds_ok in HB. rewrite Hst in HB.
  destruct HB as (_ & _ & [HB|HB] & _).
  - eapply (last_gets_eow c st k); eauto. exists t, eow. rewrite <- HB. eauto.
  - rewrite map_length, slice_length in Hlt by auto. lia.
Qed.

(* Reading is_at_end = true is stable, and later arrivals get nothing. *)
Lemma ptr_end_stable c st ev :
  Inv c st -> length (cf_queue c) <= st_ptr st -> length (cf_queue c) <= st_ptr (step c st ev).
Proof.
  intros HI HL. destruct ev as [who n|k]; simpl.
  - now destruct (Nat.eqb n 0).
  - destruct (nth_error (st_threads st) k) as [t|] eqn:Hk; auto.
    unfold thread_step. destruct (th_pc t) as [|start|s e i|s e|s e b|] eqn:Hp; simpl; auto.
    + destruct (cf_strategy c) eqn:Hst; simpl; [lia|].
      destruct (group_update (cf_queue c) (th_n t) (st_ptr st)) as [e|] eqn:Hg; simpl; auto.
      apply group_update_spec in Hg; [lia|]. now destruct (inv_threads c st HI k t Hk).
    + destruct (Nat.ltb (length (cf_queue c)) start); simpl; [lia|].
      destruct (Nat.ltb (length (cf_queue c)) (start + th_n t)); simpl; lia.
    + destruct (Nat.ltb i e); simpl; auto.
Qed.

Lemma ptr_end_stable_run c es : forall st,
  Inv c st -> length (cf_queue c) <= st_ptr st -> length (cf_queue c) <= st_ptr (run (step c) st es).
Proof.
  induction es as [|ev es IH]; simpl; intros st HI HL; auto.
  apply IH; [now apply inv_step|now apply ptr_end_stable].
Qed.

(* A request that has not claimed by the time the end is reached gets nothing. *)
Definition late c (k : nat) st : Prop :=
  length (cf_queue c) <= st_ptr st /\
  forall t, nth_error (st_threads st) k = Some t ->
    match rng (length (cf_queue c)) (th_n t) (th_pc t) with
    | Some (s, e) => s = e
    | None => True
    end /\ (forall s e b, th_pc t = PDone s e b -> b = true).

Lemma late_step c k st ev : Inv c st -> late c k st -> late c k (step c st ev).
Proof.
  intros HI [HL Ht]. split; [now apply ptr_end_stable|].
  intros t' Ht'. destruct ev as [who n|j]; simpl in Ht'.
  - destruct (Nat.eqb n 0); auto. simpl in Ht'. rewrite nth_error_snoc in Ht'.
    destruct (Nat.ltb k (length (st_threads st))); auto.
    destruct (Nat.eqb k (length (st_threads st))); [|discriminate].
    injection Ht' as <-. simpl. split; auto. discriminate.
  - destruct (nth_error (st_threads st) j) as [t|] eqn:Hj; auto.
    destruct (thread_step c (st_ptr st) (st_owner st) t) as [[p o] q] eqn:Hts. simpl in Ht'.
    destruct (upd_cases _ _ _ _ _ _ Hj Ht') as [[-> ->]|[Hne Hk]]; auto.
    simpl. destruct (Ht t Hj) as [Hr Hd].
    destruct (inv_threads c st HI j t Hj) as [Hn Hok].
    unfold thread_step in Hts.
    destruct (th_pc t) as [|start|s e i|s e|s e b|] eqn:Hp; simpl in Hr, Hok.
    + destruct (cf_strategy c) eqn:Hst.
      * injection Hts as <- <- <-. simpl. split; [lia|discriminate].
      * destruct (group_update (cf_queue c) (th_n t) (st_ptr st)) as [e|] eqn:Hg.
        { apply group_update_spec in Hg; lia. }
        injection Hts as <- <- <-.
        destruct (inv_group c st HI Hst) as [Hpl _].
        rewrite enter_slice_ok by lia. simpl. split; [lia|discriminate].
    + destruct (Nat.ltb_spec (length (cf_queue c)) start).
      * injection Hts as <- <- <-. rewrite enter_slice_ok by lia. simpl. split; [lia|discriminate].
      * assert (start = length (cf_queue c)) by lia.
        destruct (Nat.ltb_spec (length (cf_queue c)) (start + th_n t)); [|lia].
        injection Hts as <- <- <-. rewrite enter_slice_ok by lia. simpl. split; [lia|discriminate].
    + destruct (Nat.ltb i e); injection Hts as <- <- <-; simpl; split; auto; discriminate.
    + injection Hts as <- <- <-. simpl. split; auto. intros s' e' b' H. injection H as _ _ <-.
      apply Nat.leb_le; auto.
    + injection Hts as <- <- <-. simpl. split; auto.
    + contradiction.
Qed.

Lemma late_run c k es : forall st, Inv c st -> late c k st -> late c k (run (step c) st es).
Proof.
  induction es as [|ev es IH]; simpl; intros st HI HL; auto.
  apply IH; [now apply inv_step|now apply late_step].
Qed.

Lemma after_end_nothing c st es k who n ts eow :
  reachable c st -> is_at_end c st = true ->
  (forall t, nth_error (st_threads st) k = Some t -> th_pc t = PStart) ->
  answered c (run (step c) st es) k who n ts eow -> ts = [] /\ eow = true.
Proof.
  intros HR HE Hnew Hans. pose proof (reachable_inv _ _ HR) as HI.
  apply Nat.leb_le in HE.
  assert (HL : late c k st).
  { split; auto. intros t Ht. rewrite (Hnew t Ht). simpl. split; auto. discriminate. }
  destruct (late_run c k es st HI HL) as [_ H].
  destruct (answered_done _ _ _ _ _ _ _ Hans) as (t & s & e & Hk & _ & _ & Hp & ->).
  destruct (H t Hk) as [Hr Hd]. rewrite Hp in Hr. simpl in Hr. subst e.
  rewrite slice_empty. split; auto. eapply Hd; eauto.
Qed.

(* Number of answers without end-of-work. *)
Lemma tiles_count R len (f : nat -> bool) log : forall pos fin,
  tiles R len pos log fin ->
  (forall k s e, In k log -> f k = true -> R k = Some (s, e) -> s < e) ->
  length (filter f log) <= fin - pos.
Proof.
  induction log as [|k r IH]; simpl; intros pos fin HT Hf; [lia|].
  destruct HT as (s & e & Hk & -> & Hle & Hlen & Hr).
  pose proof (tiles_bounds _ _ _ _ _ Hr) as HB.
  assert (IH' : length (filter f r) <= fin - e).
  { apply IH; auto. intros; eapply Hf; eauto. }
  destruct (f k) eqn:Hfk; simpl; [|lia].
  specialize (Hf k pos e (or_introl eq_refl) Hfk Hk). lia.
Qed.

Lemma length_filter_seq {A} (f : A -> bool) (l : list A) :
  length (filter f l) =
  length (filter (fun i => match nth_error l i with Some x => f x | None => false end) (seq 0 (length l))).
Proof.
  induction l as [|a l IH] using rev_ind; auto.
  rewrite filter_app, app_length, app_length, seq_app, filter_app, app_length. simpl.
  f_equal.
  - rewrite IH. f_equal. apply filter_ext_in. intros i Hi. apply in_seq in Hi.
    rewrite nth_error_snoc. destruct (Nat.ltb_spec i (length l)); [auto|lia].
  - rewrite nth_error_snoc. rewrite Nat.ltb_irrefl, Nat.eqb_refl. now destruct (f a).
Qed.

Lemma few_not_eow c st :
  reachable c st ->
  length (filter (fun t => match eow_of c t with Some false => true | _ => false end) (st_threads st))
  <= length (cf_queue c).
Proof.
  intros HR. pose proof (reachable_inv _ _ HR) as HI.
  rewrite length_filter_seq.
  set (f := fun i => match nth_error (st_threads st) i with
                     | Some t => match eow_of c t with Some false => true | _ => false end
                     | None => false end).
  assert (Hf : forall k, f k = true -> exists t s e, nth_error (st_threads st) k = Some t /\ th_pc t = PDone s e false).
  { intros k Hk. unfold f in Hk. destruct (nth_error (st_threads st) k) as [t|] eqn:Ht; [|discriminate].
    exists t. unfold eow_of, status_of in Hk.
    destruct (th_pc t) as [| | | |s e b|] eqn:Hp; try discriminate.
    exists s, e. split; auto. destruct b; auto.
    destruct (bundle c t); discriminate. }
  transitivity (length (filter f (st_log st))).
  - apply NoDup_incl_length.
    + apply NoDup_filter, seq_NoDup.
    + intros k Hk. apply filter_In in Hk as [_ Hk]. apply filter_In. split; auto.
      destruct (Hf k Hk) as (t & s & e & Ht & Hp).
      now apply (done_range _ _ _ _ _ _ _ HI Ht Hp).
  - pose proof (tiles_count _ _ f _ _ _ (inv_tiles c st HI)) as H.
    assert (length (filter f (st_log st)) <= Nat.min (st_ptr st) (length (cf_queue c)) - 0); [|lia].
    apply H. intros k s e _ Hk HRk. destruct (Hf k Hk) as (t & s' & e' & Ht & Hp).
    unfold range_of in HRk. rewrite Ht, Hp in HRk. simpl in HRk. injection HRk as <- <-.
    destruct (inv_done c st HI _ _ _ _ _ Ht Hp) as [_ H']. apply H'; auto.
Qed.

(* C05 *)
Lemma combine_app {A B} (l1 l2 : list A) (m1 m2 : list B) :
  length l1 = length m1 -> combine (l1 ++ l2) (m1 ++ m2) = combine l1 m1 ++ combine l2 m2.
Proof.
  revert m1; induction l1 as [|a l1 IH]; intros [|b m1] H; simpl in *; try discriminate; auto.
  f_equal. apply IH. lia.
Qed.

Definition select c (who : tag) (owner : list tag) (lo hi : nat) : list T :=
  map (fun p => fst (snd p))
      (filter (fun p => tag_eqb (fst p) who) (combine (slice owner lo hi) (slice (cf_queue c) lo hi))).

Lemma select_app c who owner lo mid hi :
  length owner = length (cf_queue c) -> lo <= mid -> mid <= hi -> hi <= length (cf_queue c) ->
  select c who owner lo hi = select c who owner lo mid ++ select c who owner mid hi.
Proof.
  intros Hlen H1 H2 H3. unfold select.
  rewrite <- (slice_app owner lo mid hi), <- (slice_app (cf_queue c) lo mid hi) by auto.
  rewrite combine_app, filter_app, map_app; auto.
  rewrite !slice_length; lia.
Qed.

Lemma filter_combine_all {A} who (l : list tag) (m : list (A * group)) :
  length l = length m -> (forall x, In x l -> x = who) ->
  map (fun p => fst (snd p)) (filter (fun p => tag_eqb (fst p) who) (combine l m)) = map fst m.
Proof.
  revert m; induction l as [|a l IH]; intros [|b m] Hlen Hall; simpl in *; try discriminate; auto.
  rewrite (Hall a) by auto. rewrite tag_eqb_refl. simpl. f_equal. apply IH; auto.
Qed.

Lemma filter_combine_none {A} who (l : list tag) (m : list (A * group)) :
  (forall x, In x l -> x <> who) ->
  map (fun p => fst (snd p)) (filter (fun p => tag_eqb (fst p) who) (combine l m)) = [].
Proof.
  revert m; induction l as [|a l IH]; intros [|b m] Hall; simpl in *; auto.
  destruct (tag_eqb_spec a who) as [->|]; [exfalso; eapply Hall; eauto|]. apply IH; auto.
Qed.

Lemma select_tiles c who owner R (tg : nat -> option tag) log : forall pos fin,
  length owner = length (cf_queue c) ->
  tiles R (length (cf_queue c)) pos log fin -> fin <= length (cf_queue c) ->
  (forall k s e i, In k log -> R k = Some (s, e) -> s <= i < e -> nth_error owner i = tg k) ->
  (forall k, In k log -> tg k <> None) ->
  select c who owner pos fin =
  concat (map (fun k => match R k with
                        | Some (s, e) =>
                            match tg k with
                            | Some w => if tag_eqb w who then map fst (slice (cf_queue c) s e) else []
                            | None => []
                            end
                        | None => [] end) log).
Proof.
  induction log as [|k r IH]; simpl; intros pos fin Hlen HT Hfin Hown Htg.
  - subst. unfold select. now rewrite slice_empty.
  - destruct HT as (s & e & Hk & -> & Hle & Hel & Hr).
    pose proof (tiles_bounds _ _ _ _ _ Hr) as HB.
    rewrite (select_app c who owner pos e fin) by auto.
    rewrite (IH e fin); auto; [|intros; eapply Hown; eauto].
    f_equal. rewrite Hk.
    destruct (tg k) as [w|] eqn:Hw; [|exfalso; apply (Htg k); auto].
    assert (Hall : forall x, In x (slice owner pos e) -> x = w).
    { intros x Hx. apply in_slice in Hx as (i & Hi & Hx).
      rewrite (Hown k pos e i) in Hx; auto. congruence. }
    unfold select. destruct (tag_eqb_spec w who) as [->|Hne].
    + apply filter_combine_all; auto. rewrite !slice_length; lia.
    + apply filter_combine_none. intros x Hx. rewrite (Hall x Hx). auto.
Qed.

Lemma owner_of_done c st k t s e b i :
  Inv c st -> nth_error (st_threads st) k = Some t ->
  (th_pc t = PDone s e b \/ th_pc t = PTook s e) -> s <= i < e ->
  nth_error (st_owner st) i = Some (th_tag t).
Proof.
  intros HI Hk Hp Hi.
  assert (Hin : In k (st_log st)) by (rewrite (inv_log c st HI k t Hk); destruct Hp; congruence).
  destruct (tiles_in _ _ _ _ _ _ (inv_tiles c st HI) Hin) as (s0 & e0 & HR & _ & Hse & _ & Hel).
  pose proof HR as HR'. unfold range_of in HR'. rewrite Hk in HR'.
  assert (Hr : rng (length (cf_queue c)) (th_n t) (th_pc t) = Some (s, e)) by (destruct Hp as [->| ->]; reflexivity).
  rewrite Hr in HR'. injection HR' as <- <-.
  assert (Hw : written (th_pc t) i) by (destruct Hp as [->| ->]; simpl; lia).
  destruct (inv_owner c st HI i ltac:(lia)) as [(j & u & Hj & Hwj & Ho)|[Hnone _]].
  - destruct (Nat.eq_dec j k) as [->|Hne]; [congruence|]. exfalso.
    destruct (written_in_range c u i (inv_threads c st HI j u Hj) Hwj) as (sj & ej & Hrj & Hij).
    assert (Hinj : In j (st_log st)).
    { rewrite (inv_log c st HI j u Hj). intros E. rewrite E in Hwj. exact Hwj. }
    assert (HRj : range_of (length (cf_queue c)) (st_threads st) j = Some (sj, ej))
      by (unfold range_of; now rewrite Hj).
    destruct (tiles_disjoint _ _ _ _ _ _ _ _ _ _ _ (inv_tiles c st HI) (inv_nodup c st HI) Hinj Hin Hne HRj HR); lia.
  - exfalso. eapply Hnone; eauto.
Qed.

Lemma partition_exact c st who :
  reachable c st -> quiescent st -> who <> TExternalClient ->
  partition_for c st who =
  concat (map (response c st)
     (filter (fun k => match requester st k with Some w => tag_eqb w who | None => false end) (st_log st))).
Proof.
  intros HR HQ Hwho. pose proof (reachable_inv _ _ HR) as HI.
  set (len := length (cf_queue c)).
  set (fin := Nat.min (st_ptr st) len).
  assert (Hol : length (st_owner st) = len) by apply (inv_owner_len c st HI).
  transitivity (select c who (st_owner st) 0 len).
  { unfold partition_for, select.
    replace (slice (st_owner st) 0 len) with (st_owner st)
      by (rewrite <- Hol; now rewrite slice_full).
    unfold len. now rewrite slice_full. }
  rewrite (select_app c who (st_owner st) 0 fin len); auto; try (unfold fin; lia).
  replace (select c who (st_owner st) fin len) with (@nil T).
  2:{ symmetry. unfold select. apply filter_combine_none. intros x Hx.
      apply in_slice in Hx as (i & Hi & Hx).
      destruct (inv_owner c st HI i) as [(j & u & Hj & Hwj & Ho)|[_ Ho]]; [fold len; lia| |congruence].
      exfalso.
      destruct (written_in_range c u i (inv_threads c st HI j u Hj) Hwj) as (sj & ej & Hrj & Hij).
      assert (Hinj : In j (st_log st)).
      { rewrite (inv_log c st HI j u Hj). intros E. rewrite E in Hwj. exact Hwj. }
      destruct (tiles_in _ _ _ _ _ _ (inv_tiles c st HI) Hinj) as (s0 & e0 & HRj & _ & _ & Hef & _).
      unfold range_of in HRj. rewrite Hj, Hrj in HRj. injection HRj as <- <-. fold len fin in Hef. lia. }
  rewrite app_nil_r.
  rewrite (select_tiles c who (st_owner st) (range_of len (st_threads st)) (requester st) (st_log st) 0 fin);
    auto; try (unfold fin, len; lia).
  - assert (Hlog : forall k, In k (st_log st) -> exists t s e b, nth_error (st_threads st) k = Some t /\ th_pc t = PDone s e b).
    { intros k Hk. pose proof (inv_log_len c st HI k Hk) as Hlt.
      apply nth_error_Some in Hlt. destruct (nth_error (st_threads st) k) as [t|] eqn:Ht; [|congruence].
      destruct (HQ k t Ht) as [Hp|(s & e & b & Hp)].
      - apply (inv_log c st HI k t Ht) in Hk. congruence.
      - exists t, s, e, b. auto. }
    revert Hlog. generalize (st_log st). intros log. induction log as [|k r IH]; intros Hlog; auto.
    simpl. rewrite IH by (intros; apply Hlog; simpl; auto).
    destruct (Hlog k) as (t & s & e & b & Ht & Hp); [simpl; auto|].
    unfold requester, range_of. rewrite Ht, Hp. simpl.
    destruct (tag_eqb (th_tag t) who); auto. simpl.
    unfold response at 2. rewrite Ht. unfold bundle. now rewrite Hp.
  - apply (inv_tiles c st HI).
  - intros k s e i Hk Hr Hi. unfold range_of in Hr.
    destruct (nth_error (st_threads st) k) as [t|] eqn:Ht; [|discriminate].
    destruct (HQ k t Ht) as [Hp|(s' & e' & b & Hp)]; rewrite Hp in Hr; simpl in Hr; [discriminate|].
    injection Hr as <- <-. unfold requester. rewrite Ht. simpl.
    eapply owner_of_done; eauto.
  - intros k Hk Hnone. unfold requester in Hnone.
    pose proof (inv_log_len c st HI k Hk) as Hlt. apply nth_error_Some in Hlt.
    destruct (nth_error (st_threads st) k); [discriminate|congruence].
Qed.

Lemma in_partition c st who x :
  In x (partition_for c st who) <->
  exists i g, nth_error (st_owner st) i = Some who /\ nth_error (cf_queue c) i = Some (x, g).
Proof.
  unfold partition_for. rewrite in_map_iff. split.
  - intros ((w & y) & Hy & Hin). apply filter_In in Hin as [Hin Hw]. simpl in *.
    apply tag_eqb_true in Hw. subst w. apply In_nth_error in Hin as [i Hi].
    destruct y as [y g]. simpl in Hy. subst y. exists i, g.
    revert Hi. generalize (st_owner st) (cf_queue c). clear.
    induction i as [|i IH]; intros [|a l] [|b m]; simpl; intros H; try discriminate.
    + injection H as -> ->. auto.
    + auto.
  - intros (i & g & Ho & Hq). exists (who, (x, g)). split; auto.
    apply filter_In. simpl. rewrite tag_eqb_refl. split; auto.
    apply nth_error_In with (n := i).
    revert Ho Hq. generalize (st_owner st) (cf_queue c). clear.
    induction i as [|i IH]; intros [|a l] [|b m]; simpl; intros Ho Hq; try discriminate.
    + congruence.
    + auto.
Qed.

(* Even while requests are in flight. *)
Lemma partition_upper c st who x :
  reachable c st -> who <> TExternalClient -> In x (partition_for c st who) ->
  exists k t s e i g, nth_error (st_threads st) k = Some t /\ th_tag t = who /\
     rng (length (cf_queue c)) (th_n t) (th_pc t) = Some (s, e) /\ s <= i < e /\
     nth_error (cf_queue c) i = Some (x, g).
Proof.
  intros HR Hwho Hin. pose proof (reachable_inv _ _ HR) as HI.
  apply in_partition in Hin as (i & g & Ho & Hq).
  assert (Hi : i < length (cf_queue c)) by (apply nth_error_Some; congruence).
  destruct (inv_owner c st HI i Hi) as [(j & u & Hj & Hwj & Ho')|[_ Ho']]; [|congruence].
  destruct (written_in_range c u i (inv_threads c st HI j u Hj) Hwj) as (sj & ej & Hrj & Hij).
  exists j, u, sj, ej, i, g. repeat split; auto; try lia. congruence.
Qed.

Lemma partition_lower c st k who n ts eow x :
  reachable c st -> answered c st k who n ts eow -> In x ts -> In x (partition_for c st who).
Proof.
  intros HR Hans Hin. pose proof (reachable_inv _ _ HR) as HI.
  destruct (answered_done _ _ _ _ _ _ _ Hans) as (t & s & e & Hk & Hw & _ & Hp & ->).
  apply in_map_iff in Hin as ([y g] & Hy & Hin). simpl in Hy. subst y.
  apply in_slice in Hin as (i & Hi & Hq).
  apply in_partition. exists i, g. split; auto. rewrite <- Hw.
  eapply owner_of_done; eauto.
Qed.

(* Pointer bound. *)
Lemma ptr_bound c st B :
  reachable c st -> (forall t, In t (st_threads st) -> th_n t <= B) ->
  st_ptr st <= length (cf_queue c) + B * in_flight st.
Proof.
  intros HR HB. pose proof (inv_ptr c st (reachable_inv _ _ HR)) as HP.
  assert (sum_pending (length (cf_queue c)) (st_threads st) <= B * in_flight st); [|lia].
  unfold sum_pending, in_flight. revert HB. generalize (st_threads st). clear.
  induction l as [|t l IH]; intros HB; simpl; [lia|].
  assert (IH' := IH (fun t Ht => HB t (or_intror Ht))).
  pose proof (HB t (or_introl eq_refl)). unfold pending_n at 1.
  destruct (th_pc t); simpl; lia.
Qed.

(* Wait-freedom. *)
Definition togo (len : nat) (p : pc) : nat :=
  match p with
  | PStart => len + 4
  | PFetched _ => len + 3
  | PWriting s e i => (e - i) + 2
  | PTook _ _ => 1
  | PDone _ _ _ => 0
  | PPanicked => 0
  end.

Lemma togo_step c st k t :
  Inv c st -> nth_error (st_threads st) k = Some t ->
  exists t', nth_error (st_threads (step c st (Step k))) k = Some t' /\
             togo (length (cf_queue c)) (th_pc t') <= togo (length (cf_queue c)) (th_pc t) - 1.
Proof.
  intros HI Hk. pose proof (inv_step c st (Step k) HI) as HI'.
  simpl in *. rewrite Hk in *.
  destruct (thread_step c (st_ptr st) (st_owner st) t) as [[p o] q] eqn:Hts. simpl.
  rewrite (upd_same _ _ _ _ Hk). eexists; split; [reflexivity|]. simpl.
  pose proof (inv_threads c _ HI' k _ (upd_same _ _ _ _ Hk)) as [_ Hok']. simpl in Hok'.
  unfold thread_step in Hts.
  destruct (inv_threads c st HI k t Hk) as [Hn Hok].
  assert (Hent : forall a b, enter_slice (length (cf_queue c)) a b <> PPanicked ->
            togo (length (cf_queue c)) (enter_slice (length (cf_queue c)) a b) <= length (cf_queue c) + 2).
  { intros a b. unfold enter_slice. destruct (Nat.leb_spec a b), (Nat.leb_spec b (length (cf_queue c))); simpl; intros; try congruence; lia. }
  assert (Hq : q <> PPanicked) by (intros ->; exact Hok').
  destruct (th_pc t) as [|start|s e i|s e|s e b|] eqn:Hp; simpl.
  - destruct (cf_strategy c).
    + injection Hts as <- <- <-. simpl. lia.
    + destruct (group_update (cf_queue c) (th_n t) (st_ptr st)); injection Hts as <- <- <-;
        specialize (Hent _ _ Hq); lia.
  - destruct (Nat.ltb (length (cf_queue c)) start);
      [|destruct (Nat.ltb (length (cf_queue c)) (start + th_n t))];
      injection Hts as <- <- <-; specialize (Hent _ _ Hq); lia.
  - destruct (Nat.ltb_spec i e); injection Hts as <- <- <-; simpl; lia.
  - injection Hts as <- <- <-. simpl. lia.
  - injection Hts as <- <- <-. simpl. lia.
  - contradiction.
Qed.

Lemma togo_other c st k t ev :
  ev <> Step k -> nth_error (st_threads st) k = Some t ->
  nth_error (st_threads (step c st ev)) k = Some t.
Proof.
  intros Hne Hk. destruct ev as [who n|j]; simpl.
  - destruct (Nat.eqb n 0); auto. simpl. rewrite nth_error_app1; auto.
    apply nth_error_Some; congruence.
  - destruct (nth_error (st_threads st) j) as [u|] eqn:Hj; auto.
    destruct (thread_step c (st_ptr st) (st_owner st) u) as [[p o] q]. simpl.
    rewrite nth_error_upd_neq; auto.
Qed.

Lemma togo_run c es k : forall st t,
  Inv c st -> nth_error (st_threads st) k = Some t ->
  exists t', nth_error (st_threads (run (step c) st es)) k = Some t' /\
             togo (length (cf_queue c)) (th_pc t') <= togo (length (cf_queue c)) (th_pc t) - scheduled k es.
Proof.
  induction es as [|ev es IH]; intros st t HI Hk.
  - exists t. split; [exact Hk|]. unfold scheduled; simpl; lia.
  - change (run (step c) st (ev :: es)) with (run (step c) (step c st ev) es).
    pose proof (inv_step c st ev HI) as HI'.
    assert (Hcase : (ev = Step k /\ scheduled k (ev :: es) = S (scheduled k es)) \/
                    (ev <> Step k /\ scheduled k (ev :: es) = scheduled k es)).
    { unfold scheduled. simpl. destruct ev as [who n|j].
      - right. split; [discriminate|reflexivity].
      - destruct (Nat.eqb_spec j k) as [->|Hne]; [left; auto|right; split; [congruence|reflexivity]]. }
    destruct Hcase as [[-> Hs]|[Hne Hs]]; rewrite Hs.
    + destruct (togo_step c st k t HI Hk) as (t1 & Ht1 & Hle).
      destruct (IH _ t1 HI' Ht1) as (t2 & Ht2 & Hle2). exists t2. split; auto. lia.
    + destruct (IH _ t HI' (togo_other c st k t ev Hne Hk)) as (t2 & Ht2 & Hle2).
      exists t2. split; auto.
Qed.

Lemma wait_free c st es k :
  reachable c st -> k < length (st_threads st) ->
  length (cf_queue c) + 4 <= scheduled k es ->
  exists who n ts eow, answered c (run (step c) st es) k who n ts eow.
Proof.
  intros HR Hlt Hs. pose proof (reachable_inv _ _ HR) as HI.
  apply nth_error_Some in Hlt. destruct (nth_error (st_threads st) k) as [t|] eqn:Hk; [|congruence].
  destruct (togo_run c es k st t HI Hk) as (t' & Ht' & Hle).
  pose proof (reachable_inv _ _ (reachable_run _ _ es HR)) as HI'.
  assert (Hub : togo (length (cf_queue c)) (th_pc t) <= length (cf_queue c) + 4).
  { destruct (th_pc t) as [|start|s e i|s e|s e b|] eqn:Hp; simpl; try lia.
    assert (Hin : In k (st_log st)) by (rewrite (inv_log c st HI k t Hk); congruence).
    destruct (tiles_in _ _ _ _ _ _ (inv_tiles c st HI) Hin) as (s0 & e0 & HRr & _ & _ & _ & Hel).
    unfold range_of in HRr. rewrite Hk, Hp in HRr. simpl in HRr. injection HRr as <- <-. lia. }
  destruct (inv_threads c _ HI' k t' Ht') as [_ Hok].
  destruct (th_pc t') as [|start|s e i|s e|s e b|] eqn:Hp; simpl in Hle; try lia; try contradiction.
  exists (th_tag t'), (th_n t'), (map fst (slice (cf_queue c) s e)), b.
  eapply done_answered; eauto.
Qed.

Lemma never_panics c st k t :
  reachable c st -> nth_error (st_threads st) k = Some t -> th_pc t <> PPanicked.
Proof.
  intros HR Hk Hp. destruct (inv_threads c st (reachable_inv _ _ HR) k t Hk) as [_ H].
  now rewrite Hp in H.
Qed.

End L.

(* C06: the persisted view gives the same partitions as the live queue. *)
Lemma live_equals_view {T} (c : config T) st who :
  reachable c st ->
  view_partition {| v_items := fst (manifest_view c st); v_entities := snd (manifest_view c st) |} who
  = Some (partition_for c st who).
Proof.
  intros HR. pose proof (inv_owner_len c st (reachable_inv _ _ HR)) as Hol.
  rewrite view_partition_filter.
  - f_equal. simpl. unfold owned_by, partition_for.
    generalize (st_owner st) (cf_queue c). clear.
    induction l as [|a l IH]; intros [|[x g] m]; simpl; auto.
    destruct (tag_eqb a who); simpl; now rewrite IH.
  - simpl. rewrite map_length. congruence.
Qed.

