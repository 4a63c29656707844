(* The attempts at each test, over a whole history of a fetcher. *)
From Verif Require Import Base StatusModel FetchModel FetchSpec FetchProofs.

Record Att (w : world) : Prop := {
  a_down : forall t, In t (handed w) -> 1 < wt_run t ->
    fails_through (w_results w) (id_of t) (wt_run t - 1) = true /\ In (id_of t, wt_run t - 1) (map key (handed w));
  a_up : forall t, In t (handed w) -> wt_run t < attempt w ->
    In (key t) (map rkey (w_results w)) /\ (In (id_of t, wt_run t + 1) (map key (handed w)) \/ fails (w_results w) (id_of t) (wt_run t) = false)
}.

Definition att_end (max : nat) (w : world) : Prop :=
  attempt w = max \/ (length (w_results w) = length (handed w) /\ forall id, In id (map id_of (first_attempts w)) -> fails_through (w_results w) id (attempt w) = false).

Lemma fails_in rs id k : fails rs id k = true -> In (id, k) (map rkey rs).
Proof.
  unfold fails. rewrite existsb_exists. intros (r & I & E). apply andb_true_iff in E as [E _]. apply andb_true_iff in E as [E1 E2].
  apply Nat.eqb_eq in E1, E2. apply in_map_iff. exists r. unfold rkey. rewrite E1, E2. auto.
Qed.

Lemma attempt_app w b : b_work b <> [] -> forall k, Forall (fun t => wt_run t = k) (b_work b) -> forall an, handed an = handed w ++ b_work b -> attempt an = k.
Proof.
  intros N k F an H. unfold attempt. rewrite H, rev_app_distr. destruct (rev (b_work b)) as [|t l] eqn:R.
  - apply (f_equal (@rev wtest)) in R. rewrite rev_involutive in R. now destruct N.
  - simpl. rewrite Forall_forall in F. apply F. apply in_rev. rewrite R. left; auto.
Qed.

Section Attempts.
Variables (ss0 : list (list reply)) (max : nat).
Hypothesis PR : proper ss0.
Hypothesis MX : 1 <= max.

Lemma runs_bounds w H1 H2 O C : Inv ss0 max w H1 H2 O C -> forall t, In t (handed w) -> 1 <= wt_run t <= tr_current (trk w).
Proof.
  intros I t It. pose proof (i_cur _ _ _ _ _ _ _ I) as B. rewrite (i_old _ _ _ _ _ _ _ I) in It. apply in_app_or in It as [It|It].
  - pose proof (i_o _ _ _ _ _ _ _ I) as F. rewrite Forall_forall in F. specialize (F t It). lia.
  - pose proof (i_c _ _ _ _ _ _ _ I) as F. rewrite Forall_forall in F. specialize (F t It). lia.
Qed.

Lemma all_in w : (exists later, map key (handed w) = map rkey (w_results w) ++ later) -> length (w_results w) = length (handed w) ->
  map key (handed w) = map rkey (w_results w).
Proof.
  intros (later & E) L. destruct later as [|x l]; [now rewrite app_nil_r in E|]. exfalso.
  apply (f_equal (@length _)) in E. rewrite app_length, !map_length in E. simpl in E. lia.
Qed.

Lemma att_fetch w H1 H2 O C : Inv ss0 max w H1 H2 O C -> w_ended w = false -> Att w -> Att (fstep w Fetch).
Proof.
  intros I NE A. destruct (fetch_inv _ _ _ _ _ _ _ PR I NE) as (f' & r & E1 & E2 & _). rewrite E1.
  pose proof (runs_bounds _ _ _ _ _ I) as RB.
  assert (SAME : forall v, handed v = handed w -> w_results v = w_results w -> Att v).
  { intros v HV RV. assert (AV : attempt v = attempt w) by (unfold attempt; now rewrite HV).
    constructor; rewrite ?HV, ?RV, ?AV; apply A. }
  destruct E2 as [b Y B1 B2 B3 B4|S1 S2|b R1 R2 R3 R4 R5 R6 R7 R8 R9 R10| | |]; cbn [after]; try (apply SAME; reflexivity).
  - (* tests of a source *)
    set (v := {| w_fetcher := f'; w_answers := w_answers w ++ [b]; w_results := w_results w; w_ended := b_eow b; w_panicked := false |}).
    assert (HV : handed v = handed w ++ b_work b) by (unfold v; now rewrite handed_snoc).
    assert (F : Forall (fun t => wt_run t = 1) (b_work b)).
    { destruct PR as (_ & _ & F). destruct (i_src _ _ _ _ _ _ _ I) as (X & X1 & X2 & _). rewrite X1, X2, B3 in F; auto.
      apply Forall_app in F as [_ F]. apply Forall_app in F as [F _]. eapply Forall_impl; [|exact F]. simpl. tauto. }
    assert (ALL : forall t, In t (handed v) -> wt_run t = 1).
    { intros t It. rewrite HV in It. apply in_app_or in It as [It|It]; [specialize (RB t It); lia|]. rewrite Forall_forall in F. auto. }
    assert (AV : attempt v = 1) by (eapply (attempt_app w b); eauto).
    constructor; intros t It R; specialize (ALL t It); [lia|]. rewrite AV in R. lia.
  - apply SAME; [|reflexivity]. rewrite handed_snoc. cbn [b_work]. apply app_nil_r.
  - (* a retry *)
    set (v := {| w_fetcher := f'; w_answers := w_answers w ++ [b]; w_results := w_results w; w_ended := b_eow b; w_panicked := false |}).
    assert (HV : handed v = handed w ++ b_work b) by (unfold v; now rewrite handed_snoc).
    pose proof (all_in w (i_res _ _ _ _ _ _ _ I) R2) as K. pose proof (i_cur _ _ _ _ _ _ _ I) as B.
    set (cur := tr_current (trk w)) in *.
    assert (AV : attempt v = cur + 1) by (eapply (attempt_app w b); eauto).
    assert (AW : attempt w = cur) by (eapply attempt_eq; eauto).
    assert (NEW : forall id, In id (map id_of H1) -> fails_through (w_results w) id cur = true -> In (id, cur + 1) (map key (handed v))).
    { intros id Iid FT. assert (Q : In id (map id_of (b_work b))) by (rewrite R8; apply filter_In; auto).
      apply in_map_iff in Q as (t & Q1 & Q2). rewrite HV, map_app. apply in_or_app. right. apply in_map_iff. exists t. split; auto.
      unfold key. rewrite Q1. f_equal. rewrite Forall_forall in R7. auto. }
    constructor; cbn [w_results v].
    + intros t It R. rewrite HV in *. apply in_app_or in It as [It|It].
      * destruct (a_down w A t It R) as [D1 D2]. split; auto. rewrite map_app. apply in_or_app. auto.
      * rewrite Forall_forall in R7. rewrite (R7 t It). replace (cur + 1 - 1) with cur by lia.
        assert (Q : In (id_of t) (map id_of (b_work b))) by (now apply in_map). rewrite R8 in Q. apply filter_In in Q as [_ FT].
        split; auto. rewrite map_app. apply in_or_app. left. rewrite K. apply fails_in. apply (proj1 (fails_through_spec _ _ _)) with (j := cur) in FT; auto. lia.
    + intros t It R. rewrite AV in R. rewrite HV in It. apply in_app_or in It as [It|It].
      2:{ rewrite Forall_forall in R7. rewrite (R7 t It) in R. lia. }
      pose proof (RB t It) as RT. destruct (Nat.eq_dec (wt_run t) cur) as [E|NE'].
      * split; [rewrite <- K; now apply in_map|]. destruct (fails_through (w_results w) (id_of t) cur) eqn:FT.
        { left. rewrite E. apply NEW; auto. apply (i_ids _ _ _ _ _ _ _ I). now apply in_map. }
        right. destruct (fails (w_results w) (id_of t) (wt_run t)) eqn:FL; auto. exfalso.
        assert (FT' : fails_through (w_results w) (id_of t) cur = true); [|congruence].
        apply fails_through_spec. intros j J. destruct (Nat.eq_dec j cur) as [->|NJ]; [now rewrite <- E|].
        destruct (a_down w A t It) as [D _]; [lia|]. rewrite E in D. apply (proj1 (fails_through_spec _ _ _)) with (j := j) in D; auto. lia.
      * destruct (a_up w A t It) as [U1 U2]; [rewrite AW; lia|]. split; auto. destruct U2 as [U2|U2]; auto. left. rewrite HV, map_app. apply in_or_app. auto.
Qed.

Lemma att_account w rs H1 H2 O C : Inv ss0 max w H1 H2 O C -> reports_in_order w (Account rs) -> Att w -> Att (fstep w (Account rs)).
Proof.
  intros I (later & E) A. unfold fstep. rewrite (i_panic _ _ _ _ _ _ _ I). destruct (account_results _ _) as [t|].
  - assert (HV : forall f e p, handed {| w_fetcher := f; w_answers := w_answers w; w_results := w_results w ++ rs; w_ended := e; w_panicked := p |} = handed w) by reflexivity.
    pose proof (i_nd _ _ _ _ _ _ _ I) as ND. constructor; cbn [w_results]; unfold attempt; rewrite !HV; intros u Iu R.
    + destruct (a_down w A u Iu R) as [D1 D2]. split; auto. now apply fails_through_mono.
    + destruct (a_up w A u Iu R) as [U1 U2]. split; [rewrite map_app; apply in_or_app; auto|]. destruct U2 as [U2|U2]; auto. right.
      rewrite fails_app, U2. simpl. destruct (fails rs (id_of u) (wt_run u)) eqn:FL; auto. exfalso.
      apply fails_in in FL. rewrite E, map_app, <- app_assoc in ND. apply in_split in U1 as (l1 & l2 & U1). rewrite U1, <- app_assoc in ND. simpl in ND.
      apply NoDup_remove_2 in ND. apply ND. apply in_or_app. right. apply in_or_app. right. apply in_or_app. left. exact FL.
  - constructor; [exact (a_down w A)|exact (a_up w A)].
Qed.

Lemma att_reach es : in_order (start ss0 max) es -> Att (run fstep (start ss0 max) es).
Proof.
  induction es as [|e es IH] using rev_ind; intros IO.
  - constructor; intros t [].
  - apply in_order_snoc in IO as [IO RO]. rewrite run_app. change (run fstep (run fstep (start ss0 max) es) [e]) with (fstep (run fstep (start ss0 max) es) e).
    specialize (IH IO). destruct (reach_inv ss0 max es PR MX IO) as (H1 & H2 & O & C & I). destruct e as [|rs].
    + destruct (w_ended (run fstep (start ss0 max) es)) eqn:NE.
      * rewrite fetch_ended; auto. exact (i_panic _ _ _ _ _ _ _ I).
      * eapply att_fetch; eauto.
    + eapply att_account; eauto.
Qed.

(* once the end of work was given *)
Lemma end_reach es b : in_order (start ss0 max) es -> In b (w_answers (run fstep (start ss0 max) es)) -> b_eow b = true ->
  att_end max (run fstep (start ss0 max) es).
Proof.
  induction es as [|e es IH] using rev_ind; intros IO; [intros []|].
  apply in_order_snoc in IO as [IO RO]. rewrite run_app. change (run fstep (run fstep (start ss0 max) es) [e]) with (fstep (run fstep (start ss0 max) es) e).
  specialize (IH IO). pose proof (hist_end ss0 max PR MX es IO) as HE. pose proof (hist_no_panic ss0 max PR MX es IO) as NP.
  pose proof (hist_not_ended ss0 max PR MX es IO) as HN. destruct (reach_inv ss0 max es PR MX IO) as (H1 & H2 & O & C & I).
  set (w := run fstep (start ss0 max) es) in *. clearbody w. destruct e as [|rs].
  - destruct (w_ended w) eqn:NE; [rewrite fetch_ended; auto|]. intros Ib Eb. specialize (HN eq_refl). rewrite Forall_forall in HN.
    assert (NIN : ~ In b (w_answers w)) by (intros K; rewrite (HN b K) in Eb; discriminate).
    destruct (fetch_inv _ _ _ _ _ _ _ PR I NE) as (f' & r & E1 & E2 & _). rewrite E1 in *.
    destruct r as [b0| | | |]; cbn [after w_answers] in Ib; try tauto. apply in_app_or in Ib as [Ib|[->|[]]]; [tauto|].
    destruct (HE b eq_refl Eb) as (W0 & FA & D). cbn [after].
    set (v := {| w_fetcher := f'; w_answers := w_answers w ++ [b]; w_results := w_results w; w_ended := b_eow b; w_panicked := false |}).
    assert (HV : handed v = handed w) by (unfold v; rewrite handed_snoc, W0; apply app_nil_r).
    unfold att_end, first_attempts, attempt. rewrite HV. cbn [w_results v]. rewrite <- FA in D. exact D.
  - intros Ib Eb. destruct RO as (later & RO). unfold fstep in *. rewrite NP in *. destruct (account_results (trk w) rs) as [t|].
    + cbn [w_answers] in Ib. specialize (IH Ib Eb). destruct IH as [IH|[L IH]]; [left; exact IH|]. right.
      assert (RS : rs = []).
      { destruct rs as [|x rs]; auto. exfalso. apply (f_equal (@length _)) in RO. rewrite app_length, !map_length, app_length in RO. simpl in RO. lia. }
      subst rs. rewrite app_nil_r. exact (conj L IH).
    + exact (IH Ib Eb).
Qed.

Lemma largest (P : nat -> bool) m : P 1 = true -> (forall j, P j = true -> 1 <= j <= m) -> exists k, P k = true /\ forall j, P j = true -> j <= k.
Proof.
  intros P1. induction m as [|m IH]; intros B.
  - specialize (B 1 P1). lia.
  - destruct (P (S m)) eqn:E.
    + exists (S m). split; auto. intros j J. apply B in J. lia.
    + apply IH. intros j J. pose proof (B j J). assert (j <> S m) by congruence. lia.
Qed.

(* Each test of the sources was tried up to some attempt: it failed in all but the last,
   and the last did not fail or was the last one allowed. *)
Lemma outcome es b : in_order (start ss0 max) es -> let w := run fstep (start ss0 max) es in
  In b (w_answers w) -> b_eow b = true -> length (w_results w) = length (handed w) ->
  forall id, In id (map id_of (source_tests ss0)) ->
  exists k, 1 <= k <= max /\ (forall j, In (id, j) (map rkey (w_results w)) <-> 1 <= j <= k) /\
    fails_through (w_results w) id (k - 1) = true /\ (k = max \/ fails (w_results w) id k = false).
Proof.
  intros IO w Ib Eb L id Iid. pose proof (att_reach es IO) as A. pose proof (end_reach es b IO Ib Eb) as E. fold w in A, E.
  pose proof (hist_all_given ss0 max es b PR MX IO Ib Eb) as FA. fold w in FA.
  destruct (reach_inv ss0 max es PR MX IO) as (H1 & H2 & O & C & I). fold w in I.
  pose proof (all_in w (i_res _ _ _ _ _ _ _ I) L) as K. pose proof (runs_bounds _ _ _ _ _ I) as RB. pose proof (i_cur _ _ _ _ _ _ _ I) as B.
  set (P := fun j => existsb (fun x => Nat.eqb (fst x) id && Nat.eqb (snd x) j) (map key (handed w))).
  assert (PS : forall j, P j = true <-> In (id, j) (map key (handed w))).
  { intros j. unfold P. rewrite existsb_exists. split.
    - intros ([a c] & Q & X). apply andb_true_iff in X as [X1 X2]. apply Nat.eqb_eq in X1, X2. simpl in X1, X2. congruence.
    - intros Q. exists (id, j). simpl. rewrite !Nat.eqb_refl. auto. }
  assert (PB : forall j, P j = true -> 1 <= j <= max).
  { intros j J. apply PS in J. apply in_map_iff in J as (t & Q1 & Q2). injection Q1 as _ <-. specialize (RB t Q2). lia. }
  assert (F1 : P 1 = true).
  { apply PS. rewrite <- FA in Iid. apply in_map_iff in Iid as (t & <- & It). unfold first_attempts in It. apply filter_In in It as [It R]. apply Nat.eqb_eq in R.
    apply in_map_iff. exists t. split; auto. unfold key. now rewrite R. }
  destruct (largest P max F1 PB) as (k & Pk & Mk). exists k. pose proof (PB k Pk) as Bk.
  pose proof (proj1 (PS k) Pk) as Q. apply in_map_iff in Q as (t & Q1 & It). injection Q1 as Ti Tr.
  assert (DOWN : forall n j, j + n = k -> 1 <= j -> P j = true).
  { induction n as [|n IH]; intros j J G; [replace j with k by lia; auto|]. specialize (IH (S j) ltac:(lia) ltac:(lia)). apply PS in IH.
    apply in_map_iff in IH as (u & U1 & U2). injection U1 as V1 V2. destruct (a_down w A u U2) as [_ D]; [lia|]. apply PS. rewrite V1, V2 in D. now replace (S j - 1) with j in D by lia. }
  split; auto. split; [|split].
  - intros j. rewrite <- K, <- PS. split; [intros J; split; [apply PB in J; lia|auto]|]. intros J. apply (DOWN (k - j)); lia.
  - destruct (Nat.eq_dec k 1) as [->|]; [reflexivity|]. destruct (a_down w A t It) as [D _]; [lia|]. now rewrite Ti, Tr in D.
  - assert (AT : attempt w = tr_current (trk w)) by (apply (attempt_eq _ _ _ _ _ _ _ I); intros Z; rewrite Z in It; destruct It).
    pose proof (RB t It) as RT. rewrite Tr in RT. destruct (Nat.eq_dec k (attempt w)) as [Ek|NEk].
    + destruct E as [E|[_ E]]; [left; lia|]. right. rewrite <- FA in Iid. specialize (E id Iid). rewrite <- Ek in E.
      destruct (fails (w_results w) id k) eqn:FL; auto. exfalso. assert (FT : fails_through (w_results w) id k = true); [|congruence].
      apply fails_through_spec. intros j J. destruct (Nat.eq_dec j k) as [->|]; auto.
      destruct (a_down w A t It) as [D _]; [lia|]. rewrite Ti, Tr in D. apply (proj1 (fails_through_spec _ _ _)) with (j := j) in D; auto. lia.
    + right. destruct (a_up w A t It) as [_ U]; [lia|]. rewrite Ti, Tr in U. destruct U as [U|U]; auto. exfalso. apply PS in U. apply Mk in U. lia.
Qed.
End Attempts.
