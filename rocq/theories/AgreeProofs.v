From Verif Require Import Base JobQueueModel JobQueueSpec JobQueueLemmas StatusModel FetchModel FetchSpec FetchProofs.
From Verif Require Import RunnerModel RunnerSpec RunnerProofs RunnerLive SystemModel SystemSpec RunnerFeed SystemProofs SystemEnd.
From Verif Require Import ReportModel ReportSpec ReportProofs OutcomeModel OutcomeSpec OutcomeProofs AgreeSpec.
From Coq Require Import Sorting.Sorted.

(* ---- a fetcher hands out attempts in order ---- *)

Lemma ss_app {A} (R : A -> A -> Prop) l1 l2 : StronglySorted R l1 -> StronglySorted R l2 -> (forall a b, In a l1 -> In b l2 -> R a b) -> StronglySorted R (l1 ++ l2).
Proof.
  induction 1 as [|a l S1 IH F]; intros S2 H; auto. cbn [app]. constructor.
  - apply IH; auto. intros; apply H; auto. now right.
  - apply Forall_app. split; auto. apply Forall_forall. intros b B. apply H; auto. now left.
Qed.
Lemma ss_const {A} (f : A -> nat) v l : Forall (fun a => f a = v) l -> StronglySorted (fun a b => f a <= f b) l.
Proof. induction 1 as [|a l E F IH]; constructor; auto. apply Forall_forall. intros b B. rewrite Forall_forall in F. rewrite E, (F b B). lia. Qed.
Lemma ss_map {A B} (g : A -> B) (R : B -> B -> Prop) l : StronglySorted (fun a b => R (g a) (g b)) l <-> StronglySorted R (map g l).
Proof.
  split.
  - induction 1 as [|a l S1 IH F]; cbn [map]; constructor; auto. apply Forall_forall. intros b B'. apply in_map_iff in B' as (x & <- & X). rewrite Forall_forall in F. auto.
  - remember (map g l) as m eqn:E. intros S1. revert l E. induction S1 as [|b m S1 IH F]; intros [|a l] E; try discriminate; constructor.
    + apply IH. now injection E.
    + injection E as -> ->. apply Forall_forall. intros x X. rewrite Forall_forall in F. apply F. now apply in_map.
Qed.
Lemma ss_filter {A} (R : A -> A -> Prop) p l : StronglySorted R l -> StronglySorted R (filter p l).
Proof.
  induction 1 as [|a l S1 IH F]; cbn [filter]; [constructor|]. destruct (p a); auto. constructor; auto.
  apply Forall_forall. intros b B. apply filter_In in B as [B _]. rewrite Forall_forall in F. auto.
Qed.
Lemma ss_perm_eq {A} (f : A -> nat) l1 : forall l2, StronglySorted (fun a b => f a < f b) l1 -> StronglySorted (fun a b => f a < f b) l2 -> Permutation l1 l2 -> l1 = l2.
Proof.
  induction l1 as [|a l1 IH]; intros [|b l2] S1 S2 P; auto.
  - now apply Permutation_nil in P.
  - symmetry in P. now apply Permutation_nil in P.
  - inversion S1 as [|? ? S1' F1]; inversion S2 as [|? ? S2' F2]; subst. rewrite Forall_forall in F1, F2.
    assert (a = b).
    { assert (A1 : In a (b :: l2)) by (apply (Permutation_in _ P); now left). assert (B1 : In b (a :: l1)) by (apply (Permutation_in _ (Permutation_sym P)); now left).
      destruct A1 as [->|A1]; auto. destruct B1 as [->|B1]; auto. specialize (F1 _ B1). specialize (F2 _ A1). lia. }
    subst b. f_equal. apply IH; auto. now apply Permutation_cons_inv in P.
Qed.
Lemma ss_strict {A} (f : A -> nat) l : StronglySorted (fun a b => f a <= f b) l -> NoDup (map f l) -> StronglySorted (fun a b => f a < f b) l.
Proof.
  induction 1 as [|a l S1 IH F]; intros N; cbn [map] in N; constructor; inversion N as [|? ? N1 N2]; subst; auto.
  apply Forall_forall. intros b B. rewrite Forall_forall in F. specialize (F b B).
  assert (f a <> f b) by (intros E; apply N1; rewrite E; now apply in_map). lia.
Qed.

Lemma step_answers w e : handed (fstep w e) = handed w \/ e = Fetch /\ exists b, w_answers (fstep w Fetch) = w_answers w ++ [b].
Proof.
  destruct e as [|rs].
  - destruct (w_panicked w) eqn:P; [left; unfold fstep; now rewrite P|]. destruct (w_ended w) eqn:E; [left; unfold fstep; now rewrite P, E|].
    destruct (fetch_next_tests (w_fetcher w)) as [f [b| | | |]] eqn:F; try (left; unfold fstep; rewrite P, E, F; reflexivity).
    right. split; auto. exists b. unfold fstep. rewrite P, E, F. reflexivity.
  - left. unfold fstep. destruct (w_panicked w); auto. destruct (account_results _ rs); auto.
Qed.

Lemma handed_le ss max es : proper ss -> 1 <= max -> in_order (start ss max) es ->
  let w := run fstep (start ss max) es in Forall (fun t => wt_run t <= attempt w) (handed w) /\ StronglySorted (fun a b => wt_run a <= wt_run b) (handed w).
Proof.
  intros PR M. induction es as [|e es IH] using rev_ind; intros IO; [split; constructor|].
  pose proof IO as IO'. apply in_order_snoc in IO as [IO RO]. destruct (IH IO) as [B S]. clear IH. cbv zeta in *.
  assert (EQ : run fstep (start ss max) (es ++ [e]) = fstep (run fstep (start ss max) es) e) by (rewrite run_app; reflexivity).
  assert (D : handed (run fstep (start ss max) (es ++ [e])) = handed (run fstep (start ss max) es) \/
              e = Fetch /\ exists b, w_answers (fstep (run fstep (start ss max) es) Fetch) = w_answers (run fstep (start ss max) es) ++ [b]).
  { rewrite EQ. apply step_answers. }
  destruct D as [D|(-> & b & D)].
  - unfold attempt. rewrite D. fold (attempt (run fstep (start ss max) es)). split; auto.
  - pose proof (hist_order ss max PR M (es ++ [Fetch]) IO') as (rest & retries & _ & H & L & _).
    assert (HD : handed (run fstep (start ss max) (es ++ [Fetch])) = handed (run fstep (start ss max) es) ++ b_work b).
    { rewrite EQ. unfold handed at 1. rewrite D, flat_map_app. cbn [flat_map]. now rewrite app_nil_r. }
    set (w := run fstep (start ss max) es) in *. set (w' := run fstep (start ss max) (es ++ [Fetch])) in *.
    destruct (b_work b) as [|t0 ts] eqn:BW.
    { rewrite app_nil_r in HD. unfold attempt. rewrite HD. fold (attempt w). split; auto. }
    assert (LAST : exists pre u, t0 :: ts = pre ++ [u]) by (destruct (exists_last (l := t0 :: ts)) as (pre & u & E); [discriminate|eauto]).
    destruct LAST as (pre & u & LAST).
    assert (AT : attempt w' = wt_run u) by (unfold attempt; rewrite HD, LAST, app_assoc, rev_app_distr; reflexivity).
    destruct (Nat.eq_dec (wt_run u) 1) as [U1|U1].
    + (* the last one is a first attempt: all are *)
      assert (RN : retries = []).
      { destruct retries as [|r rs]; auto. exfalso. destruct (exists_last (l := r :: rs)) as (q & v & EV); [discriminate|]. rewrite EV in H, L.
        rewrite HD, LAST, !app_assoc in H. apply app_inj_tail in H as [_ ->]. apply Forall_app in L as [_ L]. inversion L; lia. }
      subst retries. rewrite app_nil_r in H.
      assert (ALL : Forall (fun t => wt_run t = 1) (handed w')).
      { rewrite H. apply Forall_forall. intros t T. unfold FetchSpec.first_attempts in T. apply filter_In in T as [_ T]. now apply Nat.eqb_eq. }
      rewrite AT, U1. split; [eapply Forall_impl; [|exact ALL]; intros t ->; lia|]. now apply (ss_const wt_run 1).
    + assert (UI : In u (b_work b)) by (rewrite BW, LAST; apply in_or_app; right; now left).
      destruct (hist_retry ss max PR M es IO b u D UI U1) as (_ & _ & _ & F & _). fold w in F. rewrite BW in F.
      assert (EU : wt_run u = attempt w + 1) by (rewrite Forall_forall in F; apply F; rewrite <- BW; exact UI).
      rewrite AT, EU, HD. split.
      * apply Forall_app. split; [eapply Forall_impl; [|exact B]; cbn; intros; lia|]. eapply Forall_impl; [|exact F]. cbn; intros; lia.
      * apply ss_app; auto; [now apply (ss_const wt_run (attempt w + 1))|]. intros x z X Z. rewrite Forall_forall in B, F. rewrite (F z Z). specialize (B x X). lia.
Qed.

Section Run.
Variables (c : config nat) (ps : list params) (y : system).
Hypothesis SO : sound c ps.
Hypothesis I : SInv c ps y.

Lemma slot_sorted sl : In sl (y_slots y) -> finished (sl_runner sl) -> StronglySorted (fun a b => ar_run a <= ar_run b) (reported_by sl).
Proof.
  intros S F. destruct (slot_of c ps y sl I S) as [IP SI]. destruct (slot_rinv c ps y sl SO (y_reach _ _ _ I) IP SI) as (PR & M & B & R).
  pose proof (finished_all _ _ _ _ R F) as K. destruct (v_hist _ _ _ _ R) as (es & IO & W).
  destruct (handed_le _ _ es PR M IO) as [_ H]. rewrite <- W in H. fold (reported_by sl) in K.
  assert (H' : StronglySorted (fun a b : nat * nat => snd a <= snd b) (map FetchSpec.key (handed (r_world (sl_runner sl))))) by (apply (ss_map FetchSpec.key (fun a b : nat * nat => snd a <= snd b)); exact H).
  rewrite <- K in H'. apply (ss_map rkey (fun a b : nat * nat => snd a <= snd b)) in H'. exact H'.
Qed.

(* ---- the reports about one test ---- *)

Definition sel (w : nat) (rs : list aresult) : list aresult := filter (fun r => Nat.eqb (ar_work r) w) rs.
Lemma sel_in w rs r : In r (sel w rs) <-> In r rs /\ ar_work r = w.
Proof. unfold sel. rewrite filter_In. now rewrite Nat.eqb_eq. Qed.
Lemma sel_nil w rs : (forall r, In r rs -> ar_work r <> w) -> sel w rs = [].
Proof.
  intros H. unfold sel. induction rs as [|r rs IH]; auto. cbn [filter]. destruct (Nat.eqb_spec (ar_work r) w) as [E|E]; [exfalso; apply (H r); auto; now left|].
  apply IH. intros r' R. apply H. now right.
Qed.
Lemma sel_app w a b : sel w (a ++ b) = sel w a ++ sel w b.
Proof. apply filter_app. Qed.
Lemma filter_perm {A} (p : A -> bool) l1 l2 : Permutation l1 l2 -> Permutation (filter p l1) (filter p l2).
Proof.
  induction 1 as [|a l1 l2 P IH|a b l|l1 l2 l3 P1 IH1 P2 IH2]; cbn [filter]; auto.
  - destruct (p a); auto.
  - destruct (p a), (p b); auto. apply perm_swap.
  - now transitivity (filter p l2).
Qed.

Hypothesis FI : all_finished y.
Variables (n : nat) (owner : nat -> nat) (l : nat -> list assoc) (ord : list assoc).
Hypothesis HW : handed_to_workers y n owner l.
Hypothesis TE : Permutation (map core ord) (reported y).
Hypothesis ST : StronglySorted ale ord.
Hypothesis CK : clock_kept ord.
Hypothesis NE : no_empty ord.

Lemma reported_sel i sl w : nth_error (y_slots y) i = Some sl -> (exists r, In r (reported_by sl) /\ ar_work r = w) -> sel w (reported y) = sel w (reported_by sl).
Proof.
  intros N (r & R & W). destruct (nth_error_split _ _ N) as (l1 & l2 & E & L).
  unfold reported. rewrite E, flat_map_app. cbn [flat_map]. rewrite !sel_app.
  assert (OTHER : forall j s r', nth_error (y_slots y) j = Some s -> In r' (reported_by s) -> ar_work r' = w -> j = i).
  { intros j s r' J R' W'. apply (one_runner c ps y j i s sl r' r); auto. congruence. }
  assert (Z1 : sel w (flat_map reported_by l1) = []).
  { apply sel_nil. intros r' R' W'. apply in_flat_map in R' as (s & S & R'). apply In_nth_error in S as (j & J).
    assert (j < length l1) by (apply nth_error_Some; congruence). assert (Q : nth_error (y_slots y) j = Some s) by (rewrite E, nth_error_app1; auto).
    specialize (OTHER j s r' Q R' W'). lia. }
  assert (Z2 : sel w (flat_map reported_by l2) = []).
  { apply sel_nil. intros r' R' W'. apply in_flat_map in R' as (s & S & R'). apply In_nth_error in S as (j & J).
    assert (Q : nth_error (y_slots y) (length l1 + S j) = Some s) by (rewrite E, nth_error_app2 by lia; replace (length l1 + Datatypes.S j - length l1) with (Datatypes.S j) by lia; exact J).
    specialize (OTHER _ s r' Q R' W'). lia. }
  rewrite Z1, Z2. cbn [app]. now rewrite app_nil_r.
Qed.

Lemma worker_sel i sl w p : nth_error (y_slots y) i = Some sl -> (exists r, In r (reported_by sl) /\ ar_work r = w) -> p < n ->
  sel w (map core (l p)) = if Nat.eqb (owner i) p then sel w (reported_by sl) else [].
Proof.
  intros N (r & R & W) P. destruct HW as [_ H]. destruct (H p P) as (from & E & F). rewrite <- E.
  assert (OTHER : forall x, In x from -> ar_work (core (snd x)) = w -> fst x = i /\ owner i = p).
  { intros [j a] J WJ. cbn [fst snd] in *. pose proof (F j) as Fj.
    assert (K : In (core a) (map core (map snd (filter (fun x => Nat.eqb (fst x) j) from)))).
    { apply in_map, in_map_iff. exists (j, a). split; auto. apply filter_In. split; auto. apply Nat.eqb_refl. }
    rewrite Fj in K. destruct (nth_error (y_slots y) j) as [sj|] eqn:NJ; [|destruct K]. destruct (Nat.eqb_spec (owner j) p); [|destruct K].
    assert (j = i) by (apply (one_runner c ps y j i sj sl (core a) r); auto; congruence). subst j. auto. }
  assert (G : sel w (map core (map snd from)) = sel w (map core (map snd (filter (fun x => Nat.eqb (fst x) i) from)))).
  { clear -OTHER. induction from as [|[j a] from IH]; auto. cbn [map filter fst snd]. unfold sel in *. cbn [filter]. destruct (Nat.eqb_spec (ar_work (core a)) w) as [Q|Q].
    - destruct (OTHER (j, a) (or_introl eq_refl) Q) as [Q1 _]. cbn [fst] in Q1. subst j. rewrite Nat.eqb_refl. cbn [map filter snd]. rewrite Q, Nat.eqb_refl. f_equal. apply IH. intros x X. apply OTHER. now right.
    - rewrite IH by (intros x X; apply OTHER; now right). destruct (Nat.eqb j i); auto. cbn [map filter snd]. destruct (Nat.eqb_spec (ar_work (core a)) w); [contradiction|reflexivity]. }
  rewrite G, (F i), N. destruct (Nat.eqb (owner i) p); reflexivity.
Qed.

Lemma run_sorted : forall m, StronglySorted ale m -> (forall a, In a m -> In a ord) ->
  StronglySorted (fun a b => ar_work (core a) = ar_work (core b) -> ar_run (core a) <= ar_run (core b)) m.
Proof.
  induction 1 as [|a m S1 IH F]; intros H; constructor; [apply IH; intros; apply H; now right|]. apply Forall_forall. intros b B. cbn [core ar_work ar_run]. intros W.
  rewrite Forall_forall in F. specialize (F b B). unfold ale, acmp, kcmp, key_triple in F. rewrite W, Nat.compare_refl in F. cbn [lex] in F.
  assert (IA : In a ord) by (apply H; now left). assert (IB : In b ord) by (apply H; now right). pose proof (NE a IA) as NA. pose proof (NE b IB) as NB.
  pose proof (CK b a) as C. destruct (as_results a) as [|ra xa]; [congruence|]. destruct (as_results b) as [|rb xb]; [congruence|]. cbn [ocmp] in F.
  destruct (Nat.le_gt_cases (as_run a) (as_run b)) as [LE|GT]; auto.
  specialize (C rb ra IB IA (eq_sym W) GT eq_refl eq_refl).
  destruct (Nat.compare_spec (r_time ra) (r_time rb)) as [Q|Q|Q]; cbn [lex] in F; try lia; [|congruence].
  destruct (Nat.compare_spec (as_run a) (as_run b)); try lia. congruence.
Qed.

Lemma ord_sel i sl w : nth_error (y_slots y) i = Some sl -> (exists r, In r (reported_by sl) /\ ar_work r = w) -> sel w (map core ord) = sel w (reported_by sl).
Proof.
  intros N EX. assert (S : In sl (y_slots y)) by (eapply nth_error_In; eauto).
  assert (P : Permutation (sel w (map core ord)) (sel w (reported_by sl))).
  { rewrite <- (reported_sel i sl w N EX). now apply filter_perm. }
  assert (F : finished (sl_runner sl)) by (unfold all_finished in FI; rewrite Forall_forall in FI; auto).
  assert (ND : NoDup (map ar_run (sel w (reported_by sl)))).
  { destruct (slot_reports c ps y sl SO I S) as [D _]. clear -D. unfold sel. induction (reported_by sl) as [|r rs IH]; [constructor|]. cbn [map filter] in *. inversion D as [|? ? D1 D2]; subst.
    destruct (Nat.eqb_spec (ar_work r) w) as [E|E]; auto. cbn [map]. constructor; auto. intros X. apply in_map_iff in X as (r' & X1 & X2). apply filter_In in X2 as [X2 X3]. apply Nat.eqb_eq in X3.
    apply D1. apply in_map_iff. exists r'. split; auto. unfold rkey. congruence. }
  apply (ss_perm_eq ar_run); auto.
  - apply ss_strict.
    2:{ apply (Permutation_NoDup (l := map ar_run (sel w (reported_by sl)))); auto. apply Permutation_map. now symmetry. }
    assert (T : StronglySorted (fun a b => ar_work a = ar_work b -> ar_run a <= ar_run b) (sel w (map core ord))).
    { apply ss_filter. apply (ss_map core (fun a b => ar_work a = ar_work b -> ar_run a <= ar_run b)). now apply run_sorted. }
    assert (WS : forall r, In r (sel w (map core ord)) -> ar_work r = w) by (intros r R; now apply sel_in in R).
    clear -T WS. induction T as [|a m T1 IH F]; constructor; [apply IH; intros; apply WS; now right|]. apply Forall_forall. intros b B. rewrite Forall_forall in F. apply F; auto.
    rewrite (WS a), (WS b); auto; [now right|now left].
  - apply ss_strict; auto. apply ss_filter. now apply (slot_sorted sl).
Qed.

(* the reports about a test, in a report of the run: those that one worker was handed *)
Lemma split_of w :
  (exists p, p < n /\ sel w (map core (l p)) = sel w (map core ord) /\ forall q, q < n -> q <> p -> sel w (map core (l q)) = []) \/
  (sel w (map core ord) = [] /\ forall q, q < n -> sel w (map core (l q)) = []).
Proof.
  assert (D : (exists i sl r, nth_error (y_slots y) i = Some sl /\ In r (reported_by sl) /\ ar_work r = w) \/ forall r, In r (reported y) -> ar_work r <> w).
  { destruct (sel w (reported y)) as [|r rs] eqn:E.
    - right. intros r R W. assert (X : In r (sel w (reported y))) by (apply sel_in; auto). rewrite E in X. destruct X.
    - left. assert (X : In r (sel w (reported y))) by (rewrite E; now left). apply sel_in in X as [X W]. unfold reported in X. apply in_flat_map in X as (sl & S & X).
      apply In_nth_error in S as (i & N). exists i, sl, r. auto. }
  destruct D as [(i & sl & r & N & R & W)|D].
  - left. exists (owner i). assert (L : i < length (y_slots y)) by (apply nth_error_Some; congruence). destruct HW as [OW _]. specialize (OW i L).
    assert (EX : exists r, In r (reported_by sl) /\ ar_work r = w) by eauto. split; auto. rewrite (ord_sel i sl w N EX). split.
    + rewrite (worker_sel i sl w (owner i) N EX OW), Nat.eqb_refl. reflexivity.
    + intros q Q NQ. rewrite (worker_sel i sl w q N EX Q). destruct (Nat.eqb_spec (owner i) q); [congruence|reflexivity].
  - right. split.
    + apply sel_nil. intros r R. apply D. now apply (Permutation_in _ TE).
    + intros q Q. apply sel_nil. intros r R. apply in_map_iff in R as (a & <- & A). destruct HW as [_ H].
      destruct (handed_over y _ (l q) (H q Q) a A) as (i & sl & N & _ & R). apply D. apply (reported_in y sl); auto. eapply nth_error_In; eauto.
Qed.

Lemma of_worker_reported q r : q < n -> In r (map core (l q)) -> In r (reported y).
Proof.
  intros Q R. apply in_map_iff in R as (a & <- & A). destruct HW as [_ H]. destruct (handed_over y _ (l q) (H q Q) a A) as (i & sl & N & _ & R).
  apply (reported_in y sl); auto. eapply nth_error_In; eauto.
Qed.
Lemma of_ord_reported r : In r (map core ord) -> In r (reported y).
Proof. apply (Permutation_in _ TE). Qed.

Hypothesis ID : identified (reported y).

Lemma att_sel t r rs : In r (reported y) -> In t (map fst (cases r)) -> (forall r', In r' rs -> In r' (reported y)) ->
  flat_map (att t) rs = flat_map (att t) (sel (ar_work r) rs).
Proof.
  intros R C H. destruct ID as (_ & I2 & _). unfold sel. induction rs as [|x rs IH]; auto. cbn [flat_map filter]. rewrite IH by (intros; apply H; now right).
  destruct (Nat.eqb_spec (ar_work x) (ar_work r)) as [E|E]; [reflexivity|]. rewrite att_nil; auto. intros X. apply E. apply (I2 x r t); auto. apply H. now left.
Qed.

Lemma attempts_split t :
  (exists p, p < n /\ attempts t (flat (l p)) = attempts t (flat ord) /\ forall q, q < n -> q <> p -> attempts t (flat (l q)) = []) \/
  (attempts t (flat ord) = [] /\ forall q, q < n -> attempts t (flat (l q)) = []).
Proof.
  rewrite attempts_att.
  assert (D : (exists r, In r (reported y) /\ In t (map fst (cases r))) \/ forall r, In r (reported y) -> ~ In t (map fst (cases r))).
  { clear. induction (reported y) as [|r rs IH]; [right; intros r []|]. destruct (in_dec Nat.eq_dec t (map fst (cases r))) as [X|X]; [left; exists r; split; auto; now left|].
    destruct IH as [(r' & A & B)|IH]; [left; exists r'; split; auto; now right|]. right. intros r' [<-|R']; auto. }
  destruct D as [(r & R & C)|D].
  - rewrite (att_sel t r (map core ord) R C of_ord_reported).
    destruct (split_of (ar_work r)) as [(p & P & E & F)|(E & F)].
    + left. exists p. split; auto. split.
      * rewrite attempts_att, (att_sel t r (map core (l p)) R C) by (intros r' R'; now apply (of_worker_reported p)). now rewrite E.
      * intros q Q NQ. rewrite attempts_att, (att_sel t r (map core (l q)) R C) by (intros r' R'; now apply (of_worker_reported q)). now rewrite (F q Q NQ).
    + right. rewrite E. split; auto. intros q Q. rewrite attempts_att, (att_sel t r (map core (l q)) R C) by (intros r' R'; now apply (of_worker_reported q)). now rewrite (F q Q).
  - right. split; [apply flat_att_nil; intros r R; apply D; now apply of_ord_reported|].
    intros q Q. rewrite attempts_att. apply flat_att_nil. intros r R. apply D. now apply (of_worker_reported q).
Qed.

(* ---- counting tests ---- *)

Lemma enumerates_length P L1 L2 : enumerates P L1 -> enumerates P L2 -> length L1 = length L2.
Proof.
  intros [N1 H1] [N2 H2]. apply Permutation_length. apply NoDup_Permutation; auto. intros x. now rewrite H1, H2.
Qed.
Lemma NoDup_flat {A} (f : nat -> list A) m : (forall p, In p m -> NoDup (f p)) -> NoDup m -> (forall p q x, In p m -> In q m -> In x (f p) -> In x (f q) -> p = q) -> NoDup (flat_map f m).
Proof.
  induction m as [|p m IH]; intros H N D; [constructor|]. cbn [flat_map]. inversion N as [|? ? N1 N2]; subst. apply NoDup_app_intro.
  - apply H. now left.
  - apply IH; auto; [intros; apply H; now right|]. intros; eapply D; eauto; now right.
  - intros x X Y. apply in_flat_map in Y as (q & Q & Y). assert (p = q) by (apply (D p q x); auto; [now left|now right]). subst q. contradiction.
Qed.
Lemma flat_length {A} (f : nat -> list A) m : length (flat_map f m) = list_sum (map (fun p => length (f p)) m).
Proof. induction m as [|p m IH]; auto. cbn [flat_map map]. rewrite app_length, IH. reflexivity. Qed.

Lemma count_split (P : list (nat * bool) -> Prop) L (LP : nat -> list nat) : ~ P [] ->
  enumerates (fun t => P (attempts t (flat ord))) L -> (forall p, p < n -> enumerates (fun t => P (attempts t (flat (l p)))) (LP p)) ->
  length L = total_of n (fun p => length (LP p)).
Proof.
  intros PN E EP. unfold total_of. rewrite <- flat_length. apply (enumerates_length _ _ _ E).
  split.
  - apply NoDup_flat; [|apply seq_NoDup|].
    + intros p P'. apply in_seq in P'. apply EP. lia.
    + intros p q x PP QQ X Y. apply in_seq in PP, QQ. assert (PP' : p < n) by lia. assert (QQ' : q < n) by lia. destruct (EP p PP') as [_ HP]. destruct (EP q QQ') as [_ HQ].
      apply HP in X. apply HQ in Y. destruct (attempts_split x) as [(o & O & _ & F)|(_ & F)].
      * destruct (Nat.eq_dec p o) as [->|NP]; [|exfalso; rewrite (F p PP' NP) in X; contradiction]. destruct (Nat.eq_dec q o) as [->|NQ]; auto. exfalso. rewrite (F q QQ' NQ) in Y. contradiction.
      * exfalso. rewrite (F p PP') in X. contradiction.
  - intros t. rewrite in_flat_map. split.
    + intros (p & PP & T). apply in_seq in PP. assert (PP' : p < n) by lia. destruct (EP p PP') as [_ HP]. apply HP in T. destruct (attempts_split t) as [(o & O & EO & F)|(_ & F)].
      * destruct (Nat.eq_dec p o) as [->|NP]; [now rewrite <- EO|]. exfalso. rewrite (F p PP' NP) in T. contradiction.
      * exfalso. rewrite (F p PP') in T. contradiction.
    + intros T. destruct (attempts_split t) as [(o & O & EO & F)|(EO & _)].
      * exists o. split; [apply in_seq; lia|]. destruct (EP o O) as [_ HP]. apply HP. now rewrite EO.
      * exfalso. rewrite EO in T. contradiction.
Qed.

(* ---- counting made-up results that stand ---- *)

Fixpoint lefts (xs : list (nat * bool)) : nat :=
  match xs with
  | [] => 0
  | (w, m) :: t => (if m || existsb (fun x => snd x && Nat.eqb (fst x) w) t then 0 else 1) + lefts t
  end.
Definition pairs (rs : list aresult) : list (nat * bool) :=
  flat_map (fun r => map (fun x => (ar_work r, negb (made_up (snd x)))) (ar_results r)) rs.

Lemma pairs_flat m : pairs (map core m) = map (fun e => (e_work e, material e)) (flat m).
Proof.
  induction m as [|a m IH]; auto. cbn [map pairs flat_map]. unfold flat. cbn [flat_map]. rewrite map_app. fold (flat m). rewrite <- IH. f_equal.
  cbn [core ar_results ar_work]. rewrite !map_map. apply map_ext. intros r. cbn [snd e_work]. now rewrite material_spec.
Qed.
Lemma lefts_unreplaced es : length (unreplaced es) = lefts (map (fun e => (e_work e, material e)) es).
Proof.
  induction es as [|e es IH]; auto. cbn [unreplaced map lefts]. destruct (material e); cbn [orb]; auto.
  assert (X : existsb (fun x => snd x && Nat.eqb (fst x) (e_work e)) (map (fun e0 => (e_work e0, material e0)) es) = existsb (fun e' => material e' && Nat.eqb (e_work e') (e_work e)) es).
  { clear. induction es as [|a es IH]; auto. cbn [existsb map fst snd]. now rewrite IH. }
  rewrite X. destruct (existsb _ es); cbn [length]; auto.
Qed.
Lemma pairs_sel w rs : pairs (sel w rs) = filter (fun x => Nat.eqb (fst x) w) (pairs rs).
Proof.
  unfold sel, pairs. induction rs as [|r rs IH]; auto. cbn [flat_map filter]. rewrite filter_app, <- IH.
  assert (X : filter (fun x : nat * bool => Nat.eqb (fst x) w) (map (fun x => (ar_work r, negb (made_up (snd x)))) (ar_results r)) =
              if Nat.eqb (ar_work r) w then map (fun x => (ar_work r, negb (made_up (snd x)))) (ar_results r) else []).
  { induction (ar_results r) as [|x xs IHx]; cbn [map filter fst]; [now destruct (Nat.eqb (ar_work r) w)|]. rewrite IHx. now destruct (Nat.eqb (ar_work r) w). }
  rewrite X. now destruct (Nat.eqb (ar_work r) w).
Qed.
Lemma sum_cons a t : list_sum (a :: t) = a + list_sum t.
Proof. reflexivity. Qed.
Lemma lefts_split W xs : NoDup W -> (forall x, In x xs -> In (fst x) W) -> lefts xs = list_sum (map (fun w => lefts (filter (fun x => Nat.eqb (fst x) w) xs)) W).
Proof.
  intros ND. induction xs as [|[w m] xs IH]; intros H.
  - cbn [filter lefts]. clear. induction W; auto.
  - cbn [lefts]. rewrite IH by (intros x X; apply H; now right).
    set (d := if m || existsb (fun x => snd x && Nat.eqb (fst x) w) xs then 0 else 1).
    assert (E : forall v, lefts (filter (fun x => Nat.eqb (fst x) v) ((w, m) :: xs)) = (if Nat.eqb w v then d else 0) + lefts (filter (fun x => Nat.eqb (fst x) v) xs)).
    { intros v. cbn [filter fst]. destruct (Nat.eqb_spec w v) as [<-|NV]; auto. cbn [lefts]. f_equal. unfold d.
      assert (X : existsb (fun x => snd x && Nat.eqb (fst x) w) (filter (fun x => Nat.eqb (fst x) w) xs) = existsb (fun x => snd x && Nat.eqb (fst x) w) xs).
      { clear. induction xs as [|x xs IH]; auto. cbn [filter existsb]. destruct (Nat.eqb (fst x) w) eqn:Q; cbn [existsb]; rewrite ?Q, IH; [reflexivity|]. now rewrite andb_false_r. }
      now rewrite X. }
    rewrite (map_ext _ _ E). assert (IW : In w W) by (apply (H (w, m)); now left). clear -ND IW.
    assert (S : forall V, list_sum (map (fun v => (if Nat.eqb w v then d else 0) + lefts (filter (fun x => Nat.eqb (fst x) v) xs)) V) =
                list_sum (map (fun v => if Nat.eqb w v then d else 0) V) + list_sum (map (fun v => lefts (filter (fun x => Nat.eqb (fst x) v) xs)) V)).
    { induction V as [|v V IH]; auto. cbn [map]. rewrite !sum_cons, IH. lia. }
    rewrite S. f_equal. clear S. induction W as [|v W IH]; [destruct IW|]. cbn [map]. rewrite sum_cons.
    inversion ND as [|? ? N1 N2]; subst. destruct (Nat.eqb_spec w v) as [<-|NV].
    + assert (Z : list_sum (map (fun v => if Nat.eqb w v then d else 0) W) = 0).
      { clear -N1. induction W as [|v W IH]; auto. cbn [map]. rewrite sum_cons.
        rewrite IH by (intros X; apply N1; now right). destruct (Nat.eqb_spec w v) as [->|]; auto. exfalso. apply N1. now left. }
      lia.
    + destruct IW as [IW|IW]; [congruence|]. specialize (IH N2 IW). lia.
Qed.

Lemma sum_swap (f : nat -> nat -> nat) A B : list_sum (map (fun a => list_sum (map (fun b => f a b) B)) A) = list_sum (map (fun b => list_sum (map (fun a => f a b) A)) B).
Proof.
  induction A as [|a A IH]; cbn [map].
  - rewrite map_ext with (g := fun _ => 0) by reflexivity. induction B as [|b B IH]; auto.
  - rewrite sum_cons, IH. clear IH. induction B as [|b B IH]; auto. cbn [map]. rewrite !sum_cons, <- IH. lia.
Qed.
Lemma sum_one (f : nat -> nat) m p : NoDup m -> In p m -> (forall q, In q m -> q <> p -> f q = 0) -> list_sum (map f m) = f p.
Proof.
  induction m as [|q m IH]; intros N P H; [destruct P|]. cbn [map]. rewrite sum_cons. inversion N as [|? ? N1 N2]; subst. destruct P as [->|P].
  - assert (Z : list_sum (map f m) = 0); [|lia]. clear IH N N2. induction m as [|x m IH]; auto. cbn [map]. rewrite sum_cons, IH, (H x); auto.
    + right. now left.
    + intros ->. apply N1. now left.
    + intros K. apply N1. now right.
    + intros z Z NZ. apply H; auto. destruct Z as [->|Z]; [now left|right; now right].
  - rewrite (IH N2 P), (H q); auto; [now left| |intros; apply H; auto; now right]. intros ->. contradiction.
Qed.
Lemma sum_zero (f : nat -> nat) m : (forall q, In q m -> f q = 0) -> list_sum (map f m) = 0.
Proof. induction m as [|q m IH]; intros H; auto. cbn [map]. rewrite sum_cons, IH, H; auto; [now left|]. intros; apply H; now right. Qed.

Lemma pairs_in rs x : In x (pairs rs) -> exists r, In r rs /\ ar_work r = fst x.
Proof. unfold pairs. intros H. apply in_flat_map in H as (r & R & H). apply in_map_iff in H as (z & <- & _). eauto. Qed.

Lemma unreplaced_split : length (unreplaced (flat ord)) = total_of n (fun p => length (unreplaced (flat (l p)))).
Proof.
  set (W := nodup Nat.eq_dec (map ar_work (reported y))).
  assert (NW : NoDup W) by apply NoDup_nodup.
  assert (IW : forall r, In r (reported y) -> In (ar_work r) W) by (intros r R; apply nodup_In; now apply in_map).
  rewrite lefts_unreplaced, <- pairs_flat, (lefts_split W) by (auto; intros x X; apply pairs_in in X as (r & R & <-); apply IW; now apply of_ord_reported).
  unfold total_of. rewrite (map_ext_in (fun p => length (unreplaced (flat (l p)))) (fun p => list_sum (map (fun w => lefts (pairs (sel w (map core (l p))))) W))).
  - rewrite sum_swap. f_equal. apply map_ext. intros w. rewrite <- pairs_sel. destruct (split_of w) as [(p & P & E & F)|(E & F)].
    + rewrite <- E. symmetry. apply (sum_one (fun a => lefts (pairs (sel w (map core (l a)))))); [apply seq_NoDup|apply in_seq; lia|].
      intros q Q NQ. apply in_seq in Q. rewrite F; auto. lia.
    + rewrite E. symmetry. apply sum_zero. intros q Q. apply in_seq in Q. rewrite F; auto. lia.
  - intros p P. apply in_seq in P. assert (P' : p < n) by lia.
    rewrite lefts_unreplaced, <- pairs_flat, (lefts_split W) by (auto; intros x X; apply pairs_in in X as (r & R & <-); apply IW; now apply (of_worker_reported p)).
    f_equal. apply map_ext. intros w. now rewrite pairs_sel.
Qed.

(* ---- the workers together were handed what the report is made from ---- *)

Lemma NoDup_sel rs : (forall w, NoDup (sel w rs)) -> NoDup rs.
Proof.
  induction rs as [|r rs IH]; intros H; [constructor|]. constructor.
  - intros X. pose proof (H (ar_work r)) as D. unfold sel in D. cbn [filter] in D. rewrite Nat.eqb_refl in D. inversion D as [|? ? D1 _]; subst. apply D1. now apply sel_in.
  - apply IH. intros w. pose proof (H w) as D. unfold sel in *. cbn [filter] in D. destruct (Nat.eqb (ar_work r) w); auto. now inversion D.
Qed.
Lemma NoDup_reported : NoDup (reported y).
Proof.
  assert (D : NoDup (map rkey (reported y))) by now apply (once c ps). revert D. generalize (reported y). intros rs. induction rs as [|r rs IH]; intros D; constructor; inversion D as [|? ? D1 D2]; subst; auto.
  intros X. apply D1. now apply in_map.
Qed.
Lemma handed_all : Permutation (flat_map (fun p => map core (l p)) (seq 0 n)) (reported y).
Proof.
  assert (NO : NoDup (map core ord)) by (apply (Permutation_NoDup (Permutation_sym TE)), NoDup_reported).
  apply NoDup_Permutation; [|apply NoDup_reported|].
  - apply NoDup_flat; [|apply seq_NoDup|].
    + intros p P. apply in_seq in P. assert (P' : p < n) by lia. apply NoDup_sel. intros w. destruct (split_of w) as [(o & O & E & F)|(_ & F)].
      * destruct (Nat.eq_dec p o) as [->|NP]; [|rewrite (F p P' NP); constructor]. rewrite E. now apply NoDup_filter.
      * rewrite (F p P'). constructor.
    + intros p q x P Q X Y. apply in_seq in P, Q. assert (P' : p < n) by lia. assert (Q' : q < n) by lia.
      assert (SX : In x (sel (ar_work x) (map core (l p)))) by (apply sel_in; auto). assert (SY : In x (sel (ar_work x) (map core (l q)))) by (apply sel_in; auto).
      destruct (split_of (ar_work x)) as [(o & O & _ & F)|(_ & F)].
      * destruct (Nat.eq_dec p o) as [->|NP]; [|exfalso; rewrite (F p P' NP) in SX; destruct SX]. destruct (Nat.eq_dec q o) as [->|NQ]; auto. exfalso. rewrite (F q Q' NQ) in SY. destruct SY.
      * exfalso. rewrite (F p P') in SX. destruct SX.
  - intros r. rewrite in_flat_map. split.
    + intros (p & P & R). apply in_seq in P. apply (of_worker_reported p); auto. lia.
    + intros R. assert (RO : In r (map core ord)) by now apply (Permutation_in _ (Permutation_sym TE)).
      assert (SR : In r (sel (ar_work r) (map core ord))) by (apply sel_in; auto). destruct (split_of (ar_work r)) as [(o & O & E & _)|(E & _)].
      * exists o. split; [apply in_seq; lia|]. rewrite <- E in SR. now apply sel_in in SR.
      * rewrite E in SR. destruct SR.
Qed.
End Run.

(* ---- what is summed up ---- *)

Lemma sums_up_reaches m s : sums_up m s -> exists k k' o1 o2, ReportSpec.reaches (flat m) k /\ Permutation (statuses k) o1 /\ Permutation (statuses k) o2 /\ suite_result k o1 o2 = (k', s).
Proof.
  intros (o1 & o2 & H). cbv zeta in H. destruct H as (P1 & P2 & ->). rewrite flat_account in *.
  pose proof (reaches_fold (flat m) tracker_new [] reach_new) as R. cbn [app] in R.
  exists (fold_left account_entry (flat m) tracker_new), (fst (suite_result (fold_left account_entry (flat m) tracker_new) o1 o2)), o1, o2. split; auto. split; auto. split; auto.
  now destruct (suite_result _ o1 o2).
Qed.

Lemma existsb_101 codes : existsb (Nat.eqb 101) codes = true <-> In 101 codes.
Proof. rewrite existsb_exists. split; [intros (x & X & E); apply Nat.eqb_eq in E; now subst|intros H; exists 101; split; auto]. Qed.
Lemma existsb_1 codes : existsb (Nat.eqb 1) codes = true <-> In 1 codes.
Proof. rewrite existsb_exists. split; [intros (x & X & E); apply Nat.eqb_eq in E; now subst|intros H; exists 1; split; auto]. Qed.

Lemma suite_sums m n' : suite_exit m (Some n') -> exists s, sums_up m s /\ s_exit s = n'.
Proof.
  unfold suite_exit. destruct (work_forever tracker_new m) as [k|] eqn:W; [|discriminate]. intros (o1 & o2 & P1 & P2 & E). injection E as ->.
  destruct (fold_nonempty _ _ _ W) as [-> _]. exists (snd (suite_result (fold_left handle_account m tracker_new) o1 o2)). split; auto. exists o1, o2. auto.
Qed.

Lemma told_pushes m : forall rs b a, flat_map told_case (pushes m b a rs) = map (fun r => (m, r_id r, r_status r)) rs.
Proof. induction rs as [|r [|r' rs] IH]; intros b a; auto. change (pushes m b a (r :: r' :: rs)) with (Push m b r None :: pushes m None a (r' :: rs)). cbn [flat_map told_case app map]. f_equal. apply IH. Qed.
Definition says (r : aresult) : list (nat * nat * rstatus) := map (fun x => (ar_run r, fst x, snd x)) (ar_results r).
Lemma told_core m : flat_map told_case (flat_map handle_calls m) = flat_map says (map core m).
Proof.
  induction m as [|a m IH]; auto. cbn [flat_map map]. rewrite flat_map_app, IH. f_equal. unfold handle_calls. rewrite told_pushes. unfold says, core. cbn [ar_results ar_run]. now rewrite map_map.
Qed.

Lemma suite_codes m v : suite_exit m (Some v) -> v = 0 \/ v = 1 \/ v = 101.
Proof.
  intros H. destruct (suite_sums _ _ H) as (s & SU & <-). destruct (sums_up_reaches _ _ SU) as (k & k' & o1 & o2 & R & P1 & P2 & Q).
  destruct (suite_spec _ _ _ _ _ _ R P1 P2 Q) as (-> & _). rewrite (exit_of _ _ (reaches_ti _ _ R)). unfold SUCCESS, FAILURE, ABQ_ERROR.
  repeat match goal with |- context [if ?b then _ else _] => destruct b | |- context [match ?b with [] => _ | _ => _ end] => destruct b end; auto.
Qed.
