From Verif Require Import Base JobQueueModel JobQueueSpec JobQueueLemmas.
From Verif Require JobQueueProofs.
From Verif Require Import StatusModel FetchModel FetchSpec FetchProofs FetchAttempts RunnerModel RunnerSpec RunnerProofs RunnerLive SystemModel SystemSpec RunnerFeed SystemProofs SystemEnd SystemOrder.
From Verif Require Import RetriedModel RetriedSpec RetriedFlat RetriedProofs.

Implicit Types (c : config nat) (st : JobQueueModel.state).

(* A process that was not told to retry is the first one of its tag. *)
Definition FirstInv (ps : list proc) : Prop :=
  forall i pr, nth_error ps i = Some pr -> q_retry pr = None -> forall j pj, j < i -> nth_error ps j = Some pj -> tag_of pj <> tag_of pr.

(* What holds of a process that was retried in order. *)
Definition OrderInv c st (ps : list proc) : Prop :=
  forall i pr, nth_error ps i = Some pr -> q_orderly pr = true ->
    q_from pr <= length (st_threads st) /\
    (exists ids, q_retry pr = Some (Some ids) /\
       forall k, k < q_from pr -> requester st k = Some (tag_of pr) -> exists b, answer c st k = Some b /\ forall x, In x (response c st k) -> In x ids) /\
    forall j pj, j < i -> nth_error ps j = Some pj -> tag_of pj = tag_of pr -> q_gone pj = true /\ q_from pj <= q_from pr /\ forall k, In k (powned pj) -> k < q_from pr.

Record ZInv c (z : fleet) : Prop := {
  z_reach : reachable c (z_queue z);
  z_proc : Forall (ProcInv c (z_queue z)) (z_procs z);
  z_owned : Permutation (flat_map powned (z_procs z)) (seq 0 (length (st_threads (z_queue z))));
  z_first : FirstInv (z_procs z);
  z_order : OrderInv c (z_queue z) (z_procs z)
}.

Lemma requester_back c st ev k w : k < length (st_threads st) -> requester (JobQueueModel.step c st ev) k = Some w -> requester st k = Some w.
Proof.
  intros L H. unfold requester. destruct (nth_error (st_threads st) k) as [t|] eqn:K; [|apply nth_error_None in K; lia].
  assert (X : requester st k = Some (th_tag t)) by (unfold requester; now rewrite K). apply (requester_stable c st ev) in X. rewrite X in H. exact H.
Qed.

Lemma order_queue c st ev ps : OrderInv c st ps -> OrderInv c (JobQueueModel.step c st ev) ps.
Proof.
  intros O i pr E Q. destruct (O i pr E Q) as (A & (ids & B & C) & D). split; [pose proof (threads_grow c st ev); lia|]. split; auto. exists ids. split; auto.
  intros k K R. apply requester_back in R; [|lia]. destruct (C k K R) as (b & X & Y). exists b. split; [now apply answer_stable|]. rewrite (response_stable c st ev k b X). exact Y.
Qed.

Lemma nth_upd_cases {A} (ps : list A) i pr' k u pr : nth_error ps i = Some pr -> nth_error (upd i pr' ps) k = Some u -> (k = i /\ u = pr') \/ (k <> i /\ nth_error ps k = Some u).
Proof.
  intros E H. destruct (Nat.eq_dec k i) as [->|NE]; [left|right].
  - rewrite nth_error_upd_eq in H by (apply nth_error_Some; congruence). split; congruence.
  - rewrite nth_error_upd_neq in H by auto. auto.
Qed.

Lemma first_upd ps i pr pr' : FirstInv ps -> nth_error ps i = Some pr -> tag_of pr' = tag_of pr -> (q_retry pr' = None -> q_retry pr = None) -> FirstInv (upd i pr' ps).
Proof.
  intros F E T R k u K U j pj J PJ. destruct (nth_upd_cases ps i pr' k u pr E K) as [[-> ->]|[NK K']]; destruct (nth_upd_cases ps i pr' j pj pr E PJ) as [[-> ->]|[NJ J']]; try lia.
  - rewrite T. apply (F i pr E (R U) j pj J J').
  - rewrite T. apply (F k u K' U i pr J E).
  - apply (F k u K' U j pj J J').
Qed.

(* A process that is not gone, or whose requests do not change, does not disturb others. *)
Lemma order_upd c st ps i pr pr' : OrderInv c st ps -> nth_error ps i = Some pr -> tag_of pr' = tag_of pr ->
  (q_gone pr = true -> q_gone pr' = true /\ powned pr' = powned pr /\ q_from pr' = q_from pr) ->
  (q_orderly pr' = true ->
     q_from pr' <= length (st_threads st) /\
     (exists ids, q_retry pr' = Some (Some ids) /\
        forall k, k < q_from pr' -> requester st k = Some (tag_of pr') -> exists b, answer c st k = Some b /\ forall x, In x (response c st k) -> In x ids) /\
     forall j pj, j < i -> nth_error ps j = Some pj -> tag_of pj = tag_of pr' -> q_gone pj = true /\ q_from pj <= q_from pr' /\ forall k, In k (powned pj) -> k < q_from pr') ->
  OrderInv c st (upd i pr' ps).
Proof.
  intros O E T G S k u K U. destruct (nth_upd_cases ps i pr' k u pr E K) as [[-> ->]|[NK K']].
  - destruct (S U) as (A & B & D). split; auto. split; auto. intros j pj J PJ. destruct (nth_upd_cases ps i pr' j pj pr E PJ) as [[-> ->]|[NJ J']]; [lia|]. apply (D j pj J J').
  - destruct (O k u K' U) as (A & B & D). split; auto. split; auto. intros j pj J PJ TE. destruct (nth_upd_cases ps i pr' j pj pr E PJ) as [[-> ->]|[NJ J']]; [|apply (D j pj J J' TE)].
    rewrite T in TE. destruct (D i pr J E TE) as (X & Z & Y). destruct (G X) as (G1 & G2 & G3). split; auto. rewrite G2, G3. auto.
Qed.

Lemma proc_gone c st pr : ProcInv c st pr -> forall g o, 
  ProcInv c st {| q_params := q_params pr; q_gone := g; q_retry := q_retry pr; q_orderly := o; q_from := q_from pr; q_pending := q_pending pr; q_taken := q_taken pr; q_runner := q_runner pr |}.
Proof. intros [OK T N R TI RW P ID CL FR TG] g o. constructor; auto. Qed.

Lemma zin c z i pr : ZInv c z -> nth_error (z_procs z) i = Some pr -> ProcInv c (z_queue z) pr.
Proof. intros I E. pose proof (z_proc _ _ I) as F. rewrite Forall_forall in F. apply F. eapply nth_error_In; eauto. Qed.

Lemma zowned_bound c z k pr : ZInv c z -> In pr (z_procs z) -> In k (powned pr) -> k < length (st_threads (z_queue z)).
Proof.
  intros I P K. assert (X : In k (flat_map powned (z_procs z))) by (apply in_flat_map; eauto). apply (Permutation_in _ (z_owned _ _ I)) in X. apply in_seq in X. lia.
Qed.

Lemma zinit_inv c : ZInv c (zinit c).
Proof.
  constructor; cbn [zinit z_queue z_procs].
  - now exists [].
  - constructor.
  - constructor.
  - intros [|i] pr H; discriminate.
  - intros [|i] pr H; discriminate.
Qed.

Lemma started_inv c st ps p : admissible p = true -> ProcInv c st (started ps p).
Proof.
  intros A. unfold admissible in A. apply andb_prop in A as [A A3]. apply andb_prop in A as [A1 A2]. apply negb_true_iff in A1, A2, A3. apply Nat.eqb_neq in A1, A2.
  unfold started. cbv zeta. set (again := existsb (same_tag (p_tag p)) ps).
  constructor; cbn [q_params q_gone q_retry q_orderly q_from q_pending q_taken q_runner]; try (unfold powned; cbn; intros k []; fail); try discriminate.
  - split; [lia|]. split; [lia|]. unfold tag_of. cbn [q_params]. intros H. rewrite H in A3. discriminate.
  - constructor.
  - constructor.
  - exists []. unfold whole, ids_of_proc. cbn [q_retry q_taken]. destruct again; reflexivity.
  - unfold tight. rewrite flat_srcs. split; [right; exists []; destruct again; split; auto|discriminate].
  - unfold raw. cbn [q_runner]. destruct again; [left; auto|right; right]. split; [discriminate|]. split; [cbn; lia|]. left. split; auto.
  - unfold ids_of_proc. cbn [q_retry]. destruct again; constructor.
  - unfold ids_of_proc. cbn [q_retry]. destruct again; intros x [].
Qed.

Lemma retry_source c st pr : ProcInv c st pr -> asking_retry (q_runner pr) = true ->
  q_retry pr = Some None /\ raw pr = [[]; []] /\ r_prod (q_runner pr) = PFetch /\ q_taken pr = [] /\ q_pending pr = None.
Proof.
  intros I A. unfold asking_retry in A. destruct (r_prod (q_runner pr)) eqn:P; try discriminate. fold (raw pr) in A.
  destruct (p_raw _ _ _ I) as [R|[(ids & _ & R & _)|(_ & L & _)]]; auto.
  - rewrite P in R. exact R.
  - change (f_sources (w_fetcher (r_world (q_runner pr)))) with (raw pr) in A. rewrite R in A. discriminate.
  - change (f_sources (w_fetcher (r_world (q_runner pr)))) with (raw pr) in A. destruct (raw pr) as [|[|? ?] [|[|? ?] ?]]; try discriminate; cbn [length] in L; lia.
Qed.

Lemma feed_retry_flat ids s : srcs (r_world s) = [[]; []] ->
  flatr (feed_retry {| b_work := map fresh ids; b_eow := true |} s) = growr (first_bundle ids) (flatr s).
Proof.
  destruct s as [[[ss t] a rs en pa] p ch rf ro el sz pr tk rr bf se sd]. cbn [r_world w_fetcher f_sources]. intros ->. destruct ids; reflexivity.
Qed.

Lemma proc_retry c st pr o : reachable c st -> NoDup (tests_of c) -> ProcInv c st pr -> asking_retry (q_runner pr) = true ->
  let ids := partition_for c st (tag_of pr) in
  ProcInv c st {| q_params := q_params pr; q_gone := false; q_retry := Some (Some ids); q_orderly := o; q_from := length (st_threads st);
                  q_pending := q_pending pr; q_taken := q_taken pr;
                  q_runner := feed_retry {| b_work := map fresh ids; b_eow := true |} (q_runner pr) |}.
Proof.
  intros RE ND I A ids. destruct (retry_source c st pr I A) as (R1 & R2 & R3 & R4 & R5). destruct I as [OK T N (es & RU) TI RW P ID CL FR TG].
  assert (W0 : whole c st pr = []) by (unfold whole, ids_of_proc; rewrite R1, R4; reflexivity). rewrite W0 in RU.
  assert (FE : flatr (feed_retry {| b_work := map fresh ids; b_eow := true |} (q_runner pr)) = growr (first_bundle ids) (flatr (q_runner pr))).
  { now apply feed_retry_flat. }
  constructor; cbn [q_params q_gone q_retry q_orderly q_from q_pending q_taken q_runner]; auto.
  - rewrite FE, RU. unfold whole, ids_of_proc. cbn [q_retry q_taken]. rewrite R4. cbn [script flat_map]. rewrite app_nil_r.
    destruct (run_grow (first_bundle ids) (p_batch (q_params pr)) es (rinit [[]] (p_max (q_params pr)))) as (_ & es' & Q & _); [right; exists []; split; auto|].
    exists es'. rewrite Q. reflexivity.
  - rewrite FE. destruct TI as [TI1 TI2]. unfold growr. cbn [set_prod r_world with_fetcher w_fetcher w_ended growf f_sources]. rewrite flat_srcs in TI1, TI2. unfold raw in R2. rewrite R2 in TI1, TI2. cbn [flats] in TI1, TI2.
    assert (SE : w_ended (r_world (q_runner pr)) = false) by (destruct (w_ended (r_world (q_runner pr))) eqn:Q; auto; discriminate (TI2 Q)).
    split.
    + cbn [with_fetcher w_fetcher growf f_sources]. change (f_sources (w_fetcher (r_world (flatr (q_runner pr))))) with (flats (srcs (r_world (q_runner pr)))). rewrite R2. cbn [flats app]. right. eexists. split; [reflexivity|].
      unfold first_bundle. destruct ids; [constructor|]. constructor; [left; discriminate|constructor].
    + cbn [with_fetcher w_ended]. change (w_ended (r_world (flatr (q_runner pr)))) with (w_ended (r_world (q_runner pr))). congruence.
  - right; left. exists ids. split; auto. unfold raw in *. cbn [q_runner]. unfold feed_retry. cbn [set_prod r_world r_prod w_fetcher f_sources]. rewrite R2. auto.
  - rewrite R5. discriminate.
  - apply partition_nodup. exact ND.
  - unfold ids_of_proc. cbn [q_retry]. intros x X. apply partition_claims; auto. tauto.
  - intros k. unfold powned. cbn [q_taken q_pending]. rewrite R4, R5. intros [].
Qed.

Lemma powned_nodup c z pr : ZInv c z -> In pr (z_procs z) -> NoDup (powned pr).
Proof.
  intros I P. assert (NF : NoDup (flat_map powned (z_procs z))) by (eapply Permutation_NoDup; [apply Permutation_sym; exact (z_owned _ _ I)|apply seq_NoDup]).
  apply in_split in P as (l1 & l2 & Q). rewrite Q, flat_map_app in NF. apply NoDup_app_r in NF. cbn [flat_map] in NF. now apply NoDup_app_l in NF.
Qed.

Lemma proc_ask c st pr p : reachable c st -> ProcInv c st pr -> q_pending pr = None -> asking (q_runner pr) = true -> p = q_params pr -> q_from pr <= length (st_threads st) ->
  ProcInv c (JobQueueModel.step c st (Arrive (p_tag p) (p_batch p)))
    {| q_params := q_params pr; q_gone := false; q_retry := q_retry pr; q_orderly := q_orderly pr; q_from := q_from pr;
       q_pending := Some (length (st_threads st)); q_taken := q_taken pr; q_runner := q_runner pr |}.
Proof.
  intros RE I PE AS -> LF. pose proof (proc_queue_step c st (Arrive (p_tag (q_params pr)) (p_batch (q_params pr))) pr RE I) as I'.
  assert (LEN : length (st_threads (JobQueueModel.step c st (Arrive (p_tag (q_params pr)) (p_batch (q_params pr))))) = S (length (st_threads st)) /\
                requester (JobQueueModel.step c st (Arrive (p_tag (q_params pr)) (p_batch (q_params pr)))) (length (st_threads st)) = Some (tag_of pr)).
  { destruct (p_ok _ _ _ I) as (B & _). unfold requester. cbn [JobQueueModel.step]. destruct (Nat.eqb_spec (p_batch (q_params pr)) 0); [lia|]. cbn [st_threads]. rewrite app_length, nth_error_app2, Nat.sub_diag by lia. simpl. split; [lia|reflexivity]. }
  destruct LEN as [LEN RQ]. apply asking_iff in AS as [AS1 AS2]. destruct I' as [OK T N R TI RW P ID CL FR TG].
  constructor; cbn [q_params q_gone q_retry q_orderly q_from q_pending q_taken q_runner]; auto.
  - unfold raw in *. cbn [q_runner]. destruct RW as [(_ & X & _)|[(ids & _ & X & _)|(NR & L & W)]]; try congruence. right; right. split; auto. split; auto.
    destruct W as [W|(l & k & A & B & _ & [(b & D1 & D2 & D3)|(D1 & D2)])]; [left; auto|congruence|congruence].
  - intros k [= <-]. rewrite LEN. split; [lia|]. apply asking_iff; auto.
  - unfold powned. cbn [q_taken q_pending]. intros k K. apply in_app_or in K as [K|[<-|[]]]; [|exact LF]. apply FR. unfold powned. apply in_or_app; auto.
  - unfold powned. cbn [q_taken q_pending]. intros k K. apply in_app_or in K as [K|[<-|[]]]; [|exact RQ]. apply TG. unfold powned. apply in_or_app; auto.
Qed.

Lemma proc_reply c st pr k b : reachable c st -> NoDup (powned pr) -> ProcInv c st pr -> q_pending pr = Some k -> answer c st k = Some b ->
  ProcInv c st {| q_params := q_params pr; q_gone := false; q_retry := q_retry pr; q_orderly := q_orderly pr; q_from := q_from pr;
                  q_pending := None; q_taken := q_taken pr ++ [k]; q_runner := feed b (q_runner pr) |}.
Proof.
  intros RE NO I PE A. pose proof (whole_ok c st pr RE) as WO. destruct I as [OK T N (es & RU) TI RW P ID CL FR TG]. destruct (P k PE) as [LT AS]. apply asking_iff in AS as [AS1 AS2].
  unfold raw in RW. destruct RW as [(_ & X & _)|[(ids & _ & X & _)|(NR & L & W)]]; try congruence.
  assert (F : Forall (goes_on c st) (q_taken pr)) by (destruct W as [[_ W]|(l & k0 & _ & _ & Q & _)]; [auto|congruence]).
  rewrite (flatr_same _ L) in RU, TI.
  assert (LF : length (srcs (r_world (feed b (q_runner pr)))) <= 1) by (unfold feed; cbn [set_prod r_world w_fetcher f_sources]; rewrite AS2; cbn; lia).
  constructor; cbn [q_params q_gone q_retry q_orderly q_from q_pending q_taken q_runner]; auto.
  - apply Forall_app. split; auto. constructor; [eauto|constructor].
  - unfold powned in NO. now rewrite PE in NO.
  - rewrite (flatr_same _ LF). rewrite RU.
    assert (WE : whole c st {| q_params := q_params pr; q_gone := false; q_retry := q_retry pr; q_orderly := q_orderly pr; q_from := q_from pr;
                  q_pending := None; q_taken := q_taken pr ++ [k]; q_runner := feed b (run (rstep (p_batch (q_params pr))) (rinit [whole c st pr] (p_max (q_params pr))) es) |} = whole c st pr ++ [Bundle b]).
    { unfold whole, ids_of_proc. cbn [q_retry q_taken]. rewrite script_app, (script_one c st k b A), app_assoc. reflexivity. }
    rewrite WE. destruct (feed_run (p_batch (q_params pr)) (p_max (q_params pr)) (whole c st pr) b es WO) as (es' & Q & _). exists es'. exact Q.
  - rewrite (flatr_same _ LF). rewrite feed_grow. destruct TI as [TI1 TI2]. unfold growr. cbn [set_prod r_world with_fetcher w_fetcher w_ended growf f_sources]. split.
    + cbn [set_prod r_world with_fetcher w_fetcher growf f_sources]. rewrite AS2. right. exists [Bundle b]. split; auto. constructor; [|constructor].
      pose proof (script_ok c st [k] RE) as FO. rewrite (script_one c _ k b A) in FO. now inversion FO.
    + cbn [set_prod r_world with_fetcher w_fetcher growf f_sources w_ended]. intros Q. rewrite (TI2 Q) in AS2. discriminate.
  - right; right. split; auto. unfold raw. cbn [q_runner]. split; auto. right. exists (q_taken pr), k. split; auto. split; auto. split; auto. left. exists b. split; auto.
    rewrite feed_grow. unfold growr. cbn [set_prod r_world r_prod with_fetcher w_fetcher growf f_sources]. rewrite AS2. auto.
  - discriminate.
  - intros j J. apply FR. unfold powned in *. cbn [q_taken q_pending] in J. rewrite app_nil_r in J. rewrite PE. exact J.
  - intros j J. apply TG. unfold powned in *. cbn [q_taken q_pending] in J. rewrite app_nil_r in J. rewrite PE. exact J.
Qed.

Lemma owned_same ps i pr pr' n : nth_error ps i = Some pr -> powned pr' = powned pr -> Permutation (flat_map powned ps) (seq 0 n) -> Permutation (flat_map powned (upd i pr' ps)) (seq 0 n).
Proof. intros E O P. rewrite (flat_map_upd powned ps i pr pr' [] E); [now rewrite app_nil_r|]. rewrite O, app_nil_r. auto. Qed.

Lemma firstn_nth {A} (l : list A) i j x : j < i -> nth_error l j = Some x -> In x (firstn i l).
Proof. revert i j. induction l as [|a l IH]; intros [|i] [|j] L E; try lia; try discriminate; cbn [firstn nth_error] in *; [left; congruence|right; apply (IH i j); auto; lia]. Qed.


Definition FromInv (z : fleet) : Prop := Forall (fun pr => q_from pr <= length (st_threads (z_queue z))) (z_procs z).

Lemma zstep_from c z e : FromInv z -> FromInv (zstep c z e).
Proof.
  unfold FromInv. intros F. assert (FQ : forall ev, Forall (fun pr => q_from pr <= length (st_threads (JobQueueModel.step c (z_queue z) ev))) (z_procs z)).
  { intros ev. eapply Forall_impl; [|exact F]. cbn. intros pr H. pose proof (threads_grow c (z_queue z) ev). lia. }
  destruct e as [p|i|i|i|k|i|i e]; cbn [zstep].
  - destruct (admissible p); auto. cbn [z_queue z_procs]. apply Forall_app. split; auto. constructor; [|constructor]. cbn. lia.
  - destruct (nth_error (z_procs z) i) as [pr|] eqn:E; auto. cbn [with_proc z_queue z_procs]. apply Forall_upd; auto. rewrite Forall_forall in F. apply (F pr). eapply nth_error_In; eauto.
  - destruct (nth_error (z_procs z) i) as [pr|] eqn:E; auto. destruct (negb _ && _); auto. cbv zeta. cbn [with_proc z_queue z_procs]. apply Forall_upd; auto.
  - destruct (nth_error (z_procs z) i) as [pr|] eqn:E; auto. destruct (q_pending pr); auto. destruct (negb _ && _); auto. cbn [with_proc z_queue z_procs]. apply Forall_upd; auto.
    specialize (FQ (Arrive (p_tag (q_params pr)) (p_batch (q_params pr)))). rewrite Forall_forall in FQ. apply (FQ pr). eapply nth_error_In; eauto.
  - apply FQ.
  - destruct (nth_error (z_procs z) i) as [pr|] eqn:E; auto. destruct (q_pending pr) as [k|]; auto. destruct (nth_error _ k); auto. destruct (answer_of _ _); auto. destruct (q_gone pr); auto.
    cbn [with_proc z_queue z_procs]. apply Forall_upd; auto. rewrite Forall_forall in F. apply (F pr). eapply nth_error_In; eauto.
  - destruct (nth_error (z_procs z) i) as [pr|] eqn:E; auto. destruct (q_gone pr); auto. cbn [with_proc z_queue z_procs]. apply Forall_upd; auto. rewrite Forall_forall in F. apply (F pr). eapply nth_error_In; eauto.
Qed.

Lemma zstep_inv c z e : NoDup (tests_of c) -> FromInv z -> ZInv c z -> ZInv c (zstep c z e).
Proof.
  intros ND FI I. destruct e as [p|i|i|i|k|i|i e]; cbn [zstep].
  - (* Start *)
    destruct (admissible p) eqn:A; auto. constructor; cbn [z_queue z_procs].
    + exact (z_reach _ _ I).
    + apply Forall_app. split; [exact (z_proc _ _ I)|]. constructor; [|constructor]. now apply started_inv.
    + rewrite flat_map_app. change (flat_map powned [started (z_procs z) p]) with (@nil nat). rewrite app_nil_r. exact (z_owned _ _ I).
    + intros i pr E R j pj J PJ. destruct (Nat.lt_ge_cases i (length (z_procs z))) as [L|L].
      * rewrite nth_error_app1 in E by auto. rewrite nth_error_app1 in PJ by lia. eapply (z_first _ _ I); eauto.
      * rewrite nth_error_app2 in E by auto. destruct (i - length (z_procs z)) as [|m] eqn:M; [|destruct m; discriminate]. injection E as <-.
        rewrite nth_error_app1 in PJ by lia. unfold started in R. cbn [q_retry] in R. cbv zeta in R. destruct (existsb (same_tag (p_tag p)) (z_procs z)) eqn:X; [discriminate|].
        intros T. unfold tag_of in T. cbn [started q_params] in T.
        assert (Y : existsb (same_tag (p_tag p)) (z_procs z) = true) by (apply existsb_exists; exists pj; split; [eapply nth_error_In; eauto|]; unfold same_tag; rewrite T; now apply tag_eqb_true). congruence.
    + intros i pr E R. destruct (Nat.lt_ge_cases i (length (z_procs z))) as [L|L].
      * rewrite nth_error_app1 in E by auto. destruct (z_order _ _ I i pr E R) as (A1 & A2 & A3). split; auto. split; auto. intros j pj J PJ. rewrite nth_error_app1 in PJ by lia. eapply A3; eauto.
      * rewrite nth_error_app2 in E by auto. destruct (i - length (z_procs z)) as [|m] eqn:M; [|destruct m; discriminate]. injection E as <-. discriminate.
  - (* Gone *)
    destruct (nth_error (z_procs z) i) as [pr|] eqn:E; auto. constructor; cbn [with_proc z_queue z_procs].
    + exact (z_reach _ _ I).
    + apply Forall_upd; [exact (z_proc _ _ I)|]. apply proc_gone. eapply zin; eauto.
    + eapply owned_same; [exact E|reflexivity|exact (z_owned _ _ I)].
    + eapply first_upd; [exact (z_first _ _ I)|exact E|reflexivity|auto].
    + eapply order_upd; [exact (z_order _ _ I)|exact E|reflexivity|auto|]. intros O. exact (z_order _ _ I i pr E O).
  - (* AskRetry *)
    destruct (nth_error (z_procs z) i) as [pr|] eqn:E; auto. destruct (q_gone pr) eqn:G; auto. destruct (asking_retry (q_runner pr)) eqn:A; auto. cbn [negb andb]. cbv zeta.
    pose proof (zin c z i pr I E) as PI. destruct (retry_source c _ pr PI A) as (R1 & R2 & R3 & R4 & R5).
    constructor; cbn [with_proc z_queue z_procs].
    + exact (z_reach _ _ I).
    + apply Forall_upd; [exact (z_proc _ _ I)|]. apply (proc_retry c (z_queue z) pr); auto. exact (z_reach _ _ I).
    + eapply owned_same; [exact E|reflexivity|exact (z_owned _ _ I)].
    + eapply first_upd; [exact (z_first _ _ I)|exact E|reflexivity|discriminate].
    + eapply order_upd; [exact (z_order _ _ I)|exact E|reflexivity|congruence|]. cbn [q_orderly q_from q_retry q_params tag_of]. intros O. unfold orderly_now in O. apply andb_prop in O as [O1 O2].
      split; [lia|]. split.
      * exists (retry_manifest c z (p_tag (q_params pr))). split; auto. intros k K R. apply negb_true_iff in O2. destruct (nth_error (st_threads (z_queue z)) k) as [t|] eqn:Q; [|apply nth_error_None in Q; lia].
        unfold requester in R. rewrite Q in R. cbn in R. injection R as R.
        assert (IT : in_the_queue (p_tag (q_params pr)) t = false).
        { destruct (in_the_queue (p_tag (q_params pr)) t) eqn:Z; auto. rewrite <- O2. symmetry. apply existsb_exists. exists t. split; auto. eapply nth_error_In; eauto. }
        unfold in_the_queue in IT. rewrite R in IT. unfold tag_of in IT. cbn [q_params] in IT. rewrite tag_eqb_refl in IT. cbn [andb] in IT. destruct (th_pc t) as [| | | |s e b|] eqn:PC; try discriminate.
        assert (AN : answer c (z_queue z) k = Some {| b_work := map fresh (map fst (slice (cf_queue c) s e)); b_eow := b |}) by (apply answer_done; exists t, s, e; cbn [b_eow]; auto).
        eexists. split; [exact AN|]. intros x X. destruct (answer_answered c _ k _ AN) as (who & n & D & _). unfold retry_manifest.
        assert (who = p_tag (q_params pr)) by (destruct D as (t' & K' & T' & _); rewrite Q in K'; injection K' as <-; unfold tag_of in R; cbn [q_params] in R; congruence). subst who.
        eapply partition_lower; eauto. exact (z_reach _ _ I).
      * intros j pj J PJ T. rewrite forallb_forall in O1. specialize (O1 pj). unfold tag_of in T. cbn [q_params] in T. split.
        -- assert (X : In pj (firstn i (z_procs z) ++ skipn (S i) (z_procs z))) by (apply in_or_app; left; eapply firstn_nth; eauto). specialize (O1 X). unfold same_tag in O1. rewrite T, tag_eqb_refl in O1. exact O1.
        -- split; [unfold FromInv in FI; rewrite Forall_forall in FI; apply (FI pj); eapply nth_error_In; eauto|]. intros k K. eapply zowned_bound; eauto. eapply nth_error_In; eauto.
  - (* ZAsk *)
    destruct (nth_error (z_procs z) i) as [pr|] eqn:E; auto. destruct (q_pending pr) as [k|] eqn:PE; auto.
    destruct (q_gone pr) eqn:G; auto. destruct (asking (q_runner pr)) eqn:AS; auto. cbn [negb andb].
    pose proof (zin c z i pr I E) as PI. destruct (p_ok _ _ _ PI) as (OK & _).
    assert (LEN : length (st_threads (JobQueueModel.step c (z_queue z) (Arrive (p_tag (q_params pr)) (p_batch (q_params pr))))) = S (length (st_threads (z_queue z)))).
    { cbn [JobQueueModel.step]. destruct (Nat.eqb_spec (p_batch (q_params pr)) 0); [lia|]. cbn [st_threads]. rewrite app_length. simpl. lia. }
    constructor; cbn [with_proc z_queue z_procs].
    + apply reachable_step. exact (z_reach _ _ I).
    + apply Forall_upd.
      * eapply Forall_impl; [|exact (z_proc _ _ I)]. intros. apply proc_queue_step; auto. exact (z_reach _ _ I).
      * apply proc_ask; auto; [exact (z_reach _ _ I)|]. unfold FromInv in FI. rewrite Forall_forall in FI. apply (FI pr). eapply nth_error_In; eauto.
    + rewrite LEN, seq_S. cbn [plus]. rewrite (flat_map_upd powned (z_procs z) i pr _ [length (st_threads (z_queue z))] E).
      * apply Permutation_app_tail. exact (z_owned _ _ I).
      * unfold powned. cbn [q_taken q_pending]. rewrite PE, app_nil_r. auto.
    + eapply first_upd; [exact (z_first _ _ I)|exact E|reflexivity|auto].
    + eapply order_upd; [apply order_queue; exact (z_order _ _ I)|exact E|reflexivity|congruence|]. intros O. exact (order_queue c _ _ _ (z_order _ _ I) i pr E O).
  - (* ZQueue *)
    constructor; cbn [z_queue z_procs].
    + apply reachable_step. exact (z_reach _ _ I).
    + eapply Forall_impl; [|exact (z_proc _ _ I)]. intros. apply proc_queue_step; auto. exact (z_reach _ _ I).
    + assert (LEN : length (st_threads (JobQueueModel.step c (z_queue z) (Step k))) = length (st_threads (z_queue z))).
      { cbn [JobQueueModel.step]. destruct (nth_error _ k) as [u|]; auto. destruct (thread_step _ _ _ _) as [[p' o'] pc']. cbn [st_threads]. apply upd_length. }
      rewrite LEN. exact (z_owned _ _ I).
    + exact (z_first _ _ I).
    + apply order_queue. exact (z_order _ _ I).
  - (* ZReply *)
    destruct (nth_error (z_procs z) i) as [pr|] eqn:E; auto. destruct (q_pending pr) as [k|] eqn:PE; auto.
    destruct (nth_error (st_threads (z_queue z)) k) as [t|] eqn:K; auto. destruct (answer_of c t) as [b|] eqn:AO; auto. destruct (q_gone pr) eqn:G; auto.
    assert (A : answer c (z_queue z) k = Some b) by (unfold answer; now rewrite K).
    assert (OE : powned {| q_params := q_params pr; q_gone := false; q_retry := q_retry pr; q_orderly := q_orderly pr; q_from := q_from pr; q_pending := None; q_taken := q_taken pr ++ [k]; q_runner := feed b (q_runner pr) |} = powned pr)
      by (unfold powned; cbn [q_taken q_pending]; now rewrite PE, app_nil_r).
    constructor; cbn [with_proc z_queue z_procs].
    + exact (z_reach _ _ I).
    + apply Forall_upd; [exact (z_proc _ _ I)|]. apply proc_reply; auto; [exact (z_reach _ _ I)| |eapply zin; eauto]. eapply powned_nodup; eauto. eapply nth_error_In; eauto.
    + eapply owned_same; [exact E|exact OE|exact (z_owned _ _ I)].
    + eapply first_upd; [exact (z_first _ _ I)|exact E|reflexivity|auto].
    + eapply order_upd; [exact (z_order _ _ I)|exact E|reflexivity|congruence|]. intros O. exact (z_order _ _ I i pr E O).
  - (* ZGo *)
    destruct (nth_error (z_procs z) i) as [pr|] eqn:E; auto. destruct (q_gone pr) eqn:G; auto.
    constructor; cbn [with_proc z_queue z_procs].
    + exact (z_reach _ _ I).
    + apply Forall_upd; [exact (z_proc _ _ I)|]. apply (proc_go c (z_queue z) pr e); auto; [exact (z_reach _ _ I)|eapply zin; eauto].
    + eapply owned_same; [exact E|reflexivity|exact (z_owned _ _ I)].
    + eapply first_upd; [exact (z_first _ _ I)|exact E|reflexivity|auto].
    + eapply order_upd; [exact (z_order _ _ I)|exact E|reflexivity|congruence|]. intros O. exact (z_order _ _ I i pr E O).
Qed.

Lemma reach_zinv c z : NoDup (tests_of c) -> zreaches c z -> ZInv c z.
Proof.
  intros ND (es & ->). assert (X : FromInv (run (zstep c) (zinit c) es) /\ ZInv c (run (zstep c) (zinit c) es)); [|tauto].
  apply (run_invariant (zstep c) (fun z => FromInv z /\ ZInv c z)).
  - intros z e [A B]. split; [now apply zstep_from|now apply zstep_inv].
  - split; [constructor|apply zinit_inv].
Qed.
