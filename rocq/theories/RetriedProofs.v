From Verif Require Import Base JobQueueModel JobQueueSpec JobQueueLemmas.
From Verif Require JobQueueProofs.
From Verif Require Import StatusModel FetchModel FetchSpec FetchProofs FetchAttempts RunnerModel RunnerSpec RunnerProofs RunnerLive SystemModel SystemSpec RunnerFeed SystemProofs SystemEnd SystemOrder.
From Verif Require Import RetriedModel RetriedSpec RetriedFlat.

Implicit Types (c : config nat) (st : JobQueueModel.state).

(* ---- which request a test went to ---- *)

Definition claims c st (k x : nat) : Prop :=
  exists s e i g, JobQueueProofs.range_of (length (cf_queue c)) (st_threads st) k = Some (s, e) /\ s <= i < e /\ nth_error (cf_queue c) i = Some (x, g).

Lemma range_stable c st ev k r : reachable c st ->
  JobQueueProofs.range_of (length (cf_queue c)) (st_threads st) k = Some r ->
  JobQueueProofs.range_of (length (cf_queue c)) (st_threads (JobQueueModel.step c st ev)) k = Some r.
Proof.
  intros RE. pose proof (reachable_inv _ _ RE) as I. unfold JobQueueProofs.range_of. destruct (nth_error (st_threads st) k) as [t|] eqn:K; [|discriminate].
  intros H. destruct ev as [who n|j]; cbn [JobQueueModel.step].
  - destruct (Nat.eqb n 0); [now rewrite K|]. cbn [st_threads]. rewrite nth_error_app1; [now rewrite K|]. apply nth_error_Some. congruence.
  - destruct (nth_error (st_threads st) j) as [u|] eqn:J; [|now rewrite K].
    destruct (thread_step c (st_ptr st) (st_owner st) u) as [[p' o'] pc'] eqn:TS. cbn [st_threads].
    destruct (Nat.eq_dec j k) as [->|NE]; [|rewrite nth_error_upd_neq by auto; now rewrite K].
    rewrite K in J. injection J as <-. rewrite nth_error_upd_eq by (apply nth_error_Some; congruence). cbn [th_n th_pc].
    pose proof (JobQueueProofs.inv_threads _ _ I k t K) as [_ OK]. unfold thread_step in TS.
    destruct (th_pc t) as [|start|s e i|s e|s e b|] eqn:P; cbn [JobQueueProofs.rng] in H |- *; try discriminate.
    + set (len := length (cf_queue c)) in *.
      destruct (Nat.ltb_spec len start) as [H1|H1]; [|destruct (Nat.ltb_spec len (start + th_n t)) as [H2|H2]];
        rewrite JobQueueProofs.enter_slice_ok in TS by lia; injection TS as _ _ <-; cbn [JobQueueProofs.rng]; rewrite <- H; f_equal; f_equal; lia.
    + destruct (Nat.ltb i e); injection TS as _ _ <-; exact H.
    + injection TS as _ _ <-. exact H.
    + injection TS as _ _ <-. exact H.
Qed.

Lemma claims_stable c st ev k x : reachable c st -> claims c st k x -> claims c (JobQueueModel.step c st ev) k x.
Proof. intros RE (s & e & i & g & R & B & N). exists s, e, i, g. split; auto. now apply range_stable. Qed.

Lemma range_in_log c st k r : reachable c st -> JobQueueProofs.range_of (length (cf_queue c)) (st_threads st) k = Some r -> In k (st_log st).
Proof.
  intros RE. unfold JobQueueProofs.range_of. destruct (nth_error (st_threads st) k) as [t|] eqn:K; [|discriminate]. intros H.
  apply (JobQueueProofs.inv_log _ _ (reachable_inv _ _ RE) k t K). intros E. rewrite E in H. discriminate.
Qed.

Lemma nth_tests c i x g : nth_error (cf_queue c) i = Some (x, g) -> nth_error (tests_of c) i = Some x.
Proof. intros H. unfold tests_of. now apply (map_nth_error fst) in H. Qed.

Lemma claims_unique c st j k x : reachable c st -> NoDup (tests_of c) -> claims c st j x -> claims c st k x -> j = k.
Proof.
  intros RE ND (s1 & e1 & i1 & g1 & R1 & B1 & N1) (s2 & e2 & i2 & g2 & R2 & B2 & N2).
  assert (i1 = i2) by (eapply NoDup_nth_unique; eauto using nth_tests). subst i2.
  destruct (Nat.eq_dec j k) as [|NE]; auto. exfalso. pose proof (reachable_inv _ _ RE) as I.
  destruct (JobQueueProofs.tiles_disjoint _ _ _ _ _ j k _ _ _ _ (JobQueueProofs.inv_tiles _ _ I) (JobQueueProofs.inv_nodup _ _ I) (range_in_log _ _ _ _ RE R1) (range_in_log _ _ _ _ RE R2) NE R1 R2); lia.
Qed.

Lemma answer_claims c st k b x : answer c st k = Some b -> (In x (response c st k) <-> claims c st k x).
Proof.
  intros A. apply answer_done in A as (t & s & e & K & P & _). unfold response, JobQueueModel.bundle, claims, JobQueueProofs.range_of. rewrite K, P. cbn [JobQueueProofs.rng].
  rewrite in_bundle. split.
  - intros (i & B & N). unfold tests_of in N. rewrite nth_error_map in N. destruct (nth_error (cf_queue c) i) as [[y g]|] eqn:Q; [|discriminate]. injection N as ->. exists s, e, i, g. auto.
  - intros (s' & e' & i & g & [= <- <-] & B & N). exists i. split; auto. eapply nth_tests; eauto.
Qed.

Lemma response_stable c st ev k b : answer c st k = Some b -> response c (JobQueueModel.step c st ev) k = response c st k.
Proof.
  intros A. pose proof (answer_stable c st ev k b A) as A'. destruct (answer_answered c st k b A) as (_ & _ & _ & W). destruct (answer_answered c _ k b A') as (_ & _ & _ & W').
  rewrite W in W'. apply (f_equal (map id_of)) in W'. rewrite !ids_fresh in W'. auto.
Qed.

Lemma responses_stable c st ev ks : answered_all c st ks -> flat_map (response c (JobQueueModel.step c st ev)) ks = flat_map (response c st) ks.
Proof. intros F. apply flat_map_ext_in. intros k K. unfold answered_all in F. rewrite Forall_forall in F. destruct (F k K) as (b & A). eapply response_stable; eauto. Qed.

Lemma partition_claims c st who x : reachable c st -> who <> TExternalClient -> In x (partition_for c st who) ->
  exists k, k < length (st_threads st) /\ claims c st k x /\ requester st k = Some who.
Proof.
  intros RE NX H. destruct (partition_upper c st who x RE NX H) as (k & t & s & e & i & g & K & T & R & B & N). exists k.
  split; [apply nth_error_Some; congruence|]. split; [exists s, e, i, g; unfold JobQueueProofs.range_of; now rewrite K|]. unfold requester. rewrite K. cbn. congruence.
Qed.

Lemma combine_filter_nodup {A} (f : tag -> bool) (o : list tag) (q : list (nat * A)) : NoDup (map fst q) ->
  NoDup (map (fun p => fst (snd p)) (filter (fun p => f (fst p)) (combine o q))).
Proof.
  revert o. induction q as [|[x g] q IH]; intros [|a o] N; try (constructor; fail). cbn [combine filter]. inversion N as [|? ? N1 N2]; subst. destruct (f (fst (a, (x, g)))); auto.
  cbn [map fst snd]. constructor; auto. intros H. apply in_map_iff in H as (p & E & H). apply filter_In in H as [H _]. apply N1. rewrite <- E.
  destruct p as [a' [x' g']]. apply in_combine_r in H. apply (in_map fst) in H. exact H.
Qed.

Lemma partition_nodup c st who : NoDup (tests_of c) -> NoDup (partition_for c st who).
Proof. intros N. unfold partition_for. apply (combine_filter_nodup (fun t => tag_eqb t who)). exact N. Qed.

(* ---- the invariant of a process ---- *)

Definition ids_of_proc (pr : proc) : list nat := match q_retry pr with Some (Some ids) => ids | _ => [] end.
Definition first_bundle (ids : list nat) : list reply := match ids with [] => [] | _ => [Bundle {| b_work := map fresh ids; b_eow := false |}] end.
Definition whole c st (pr : proc) : list reply := first_bundle (ids_of_proc pr) ++ script c st (q_taken pr).
Definition powned (pr : proc) : list nat := q_taken pr ++ match q_pending pr with Some k => [k] | None => [] end.
Definition raw (pr : proc) : list (list reply) := srcs (r_world (q_runner pr)).

Record ProcInv c st (pr : proc) : Prop := {
  p_ok : 1 <= p_batch (q_params pr) /\ 1 <= p_max (q_params pr) /\ tag_of pr <> TExternalClient;
  p_taken : answered_all c st (q_taken pr);
  p_nodup : NoDup (q_taken pr);
  p_run : exists es, flatr (q_runner pr) = run (rstep (p_batch (q_params pr))) (rinit [whole c st pr] (p_max (q_params pr))) es;
  p_tight : tight (r_world (flatr (q_runner pr)));
  p_raw : (q_retry pr = Some None /\ raw pr = [[]; []] /\ r_prod (q_runner pr) = PFetch /\ q_taken pr = [] /\ q_pending pr = None) \/
          (exists ids, q_retry pr = Some (Some ids) /\ raw pr = [[Bundle {| b_work := map fresh ids; b_eow := true |}]; []] /\
             r_prod (q_runner pr) = PFetch /\ q_taken pr = [] /\ q_pending pr = None) \/
          (q_retry pr <> Some None /\ length (raw pr) <= 1 /\
             ((raw pr = [[]] /\ Forall (goes_on c st) (q_taken pr)) \/
              (exists l k, q_taken pr = l ++ [k] /\ Forall (goes_on c st) l /\ q_pending pr = None /\
                 ((exists b, answer c st k = Some b /\ raw pr = [[Bundle b]] /\ r_prod (q_runner pr) = PFetch) \/
                  (ends c st k /\ raw pr = [])))));
  p_pend : forall k, q_pending pr = Some k -> k < length (st_threads st) /\ asking (q_runner pr) = true;
  p_ids : NoDup (ids_of_proc pr);
  p_claims : forall x, In x (ids_of_proc pr) -> exists k, k < q_from pr /\ claims c st k x /\ requester st k = Some (tag_of pr);
  p_from : forall k, In k (powned pr) -> q_from pr <= k;
  p_tags : forall k, In k (powned pr) -> requester st k = Some (tag_of pr)
}.

Lemma proc_rshape c st pr : ProcInv c st pr -> rshape (raw pr).
Proof. intros I. destruct (p_raw _ _ _ I) as [(_ & R & _)|[(ids & _ & R & _)|(_ & L & _)]]; [left; auto|right; left; eauto|right; right; auto]. Qed.

Lemma proc_one_last c st pr : ProcInv c st pr -> one_last c st (q_taken pr).
Proof.
  intros I. destruct (p_raw _ _ _ I) as [(_ & _ & _ & T & _)|[(ids & _ & _ & _ & T & _)|(_ & _ & [(_ & F)|(l & k & E & F & _ & [(b & A & _)|(D & _)])])]].
  - left. rewrite T. constructor.
  - left. rewrite T. constructor.
  - left; auto.
  - rewrite E. destruct (b_eow b) eqn:BE.
    + right. exists l, k. split; auto. split; auto. exists b. auto.
    + left. apply Forall_app. split; auto. constructor; [|constructor]. exists b. auto.
  - right; eauto.
Qed.

Lemma served_first ids rest : fst (served (first_bundle ids ++ rest)) = map fresh ids ++ fst (served rest) /\ snd (served (first_bundle ids ++ rest)) = snd (served rest).
Proof. destruct ids as [|x ids]; [cbn; auto|]. cbn [first_bundle app served b_eow b_work]. destruct (served rest) as [w e]. auto. Qed.

Definition tests_got c st (pr : proc) : list nat := ids_of_proc pr ++ flat_map (response c st) (q_taken pr).

Lemma whole_tests c st pr : ProcInv c st pr -> source_tests [whole c st pr] = map fresh (tests_got c st pr).
Proof.
  intros I. destruct (script_tests c st (q_taken pr) (proc_one_last c st pr I)) as [E _]. unfold tests_got, whole.
  assert (ONE : forall x, source_tests [x] = fst (served x)) by (intros x; cbn [source_tests]; destruct (served x) as [ts [|]]; now rewrite app_nil_r).
  rewrite ONE in *. destruct (served_first (ids_of_proc pr) (script c st (q_taken pr))) as [SF _]. rewrite SF, E, map_app. reflexivity.
Qed.

Lemma got_nodup_proc c st pr : reachable c st -> NoDup (tests_of c) -> ProcInv c st pr -> NoDup (tests_got c st pr).
Proof.
  intros RE ND I. unfold tests_got. apply NoDup_app_intro.
  - exact (p_ids _ _ _ I).
  - apply responses_nodup; auto; [exact (p_taken _ _ _ I)|exact (p_nodup _ _ _ I)].
  - intros x X Y. destruct (p_claims _ _ _ I x X) as (k & LT & C & _). apply in_flat_map in Y as (j & J & Y).
    pose proof (p_taken _ _ _ I) as F. unfold answered_all in F. rewrite Forall_forall in F. destruct (F j J) as (b & A). apply (answer_claims c st j b x A) in Y.
    assert (k = j) by (eapply claims_unique; eauto). subst j. assert (q_from pr <= k) by (apply (p_from _ _ _ I); unfold powned; apply in_or_app; auto). lia.
Qed.

Lemma whole_proper c st pr : reachable c st -> NoDup (tests_of c) -> ProcInv c st pr -> proper [whole c st pr].
Proof.
  intros RE ND I. split; [discriminate|]. rewrite (whole_tests c st pr I). split.
  - rewrite ids_fresh. now apply got_nodup_proc.
  - apply Forall_forall. intros t X. apply in_map_iff in X as (x & <- & _). auto.
Qed.

Lemma whole_ok c st pr : reachable c st -> Forall ok_reply (whole c st pr).
Proof.
  intros RE. unfold whole. apply Forall_app. split; [|now apply script_ok]. unfold first_bundle. destruct (ids_of_proc pr); [constructor|]. constructor; [|constructor]. left. discriminate.
Qed.

Lemma proc_rinv c st pr : reachable c st -> NoDup (tests_of c) -> ProcInv c st pr ->
  RInv [whole c st pr] (p_max (q_params pr)) (p_batch (q_params pr)) (flatr (q_runner pr)).
Proof.
  intros RE ND I. destruct (p_ok _ _ _ I) as (B & M & _). destruct (p_run _ _ _ I) as (es & ->). apply reach_rinv; auto. now apply whole_proper.
Qed.

Lemma whole_stable c st ev pr : answered_all c st (q_taken pr) -> whole c (JobQueueModel.step c st ev) pr = whole c st pr.
Proof. intros A. unfold whole. now rewrite script_stable. Qed.

Lemma proc_queue_step c st ev pr : reachable c st -> ProcInv c st pr -> ProcInv c (JobQueueModel.step c st ev) pr.
Proof.
  intros RE [OK T N R TI RW P ID CL FR TG].
  assert (GO : forall k, goes_on c st k -> goes_on c (JobQueueModel.step c st ev) k) by (intros k (b & A & B); exists b; split; auto; now apply answer_stable).
  constructor; auto.
  - eapply Forall_impl; [|exact T]. simpl. intros k (b & A). exists b. now apply answer_stable.
  - rewrite whole_stable; auto.
  - destruct RW as [RW|[RW|(NR & L & W)]]; auto. right; right. split; auto. split; auto. destruct W as [(A & B)|(l & k & A & B & C & D)]; [left|right].
    + split; auto. eapply Forall_impl; [|exact B]. auto.
    + exists l, k. split; auto. split; [eapply Forall_impl; [|exact B]; auto|]. split; auto. destruct D as [(b & D1 & D2 & D3)|((b & D1 & D2) & D3)]; [left|right].
      * exists b. split; auto. now apply answer_stable.
      * split; auto. exists b. split; auto. now apply answer_stable.
  - intros k K. destruct (P k K). split; auto. pose proof (threads_grow c st ev). lia.
  - intros x X. destruct (CL x X) as (k & A & B & C). exists k. split; auto. split; [now apply claims_stable|now apply requester_stable].
  - intros k K. apply requester_stable. auto.
Qed.

(* What a step does to the sources of a process. *)
Lemma raw_step batch s e : rshape (srcs (r_world s)) -> w_panicked (r_world s) = false -> (r_prod s = PFetch -> w_ended (r_world s) = false) ->
  length (srcs (r_world s)) = 2 ->
  r_prod s = PFetch ->
  let s' := rstep batch s e in
  (srcs (r_world s') = srcs (r_world s) /\ r_prod s' = PFetch) \/
  (e = Producer /\ exists b, srcs (r_world s) = [[Bundle b]; []] /\ srcs (r_world s') = [[]]).
Proof.
  intros SH NP EN L PF. cbv zeta. destruct e as [|o|].
  - cbn [rstep]. unfold step_producer. rewrite PF, (EN PF). destruct SH as [SH|[(b & SH & BE)|SH]]; [| |lia].
    + left. assert (F : fstep (r_world s) Fetch = r_world s).
      { unfold fstep. rewrite NP, (EN PF). unfold fetch_next_tests. rewrite SH. cbn [concat app length fetch_loop]. rewrite SH. specialize (EN PF). destruct (r_world s) as [f a rs en pa]. cbn in *. now subst. }
      rewrite F, skipn_all, (EN PF). cbn [set_prod r_world r_prod]. auto.
    + right. split; auto. exists b. split; auto.
      assert (F : srcs (fstep (r_world s) Fetch) = [[]]).
      { unfold fstep. rewrite NP, (EN PF). unfold fetch_next_tests. rewrite SH. cbn [concat app length fetch_loop]. rewrite SH, BE. cbn [is_nil negb andb]. cbv zeta.
        destruct (b_work b) as [|w ws]; cbn [is_nil andb negb]; [cbn [fetch_loop f_sources]; reflexivity|].
        unfold hydrate_slice. destruct (hydrate_items _ _); reflexivity. }
      destruct (skipn _ _); cbn [set_prod r_world]; exact F.
  - left. destruct (step_frame batch s (Task o)) as (A1 & A2 & A3); [discriminate|]. split; congruence.
  - left. destruct (step_frame batch s Sender) as (A1 & A2 & A3); [discriminate|]. split; congruence.
Qed.

Lemma proc_go c st pr e (pr' : proc) : reachable c st -> NoDup (tests_of c) -> ProcInv c st pr ->
  q_params pr' = q_params pr -> q_retry pr' = q_retry pr -> q_from pr' = q_from pr -> q_pending pr' = q_pending pr -> q_taken pr' = q_taken pr ->
  q_runner pr' = rstep (p_batch (q_params pr)) (q_runner pr) e -> ProcInv c st pr'.
Proof.
  intros RE ND I E1 E2 E3 E4 E5 E6. pose proof (proc_rinv c st pr RE ND I) as R. pose proof (proc_rshape c st pr I) as RS.
  destruct I as [OK T N (es & RU) TI RW P ID CL FR TG].
  assert (EI : ids_of_proc pr' = ids_of_proc pr) by (unfold ids_of_proc; now rewrite E2).
  assert (EW : whole c st pr' = whole c st pr) by (unfold whole; now rewrite EI, E5).
  assert (EO : powned pr' = powned pr) by (unfold powned; now rewrite E4, E5).
  assert (ET : tag_of pr' = tag_of pr) by (unfold tag_of; now rewrite E1).
  set (s := q_runner pr) in *. unfold raw in *. fold s in RS, RW. set (s' := rstep (p_batch (q_params pr)) s e) in *.
  destruct (rstep_flat (p_batch (q_params pr)) s e RS) as [RS' FL]. fold s' in RS', FL.
  assert (NP : w_panicked (r_world s) = false) by (change (w_panicked (r_world (flatr s)) = false); destruct (v_hist _ _ _ _ R) as (es0 & IO & ->); apply (hist_no_panic _ _ (whole_proper c st pr RE ND (Build_ProcInv c st pr OK T N (ex_intro _ es RU) TI RW P ID CL FR TG))); [exact (proj1 (proj2 OK))|auto]).
  assert (EN : r_prod s = PFetch -> w_ended (r_world s) = false) by exact (v_fetch _ _ _ _ R).
  assert (Q : tight (r_world (flatr s')) /\
              match e, r_prod s, srcs (r_world (flatr s)) with
              | Producer, PFetch, [[]] => flatr s' = flatr s
              | Producer, PFetch, [Bundle b :: x] => srcs (r_world (flatr s')) = if b_eow b then [] else [x]
              | Producer, _, _ => srcs (r_world (flatr s')) = srcs (r_world (flatr s))
              | _, _, _ => srcs (r_world (flatr s')) = srcs (r_world (flatr s)) /\ r_prod (flatr s') = r_prod s
              end).
  { rewrite <- FL. destruct e as [|o|].
    - exact (producer_srcs (p_batch (q_params pr)) (flatr s) NP (v_fetch _ _ _ _ R) TI).
    - destruct (step_frame (p_batch (q_params pr)) (flatr s) (Task o)) as (A1 & A2 & A3); [discriminate|]. split; auto. unfold tight. now rewrite A2, A3.
    - destruct (step_frame (p_batch (q_params pr)) (flatr s) Sender) as (A1 & A2 & A3); [discriminate|]. split; auto. unfold tight. now rewrite A2, A3. }
  destruct Q as [TI' Q].
  assert (FS : forall u, length (srcs (r_world u)) <= 1 -> srcs (r_world (flatr u)) = srcs (r_world u)) by (intros u LU; rewrite flat_srcs; now apply flats_short).
  constructor; rewrite ?E1, ?E2, ?E3, ?E4, ?E5, ?EI, ?EW, ?EO, ?ET; auto.
  - exists (es ++ [e]). rewrite E6. rewrite run_app, <- RU, <- FL. reflexivity.
  - rewrite E6. exact TI'.
  - unfold raw. rewrite E6. fold s'. destruct RW as [(A & B & C & D & F)|[(ids & A & B & C & D & F)|(NR & L & W)]].
    + destruct (raw_step (p_batch (q_params pr)) s e RS NP EN) as [(X & Y)|(_ & b & X & _)]; [now rewrite B|auto| |].
      * left. fold s' in X, Y. rewrite X. auto.
      * congruence.
    + destruct (raw_step (p_batch (q_params pr)) s e RS NP EN) as [(X & Y)|(_ & b & X & Y)]; [now rewrite B|auto| |]; fold s' in X, Y.
      * right; left. exists ids. rewrite X. auto.
      * right; right. rewrite A. split; [discriminate|]. fold s' in Y. rewrite Y. split; [cbn; lia|]. left. split; auto. rewrite D. constructor.
    + right; right. split; auto.
      assert (LS : length (srcs (r_world s')) <= 1).
      { destruct e as [|o|].
        - unfold s'. cbn [rstep]. unfold step_producer. destruct (r_prod s) as [|[|m ms] c0| |]; cbn [set_prod r_world]; auto.
          + rewrite (EN eq_refl). assert (LF : length (srcs (fstep (r_world s) Fetch)) <= 1).
            { unfold fstep. rewrite NP, (EN eq_refl). pose proof (fetch_loop_short (S (S (length (concat (srcs (r_world s)))))) (w_fetcher (r_world s)) L) as X.
              unfold fetch_next_tests. destruct (fetch_loop _ _) as [f' [b| | | |]]; exact X. }
            destruct (skipn _ _); exact LF.
          + destruct (negb _); cbn [set_prod r_world]; auto. destruct (Nat.ltb _ _); auto.
          + destruct (r_refills s); [destruct (r_refill_open s)|]; auto.
        - destruct (step_frame (p_batch (q_params pr)) s (Task o)) as (A1 & A2 & A3); [discriminate|]. fold s' in A2. now rewrite A2.
        - destruct (step_frame (p_batch (q_params pr)) s Sender) as (A1 & A2 & A3); [discriminate|]. fold s' in A2. now rewrite A2. }
      split; auto. rewrite (FS s L), (FS s' LS) in Q. change (r_prod (flatr s')) with (r_prod s') in Q.
      destruct W as [(A & F)|(l & k & A & F & PN & [(b & D1 & D2 & D3)|(D1 & D2)])].
      * left. split; auto. destruct e as [|o|]; [|destruct Q as [Q _]; congruence|destruct Q as [Q _]; congruence].
        rewrite A in Q. destruct (r_prod s); try congruence. rewrite <- (FS s' LS), Q, (FS s L). auto.
      * rewrite D3, D2 in Q. destruct e as [|o|].
        -- destruct (b_eow b) eqn:BE.
           ++ right. exists l, k. split; auto. split; auto. split; auto. right. split; auto. exists b; auto.
           ++ left. split; auto. rewrite A. apply Forall_app. split; auto. constructor; [|constructor]. exists b; auto.
        -- right. exists l, k. split; auto. split; auto. split; auto. left. exists b. destruct Q. auto.
        -- right. exists l, k. split; auto. split; auto. split; auto. left. exists b. destruct Q. auto.
      * right. exists l, k. split; auto. split; auto. split; auto. right. split; auto.
        rewrite D2 in Q. destruct e as [|o|]; [destruct (r_prod s); auto|destruct Q; auto|destruct Q; auto].
  - rewrite E6. fold s'. intros k K. destruct (P k K) as [P1 P2]. split; auto. apply asking_iff in P2 as [P2 P3].
    assert (LS : length (srcs (r_world s)) <= 1) by (rewrite P3; cbn; lia). rewrite (FS s LS) in Q.
    destruct e as [|o|].
    + rewrite P2, P3 in Q. rewrite (flatr_same s LS) in Q.
      assert (L' : length (srcs (r_world s')) <= 1).
      { destruct RS' as [X|[(b & X & _)|X]]; auto; exfalso; assert (Z : srcs (r_world (flatr s')) = [[]]) by (rewrite Q; exact P3).
        - clear -P2 P3 NP EN X. unfold s' in X. cbn [rstep] in X. unfold step_producer in X. rewrite P2, (EN P2) in X. unfold fstep in X. rewrite NP, (EN P2) in X. unfold fetch_next_tests in X. rewrite P3 in X. cbn [concat length fetch_loop] in X. rewrite P3 in X. cbn [w_answers] in X. rewrite skipn_all in X. cbn [set_prod r_world w_fetcher] in X. rewrite P3 in X. discriminate.
        - clear -P2 P3 NP EN X. unfold s' in X. cbn [rstep] in X. unfold step_producer in X. rewrite P2, (EN P2) in X. unfold fstep in X. rewrite NP, (EN P2) in X. unfold fetch_next_tests in X. rewrite P3 in X. cbn [concat length fetch_loop] in X. rewrite P3 in X. cbn [w_answers] in X. rewrite skipn_all in X. cbn [set_prod r_world w_fetcher] in X. rewrite P3 in X. discriminate. }
      rewrite (flatr_same s' L') in Q. rewrite Q. apply asking_iff; auto.
    + destruct (step_frame (p_batch (q_params pr)) s (Task o)) as (A1 & A2 & A3); [discriminate|]. fold s' in A1, A2. apply asking_iff. split; congruence.
    + destruct (step_frame (p_batch (q_params pr)) s Sender) as (A1 & A2 & A3); [discriminate|]. fold s' in A1, A2. apply asking_iff. split; congruence.
Qed.
