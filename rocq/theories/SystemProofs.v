From Verif Require Import Base JobQueueModel JobQueueSpec JobQueueLemmas.
From Verif Require Import StatusModel FetchModel FetchSpec FetchProofs FetchAttempts RunnerModel RunnerSpec RunnerProofs RunnerLive SystemModel SystemSpec RunnerFeed.

(* ---- the queue's answers ---- *)

Implicit Types (c : config nat) (st : JobQueueModel.state).

Definition answer (c : config nat) (st : JobQueueModel.state) (k : nat) : option FetchModel.bundle :=
  match nth_error (st_threads st) k with Some t => answer_of c t | None => None end.
Definition script (c : config nat) (st : JobQueueModel.state) (ks : list nat) : list reply :=
  flat_map (fun k => match answer c st k with Some b => [Bundle b] | None => [] end) ks.

Lemma answer_done c st k b : answer c st k = Some b <->
  exists t s e, nth_error (st_threads st) k = Some t /\ th_pc t = PDone s e (b_eow b) /\
    b = {| b_work := map fresh (map fst (slice (cf_queue c) s e)); b_eow := b_eow b |}.
Proof.
  unfold answer, answer_of. split.
  - destruct (nth_error (st_threads st) k) as [t|] eqn:K; [|discriminate]. unfold eow_of, status_of. destruct (th_pc t) as [| | | |s e d|] eqn:P; try discriminate.
    assert (B : JobQueueModel.bundle c t = map fst (slice (cf_queue c) s e)) by (unfold JobQueueModel.bundle; now rewrite P).
    destruct d; cbn [option_map reached_end_of_tests]; rewrite ?B.
    + intros E. exists t, s, e. assert (X : b = {| b_work := map fresh (map fst (slice (cf_queue c) s e)); b_eow := true |}) by (destruct (map fst _); injection E as <-; reflexivity).
      rewrite X. cbn [b_eow]. auto.
    + intros [= <-]. exists t, s, e. auto.
  - intros (t & s & e & K & P & E). rewrite K. unfold eow_of, status_of. rewrite P.
    assert (B : JobQueueModel.bundle c t = map fst (slice (cf_queue c) s e)) by (unfold JobQueueModel.bundle; now rewrite P). rewrite B.
    destruct (b_eow b); cbn [option_map reached_end_of_tests]; rewrite E; cbn [b_eow]; [destruct (map fst _); reflexivity|reflexivity].
Qed.

Lemma answer_answered c st k b : answer c st k = Some b ->
  exists who n, answered c st k who n (response c st k) (b_eow b) /\ b_work b = map fresh (response c st k).
Proof.
  intros A. apply answer_done in A as (t & s & e & K & P & E). exists (th_tag t), (th_n t).
  pose proof (done_answered c st k t s e _ K P) as D.
  assert (R : response c st k = map fst (slice (cf_queue c) s e)) by (unfold response, JobQueueModel.bundle; now rewrite K, P).
  rewrite R. split; auto. now rewrite E.
Qed.

Lemma answer_stable c st ev k b : answer c st k = Some b -> answer c (JobQueueModel.step c st ev) k = Some b.
Proof.
  intros A. apply answer_done in A as (t & s & e & K & P & E). apply answer_done. exists t, s, e. split; auto.
  destruct ev as [who n|j]; simpl.
  - destruct (Nat.eqb n 0); auto. cbn [st_threads]. rewrite nth_error_app1; auto. apply nth_error_Some. congruence.
  - destruct (nth_error (st_threads st) j) as [u|] eqn:J; auto. destruct (Nat.eq_dec j k) as [->|N].
    + rewrite K in J. injection J as <-. unfold thread_step. rewrite P. cbn [st_threads]. rewrite nth_error_upd_eq; [|apply nth_error_Some; congruence].
      rewrite <- P. now destruct t.
    + destruct (thread_step c (st_ptr st) (st_owner st) u) as [[p' o'] pc']. cbn [st_threads]. rewrite nth_error_upd_neq; auto.
Qed.

Lemma threads_grow c st ev : length (st_threads st) <= length (st_threads (JobQueueModel.step c st ev)).
Proof.
  destruct ev as [who n|j]; simpl.
  - destruct (Nat.eqb n 0); auto. cbn [st_threads]. rewrite app_length. lia.
  - destruct (nth_error (st_threads st) j) as [u|]; auto. destruct (thread_step _ _ _ _) as [[p' o'] pc']. cbn [st_threads]. now rewrite upd_length.
Qed.

Definition answered_all (c : config nat) st (ks : list nat) : Prop := Forall (fun k => exists b, answer c st k = Some b) ks.
Definition goes_on (c : config nat) st (k : nat) : Prop := exists b, answer c st k = Some b /\ b_eow b = false.
Definition ends (c : config nat) st (k : nat) : Prop := exists b, answer c st k = Some b /\ b_eow b = true.

Lemma script_stable c st ev ks : answered_all c st ks -> script c (JobQueueModel.step c st ev) ks = script c st ks.
Proof.
  induction 1 as [|k ks (b & A) _ IH]; auto. unfold script in *. cbn [flat_map]. now rewrite IH, (answer_stable c st ev k b A), A.
Qed.

Lemma script_app c st k1 k2 : script c st (k1 ++ k2) = script c st k1 ++ script c st k2.
Proof. apply flat_map_app. Qed.
Lemma script_one c st k b : answer c st k = Some b -> script c st [k] = [Bundle b].
Proof. intros A. unfold script. cbn [flat_map]. now rewrite A. Qed.

Lemma script_ok c st ks : reachable c st -> Forall ok_reply (script c st ks).
Proof.
  intros R. apply Forall_forall. intros r I. apply in_flat_map in I as (k & _ & I). destruct (answer c st k) as [b|] eqn:A; [|destruct I].
  destruct I as [<-|[]]. cbn [ok_reply]. destruct (b_eow b) eqn:E; auto. left.
  destruct (answer_answered c st k b A) as (who & n & D & W). rewrite E in D. apply (not_eow_nonempty c st k who n _ R) in D. rewrite W.
  destruct (response c st k); [congruence|discriminate].
Qed.

Definition one_last (c : config nat) st (ks : list nat) : Prop :=
  Forall (goes_on c st) ks \/ exists l k, ks = l ++ [k] /\ Forall (goes_on c st) l /\ ends c st k.

Lemma served_goes_on c st l rest : Forall (goes_on c st) l ->
  served (script c st l ++ rest) = (map fresh (flat_map (response c st) l) ++ fst (served rest), snd (served rest)).
Proof.
  induction 1 as [|k l (b & A & E) _ IH]; [cbn [script flat_map app map]; now destruct (served rest)|].
  unfold script in *. cbn [flat_map]. rewrite A. cbn [app served]. rewrite E, IH. destruct (answer_answered c st k b A) as (_ & _ & _ & W).
  rewrite W, map_app, <- app_assoc. reflexivity.
Qed.

Lemma script_tests c st ks : one_last c st ks ->
  source_tests [script c st ks] = map fresh (flat_map (response c st) ks) /\ (Forall (goes_on c st) ks \/ complete [script c st ks]).
Proof.
  intros [F|(l & k & -> & F & b & A & E)]; cbn [source_tests].
  - rewrite <- (app_nil_r (script c st ks)), (served_goes_on c st ks [] F). cbn [served fst snd]. rewrite !app_nil_r. auto.
  - rewrite script_app, (script_one c st k b A), (served_goes_on c st l [Bundle b] F). cbn [served]. rewrite E. cbn [fst snd].
    destruct (answer_answered c st k b A) as (_ & _ & _ & W). rewrite app_nil_r, W, flat_map_app, map_app. cbn [flat_map]. rewrite app_nil_r. split; auto.
    right. constructor; [|constructor]. rewrite (served_goes_on c st l [Bundle b] F). cbn [snd served]. now rewrite E.
Qed.

Lemma responses_nodup c st ks : reachable c st -> NoDup (tests_of c) -> answered_all c st ks -> NoDup ks -> NoDup (flat_map (response c st) ks).
Proof.
  intros R ND. induction 1 as [|k ks (b & A) F IH]; intros N; [constructor|]. inversion N as [|? ? N1 N2]; subst. cbn [flat_map].
  destruct (answer_answered c st k b A) as (who & n & D & _). apply NoDup_app_intro; [exact (response_nodup c st k who n _ _ ND D)|auto|].
  intros x X Y. apply in_flat_map in Y as (j & J & Y). rewrite Forall_forall in F. destruct (F j J) as (b' & A').
  destruct (answer_answered c st j b' A') as (who' & n' & D' & _).
  refine (no_test_twice c st k j _ _ _ _ _ _ _ _ R ND _ D D' x X Y). intros ->. contradiction.
Qed.

Lemma ids_fresh l : map id_of (map fresh l) = l.
Proof. rewrite map_map. rewrite <- (map_id l) at 2. reflexivity. Qed.

Lemma script_proper c st ks : reachable c st -> NoDup (tests_of c) -> answered_all c st ks -> NoDup ks -> one_last c st ks ->
  proper [script c st ks].
Proof.
  intros R ND A N O. destruct (script_tests c st ks O) as [E _]. split; [discriminate|]. rewrite E. split.
  - rewrite ids_fresh. now apply responses_nodup.
  - apply Forall_forall. intros t I. apply in_map_iff in I as (x & <- & _). auto.
Qed.

(* ---- where a runner's source is ---- *)

Definition tight (w : world) : Prop := shape (srcs w) /\ (w_ended w = true -> srcs w = []).

Lemma retries_frame f : f_sources (fst (fetch_retries f)) = f_sources f.
Proof. unfold fetch_retries. destruct (try_assemble _) as [t [b|]]; reflexivity. Qed.

Lemma fetch_srcs w : w_panicked w = false -> w_ended w = false -> shape (srcs w) ->
  tight (fstep w Fetch) /\
  ((srcs w = [[]] /\ fstep w Fetch = w) \/ (srcs w = [] /\ srcs (fstep w Fetch) = []) \/
   exists b x, srcs w = [Bundle b :: x] /\ srcs (fstep w Fetch) = if b_eow b then [] else [x]).
Proof.
  intros P E SH. unfold fstep. rewrite P, E. destruct (fetch_next_tests (w_fetcher w)) as [f' r] eqn:F.
  destruct (fetch_shape (w_fetcher w) SH) as [(A & B)|[(A & B)|(b & x & A & B)]].
  - rewrite F in B. injection B as -> ->. split; [split; [exact SH|discriminate]|]. left. split; auto. destruct w as [f a rs en pa]. cbn in *. now subst.
  - rewrite F in B. pose proof (retries_frame (w_fetcher w)) as RF. rewrite <- B in RF. cbn [fst] in RF. rewrite A in RF.
    destruct r; cbn [w_fetcher w_ended]; (split; [split; [left; exact RF|auto]|]); right; left; auto.
  - specialize (B []). rewrite growf_nil, F, app_nil_r in B. cbv zeta in B.
    assert (FX : Forall ok_reply x) by (destruct SH as [SH|(y & SH & FO)]; rewrite A in SH; [discriminate|]; injection SH as <-; now inversion FO).
    assert (SS : shape (if b_eow b then [] else [x])) by (destruct (b_eow b); [left|right]; eauto).
    assert (S1 : f_sources f' = if b_eow b then [] else [x]).
    { destruct (hydrate_slice _ _ _) as [[t h]|] eqn:HS; [|injection B as -> ->; reflexivity]. destruct h; try (injection B as -> ->; reflexivity).
      destruct (is_nil (b_work b)); [|injection B as -> ->; reflexivity]. destruct (b_eow b) eqn:BE; [|injection B as -> ->; reflexivity].
      pose proof (retries_frame {| f_sources := []; f_retry := t |}) as RF. rewrite <- B in RF. exact RF. }
    assert (S2 : forall b0, r = Tests b0 -> b_eow b0 = true -> f_sources f' = []).
    { intros b0 -> B0. destruct (hydrate_slice _ _ _) as [[t h]|] eqn:HS; [|discriminate]. destruct h.
      - injection B as -> ->. cbn [b_eow] in B0. cbn [f_sources]. now rewrite B0.
      - injection B as -> ->. cbn [b_eow] in B0. cbn [f_sources]. now rewrite B0.
      - destruct (is_nil (b_work b)); [|injection B as -> ->; discriminate]. destruct (b_eow b) eqn:BE; [|discriminate]. exact S1. }
    assert (S3 : r <> FetchError).
    { intros ->. destruct (hydrate_slice _ _ _) as [[t h]|] eqn:HS; [|discriminate]. destruct h; try discriminate. destruct (is_nil _); [|discriminate].
      destruct (b_eow b); [|discriminate]. unfold fetch_retries in B. destruct (try_assemble _) as [t' [b'|]]; discriminate. }
    destruct r; cbn [w_fetcher w_ended]; try congruence;
      (split; [split; cbn [w_fetcher w_ended]; [rewrite S1; exact SS|try discriminate; intros K; exact (S2 _ eq_refl K)]|]); right; right; exists b, x; auto.
Qed.

Lemma step_frame batch s e : e <> Producer -> r_prod (rstep batch s e) = r_prod s /\ srcs (r_world (rstep batch s e)) = srcs (r_world s) /\ w_ended (r_world (rstep batch s e)) = w_ended (r_world s).
Proof.
  intros N. destruct e as [|o|]; [congruence| |]; cbn [rstep].
  - unfold step_task. destruct (r_task s) as [| |t|t|m|t rem|[|r rs]|c|]; auto.
    + destruct (r_chan s) as [|[n|t|] ch]; auto. destruct (is_exited _); auto.
    + destruct (r_chan s) as [|[n|t|] ch]; auto. destruct (is_exited _); auto.
    + destruct (is_exited _); auto. destruct (Nat.ltb _ _); auto.
    + destruct o; auto.
    + destruct (Nat.ltb _ _); auto.
    + destruct (r_chan s) as [|[n|u|] ch]; auto. destruct (is_exited _); auto.
    + destruct (Nat.ltb _ _); auto.
  - assert (SB : forall rs buf fin, r_prod (send_buffer s rs buf fin) = r_prod s /\ srcs (r_world (send_buffer s rs buf fin)) = srcs (r_world s) /\ w_ended (r_world (send_buffer s rs buf fin)) = w_ended (r_world s)).
    { intros. split; auto. destruct (account_same (r_world s) buf) as [_ A]. split; [exact A|]. unfold send_buffer. cbn [set_sender r_world]. unfold fstep. destruct (w_panicked _); auto. destruct (account_results _ _); auto. }
    unfold step_sender. destruct (r_sender_done s); auto. destruct (r_results s) as [|[r|] rs]; cbv zeta.
    + destruct (r_task s); auto. destruct (r_buffer s); auto.
    + destruct (Nat.leb _ _); auto.
    + destruct (r_buffer s); auto.
Qed.

(* What the producer does to the sources. *)
Lemma producer_srcs batch s : w_panicked (r_world s) = false -> (r_prod s = PFetch -> w_ended (r_world s) = false) -> tight (r_world s) ->
  let s' := rstep batch s Producer in
  tight (r_world s') /\
  match r_prod s, srcs (r_world s) with
  | PFetch, [[]] => s' = s
  | PFetch, [Bundle b :: x] => srcs (r_world s') = if b_eow b then [] else [x]
  | _, _ => srcs (r_world s') = srcs (r_world s)
  end.
Proof.
  intros P EN TI. cbn [rstep]. unfold step_producer. destruct (r_prod s) as [|[|m ms] c0| |] eqn:PR.
  - rewrite (EN eq_refl). destruct (fetch_srcs (r_world s) P (EN eq_refl) (proj1 TI)) as (TI' & [(A & B)|[(A & B)|(b & x & A & B)]]).
    + rewrite B, skipn_all, (EN eq_refl), A. split; [exact TI|]. destruct s; cbn in *; now subst.
    + rewrite A. cbv zeta. destruct (skipn _ _); cbn [set_prod r_world]; auto.
    + rewrite A. cbv zeta. destruct (skipn _ _); cbn [set_prod r_world]; auto.
  - auto.
  - destruct (negb _); auto. destruct (Nat.ltb _ _); auto.
  - destruct (r_refills s); auto. destruct (r_refill_open s); auto.
  - auto.
Qed.

(* ---- the invariant ---- *)

Record SlotInv (c : config nat) (st : JobQueueModel.state) (sl : slot) : Prop := {
  s_taken : answered_all c st (sl_taken sl);
  s_nodup : NoDup (sl_taken sl);
  s_run : exists es, sl_runner sl = run (rstep (p_batch (sl_params sl))) (rinit [script c st (sl_taken sl)] (p_max (sl_params sl))) es;
  s_tight : tight (r_world (sl_runner sl));
  s_where : (srcs (r_world (sl_runner sl)) = [[]] /\ Forall (goes_on c st) (sl_taken sl)) \/
            (exists l k, sl_taken sl = l ++ [k] /\ Forall (goes_on c st) l /\ sl_pending sl = None /\
               ((exists b, answer c st k = Some b /\ srcs (r_world (sl_runner sl)) = [[Bundle b]] /\ r_prod (sl_runner sl) = PFetch) \/
                (ends c st k /\ srcs (r_world (sl_runner sl)) = [])));
  s_pend : forall k, sl_pending sl = Some k -> k < length (st_threads st) /\ asking (sl_runner sl) = true
}.

Definition owned (sl : slot) : list nat := sl_taken sl ++ match sl_pending sl with Some k => [k] | None => [] end.

Record SInv (c : config nat) (ps : list params) (y : system) : Prop := {
  y_reach : reachable c (y_queue y);
  y_params : map sl_params (y_slots y) = ps;
  y_slot : Forall (SlotInv c (y_queue y)) (y_slots y);
  y_owned : Permutation (flat_map owned (y_slots y)) (seq 0 (length (st_threads (y_queue y))))
}.

Lemma slot_one_last c st sl : SlotInv c st sl -> one_last c st (sl_taken sl).
Proof.
  intros I. destruct (s_where _ _ _ I) as [(_ & F)|(l & k & E & F & _ & [(b & A & _)|(D & _)])]; [left; auto| |right; eauto].
  rewrite E. destruct (b_eow b) eqn:BE.
  - right. exists l, k. split; auto. split; auto. exists b. auto.
  - left. apply Forall_app. split; auto. constructor; [|constructor]. exists b. auto.
Qed.

Lemma slot_rinv c ps y sl : sound c ps -> reachable c (y_queue y) -> In (sl_params sl) ps -> SlotInv c (y_queue y) sl ->
  proper [script c (y_queue y) (sl_taken sl)] /\ 1 <= p_max (sl_params sl) /\ 1 <= p_batch (sl_params sl) /\
  RInv [script c (y_queue y) (sl_taken sl)] (p_max (sl_params sl)) (p_batch (sl_params sl)) (sl_runner sl).
Proof.
  intros (ND & F) R IP I. rewrite Forall_forall in F. destruct (F _ IP) as [B M].
  assert (PR : proper [script c (y_queue y) (sl_taken sl)]).
  { apply script_proper; auto; [exact (s_taken _ _ _ I)|exact (s_nodup _ _ _ I)|now apply slot_one_last]. }
  split; auto. split; auto. split; auto. destruct (s_run _ _ _ I) as (es & ->). now apply reach_rinv.
Qed.

Lemma slot_queue_step c st ev sl : SlotInv c st sl -> SlotInv c (JobQueueModel.step c st ev) sl.
Proof.
  intros [T N R TI W P].
  assert (GO : forall k, goes_on c st k -> goes_on c (JobQueueModel.step c st ev) k) by (intros k (b & A & B); exists b; split; auto; now apply answer_stable).
  constructor; auto.
  - eapply Forall_impl; [|exact T]. simpl. intros k (b & A). exists b. now apply answer_stable.
  - rewrite script_stable; auto.
  - destruct W as [(A & B)|(l & k & A & B & C & D)]; [left|right].
    + split; auto. eapply Forall_impl; [|exact B]. auto.
    + exists l, k. split; auto. split; [eapply Forall_impl; [|exact B]; auto|]. split; auto. destruct D as [(b & D1 & D2 & D3)|((b & D1 & D2) & D3)]; [left|right].
      * exists b. split; auto. now apply answer_stable.
      * split; auto. exists b. split; auto. now apply answer_stable.
  - intros k K. destruct (P k K). split; auto. pose proof (threads_grow c st ev). lia.
Qed.

Lemma asking_iff s : asking s = true <-> r_prod s = PFetch /\ srcs (r_world s) = [[]].
Proof.
  unfold asking. destruct (r_prod s); try (split; [discriminate|intros [? ?]; discriminate]).
  destruct (f_sources _) as [|[|a l] [|b l']]; split; try discriminate; auto; intros [_ Q]; discriminate.
Qed.

Lemma slot_go c ps y sl e : sound c ps -> reachable c (y_queue y) -> In (sl_params sl) ps -> SlotInv c (y_queue y) sl ->
  SlotInv c (y_queue y) {| sl_params := sl_params sl; sl_pending := sl_pending sl; sl_taken := sl_taken sl;
                           sl_runner := rstep (p_batch (sl_params sl)) (sl_runner sl) e |}.
Proof.
  intros SO RE IP I. destruct (slot_rinv c ps y sl SO RE IP I) as (PR & M & B & R). destruct I as [T N (es & RU) TI W P].
  set (s := sl_runner sl) in *. set (s' := rstep (p_batch (sl_params sl)) s e).
  assert (NP : w_panicked (r_world s) = false) by (destruct (v_hist _ _ _ _ R) as (es0 & IO & ->); now apply hist_no_panic).
  assert (Q : tight (r_world s') /\
              match e, r_prod s, srcs (r_world s) with
              | Producer, PFetch, [[]] => s' = s
              | Producer, PFetch, [Bundle b :: x] => srcs (r_world s') = if b_eow b then [] else [x]
              | Producer, _, _ => srcs (r_world s') = srcs (r_world s)
              | _, _, _ => srcs (r_world s') = srcs (r_world s) /\ r_prod s' = r_prod s
              end).
  { destruct e as [|o|].
    - exact (producer_srcs (p_batch (sl_params sl)) s NP (v_fetch _ _ _ _ R) TI).
    - destruct (step_frame (p_batch (sl_params sl)) s (Task o)) as (A1 & A2 & A3); [discriminate|]. fold s' in A1, A2, A3. split; auto. unfold tight. now rewrite A2, A3.
    - destruct (step_frame (p_batch (sl_params sl)) s Sender) as (A1 & A2 & A3); [discriminate|]. fold s' in A1, A2, A3. split; auto. unfold tight. now rewrite A2, A3. }
  destruct Q as [TI' Q]. constructor; cbn [sl_params sl_pending sl_taken sl_runner]; auto.
  - exists (es ++ [e]). fold s. rewrite run_app, <- RU. reflexivity.
  - fold s s'. destruct W as [(A & F)|(l & k & A & F & PN & [(b & D1 & D2 & D3)|(D1 & D2)])].
    + left. split; auto. destruct e as [|o|]; [|destruct Q as [Q _]; congruence|destruct Q as [Q _]; congruence].
      rewrite A in Q. destruct (r_prod s); congruence.
    + rewrite D3, D2 in Q. destruct e as [|o|].
      * destruct (b_eow b) eqn:BE.
        -- right. exists l, k. split; auto. split; auto. split; auto. right. split; auto. exists b; auto.
        -- left. split; auto. rewrite A. apply Forall_app. split; auto. constructor; [|constructor]. exists b; auto.
      * right. exists l, k. split; auto. split; auto. split; auto. left. exists b. destruct Q. auto.
      * right. exists l, k. split; auto. split; auto. split; auto. left. exists b. destruct Q. auto.
    + right. exists l, k. split; auto. split; auto. split; auto. right. split; auto.
      rewrite D2 in Q. destruct e as [|o|]; [destruct (r_prod s); auto|destruct Q; auto|destruct Q; auto].
  - intros k K. destruct (P k K) as [P1 P2]. split; auto. fold s in P2. apply asking_iff in P2 as [P2 P3]. fold s s'.
    destruct e as [|o|]; [rewrite P2, P3 in Q; rewrite Q; apply asking_iff; auto| |]; rewrite P2, P3 in Q; apply asking_iff; tauto.
Qed.

Lemma flat_map_upd {A B} (f : A -> list B) l i x y add : nth_error l i = Some x -> Permutation (f y) (f x ++ add) ->
  Permutation (flat_map f (upd i y l)) (flat_map f l ++ add).
Proof.
  revert i. induction l as [|a l IH]; intros [|i] H P; try discriminate; cbn [nth_error upd flat_map] in *.
  - injection H as ->. rewrite P, <- !app_assoc. apply Permutation_app_head. apply Permutation_app_comm.
  - rewrite <- app_assoc. apply Permutation_app_head. now apply IH.
Qed.

Lemma Forall_upd {A} (P : A -> Prop) l i x : Forall P l -> P x -> Forall P (upd i x l).
Proof. intros F. revert i. induction F as [|a l H F IH]; intros [|i] X; cbn [upd]; constructor; auto. Qed.

Lemma In_params c ps y i sl : SInv c ps y -> nth_error (y_slots y) i = Some sl -> In (sl_params sl) ps.
Proof. intros I E. rewrite <- (y_params _ _ _ I). apply in_map. eapply nth_error_In; eauto. Qed.

Lemma params_upd c ps y i sl sl' : SInv c ps y -> nth_error (y_slots y) i = Some sl -> sl_params sl' = sl_params sl ->
  map sl_params (upd i sl' (y_slots y)) = ps.
Proof.
  intros I E P. rewrite <- (y_params _ _ _ I). clear I. revert i E. induction (y_slots y) as [|a l IH]; intros [|i] E; try discriminate; cbn [upd map nth_error] in *.
  - injection E as ->. now rewrite P.
  - f_equal. auto.
Qed.

Lemma sinit_inv c ps : SInv c ps (sinit c ps).
Proof.
  constructor.
  - exists []. reflexivity.
  - unfold sinit. cbn [y_slots]. rewrite map_map. cbn [sl_params]. apply map_id.
  - apply Forall_forall. intros sl I. apply in_map_iff in I as (p & <- & _). constructor; cbn [sl_params sl_pending sl_taken sl_runner].
    + constructor.
    + constructor.
    + exists []. reflexivity.
    + split; [right; exists []; auto|discriminate].
    + left. auto.
    + discriminate.
  - unfold sinit. cbn [y_slots y_queue JobQueueModel.init st_threads length seq]. induction ps as [|p ps IH]; auto.
Qed.

Lemma owned_bound c ps y k sl : SInv c ps y -> In sl (y_slots y) -> In k (owned sl) -> k < length (st_threads (y_queue y)).
Proof.
  intros I S K. assert (X : In k (flat_map owned (y_slots y))) by (apply in_flat_map; eauto).
  apply (Permutation_in _ (y_owned _ _ _ I)) in X. apply in_seq in X. lia.
Qed.

Lemma sstep_inv c ps y e : sound c ps -> SInv c ps y -> SInv c ps (sstep c y e).
Proof.
  intros SO I. destruct e as [i|k|i|i e]; cbn [sstep].
  - (* Ask *)
    destruct (nth_error (y_slots y) i) as [sl|] eqn:E; auto. destruct (sl_pending sl) as [k|] eqn:PE; auto.
    destruct (asking (sl_runner sl)) eqn:AS; auto. destruct (Nat.eqb_spec (p_batch (sl_params sl)) 0) as [|NZ]; auto. cbn [negb andb].
    assert (SI : SlotInv c (y_queue y) sl) by (pose proof (y_slot _ _ _ I) as F; rewrite Forall_forall in F; apply F; eapply nth_error_In; eauto).
    assert (LEN : length (st_threads (JobQueueModel.step c (y_queue y) (Arrive (p_tag (sl_params sl)) (p_batch (sl_params sl))))) = S (length (st_threads (y_queue y)))).
    { cbn [JobQueueModel.step]. destruct (Nat.eqb_spec (p_batch (sl_params sl)) 0); [contradiction|]. cbn [st_threads]. rewrite app_length. simpl. lia. }
    constructor; cbn [with_slot y_queue y_slots].
    + apply reachable_step. exact (y_reach _ _ _ I).
    + eapply params_upd; eauto.
    + apply Forall_upd.
      * eapply Forall_impl; [|exact (y_slot _ _ _ I)]. intros. now apply slot_queue_step.
      * apply (slot_queue_step c (y_queue y) (Arrive (p_tag (sl_params sl)) (p_batch (sl_params sl)))) in SI. destruct SI as [T N R TI W P].
        constructor; cbn [sl_params sl_pending sl_taken sl_runner]; auto.
        -- apply asking_iff in AS as [AS1 AS2]. destruct W as [W|(l & k & A & B & _ & [(b & D1 & D2 & D3)|(D1 & D2)])]; [left; auto|congruence|congruence].
        -- intros k [= <-]. split; auto. rewrite LEN. lia.
    + rewrite LEN. rewrite seq_S. cbn [plus].
      rewrite (flat_map_upd owned (y_slots y) i sl _ [length (st_threads (y_queue y))] E).
      * apply Permutation_app_tail. exact (y_owned _ _ _ I).
      * unfold owned. cbn [sl_taken sl_pending]. rewrite PE, app_nil_r. auto.
  - (* the queue *)
    constructor; cbn [y_queue y_slots].
    + apply reachable_step. exact (y_reach _ _ _ I).
    + exact (y_params _ _ _ I).
    + eapply Forall_impl; [|exact (y_slot _ _ _ I)]. intros. now apply slot_queue_step.
    + assert (LEN : length (st_threads (JobQueueModel.step c (y_queue y) (Step k))) = length (st_threads (y_queue y))).
      { cbn [JobQueueModel.step]. destruct (nth_error _ k) as [u|]; auto. destruct (thread_step _ _ _ _) as [[p' o'] pc']. cbn [st_threads]. apply upd_length. }
      rewrite LEN. exact (y_owned _ _ _ I).
  - (* Reply *)
    destruct (nth_error (y_slots y) i) as [sl|] eqn:E; auto. destruct (sl_pending sl) as [k|] eqn:PE; auto.
    destruct (nth_error (st_threads (y_queue y)) k) as [t|] eqn:K; auto. destruct (answer_of c t) as [b|] eqn:AO; auto.
    assert (A : answer c (y_queue y) k = Some b) by (unfold answer; now rewrite K).
    assert (IS : In sl (y_slots y)) by (eapply nth_error_In; eauto).
    assert (SI : SlotInv c (y_queue y) sl) by (pose proof (y_slot _ _ _ I) as F; rewrite Forall_forall in F; auto).
    constructor; cbn [with_slot y_queue y_slots].
    + exact (y_reach _ _ _ I).
    + eapply params_upd; eauto.
    + apply Forall_upd; [exact (y_slot _ _ _ I)|]. pose proof (In_params _ _ _ _ _ I E) as IP.
      destruct SI as [T N (es & RU) TI W P]. destruct (P k PE) as [LT AS]. apply asking_iff in AS as [AS1 AS2].
      assert (F : Forall (goes_on c (y_queue y)) (sl_taken sl)) by (destruct W as [[_ W]|(l & k0 & _ & _ & Q & _)]; [auto|congruence]).
      constructor; cbn [sl_params sl_pending sl_taken sl_runner].
      * apply Forall_app. split; auto. constructor; [eauto|constructor].
      * assert (ND : NoDup (owned sl)).
        { assert (NF : NoDup (flat_map owned (y_slots y))) by (eapply Permutation_NoDup; [apply Permutation_sym; exact (y_owned _ _ _ I)|apply seq_NoDup]).
          apply in_split in IS as (l1 & l2 & Q). rewrite Q, flat_map_app in NF. apply NoDup_app_r in NF. cbn [flat_map] in NF. now apply NoDup_app_l in NF. }
        unfold owned in ND. now rewrite PE in ND.
      * rewrite script_app, (script_one c _ k b A), RU. destruct (feed_run (p_batch (sl_params sl)) (p_max (sl_params sl)) (script c (y_queue y) (sl_taken sl)) b es) as (es' & Q & _); [apply script_ok; exact (y_reach _ _ _ I)|].
        exists es'. exact Q.
      * rewrite feed_grow. destruct TI as [TI1 TI2]. unfold growr. cbn [set_prod r_world with_fetcher w_fetcher w_ended growf f_sources]. split.
        -- cbn [set_prod r_world with_fetcher w_fetcher growf f_sources]. rewrite AS2. right. exists [Bundle b]. split; auto. constructor; [|constructor].
           pose proof (script_ok c (y_queue y) [k] (y_reach _ _ _ I)) as FO. rewrite (script_one c _ k b A) in FO. now inversion FO.
        -- cbn [set_prod r_world with_fetcher w_fetcher growf f_sources w_ended]. intros Q. rewrite (TI2 Q) in AS2. discriminate.
      * right. exists (sl_taken sl), k. split; auto. split; auto. split; auto. left. exists b. split; auto.
        rewrite feed_grow. unfold growr. cbn [set_prod r_world r_prod with_fetcher w_fetcher growf f_sources]. rewrite AS2. auto.
      * discriminate.
    + rewrite <- (y_owned _ _ _ I). rewrite (flat_map_upd owned (y_slots y) i sl _ [] E); [now rewrite app_nil_r|].
      unfold owned. cbn [sl_taken sl_pending]. rewrite PE, !app_nil_r. auto.
  - (* Go *)
    destruct (nth_error (y_slots y) i) as [sl|] eqn:E; auto.
    assert (IS : In sl (y_slots y)) by (eapply nth_error_In; eauto).
    assert (SI : SlotInv c (y_queue y) sl) by (pose proof (y_slot _ _ _ I) as F; rewrite Forall_forall in F; auto).
    constructor; cbn [with_slot y_queue y_slots].
    + exact (y_reach _ _ _ I).
    + eapply params_upd; eauto.
    + apply Forall_upd; [exact (y_slot _ _ _ I)|]. apply (slot_go c ps y sl e); auto; [exact (y_reach _ _ _ I)|eapply In_params; eauto].
    + rewrite <- (y_owned _ _ _ I). rewrite (flat_map_upd owned (y_slots y) i sl _ [] E); [now rewrite app_nil_r|].
      unfold owned. cbn [sl_taken sl_pending]. now rewrite app_nil_r.
Qed.

Lemma reach_sinv c ps y : sound c ps -> reaches c ps y -> SInv c ps y.
Proof. intros SO (es & ->). apply run_invariant; [intros; now apply sstep_inv|apply sinit_inv]. Qed.
