(* The invariant of a run that may be cancelled: it is a run of SystemModel in which the
   runners that were told to stop still wait for the answer to their last request. *)
From Verif Require Import Base JobQueueModel JobQueueSpec JobQueueLemmas.
From Verif Require Import StatusModel FetchModel FetchSpec FetchProofs FetchAttempts RunnerModel RunnerSpec RunnerProofs RunnerLive SystemModel SystemSpec RunnerFeed SystemProofs SystemEnd SystemLive.
From Verif Require Import CancelRunModel CancelRunSpec.

Implicit Types (c : config nat) (k : crun).

Definition unserved (q : JobQueueModel.state) (j : nat) : Prop := exists t, nth_error (st_threads q) j = Some t /\ th_pc t = PStart.

(* [sl] was told that the run is over while it was in the state [zl] *)
Record cut (q : JobQueueModel.state) (zl sl : slot) : Prop := {
  u_params : sl_params sl = sl_params zl;
  u_taken : sl_taken sl = sl_taken zl;
  u_pending : sl_pending sl = None;
  u_asking : asking (sl_runner zl) = true;
  u_request : exists j, sl_pending zl = Some j /\ unserved q j;
  u_run : exists es, sl_runner sl = run (rstep (p_batch (sl_params zl))) (feed cancelled_answer (sl_runner zl)) es
}.

Record CInv c (ps : list params) k (z : system) : Prop := {
  n_z : SInv c ps z;
  n_queue : y_queue z = y_queue (k_system k);
  n_len : length (y_slots z) = length (y_slots (k_system k));
  n_live : k_cancelled k = false -> k_told k = [];
  n_quiet : k_cancelled k = true -> quiescent (y_queue z);
  n_slot : forall i sl zl, nth_error (y_slots (k_system k)) i = Some sl -> nth_error (y_slots z) i = Some zl ->
             (In i (k_told k) /\ cut (y_queue z) zl sl) \/ (~ In i (k_told k) /\ sl = zl)
}.

(* ---- a runner that was told to stop ---- *)

Lemma served_last c st ks : Forall (goes_on c st) ks ->
  source_tests [script c st ks ++ [last_reply]] = map fresh (flat_map (response c st) ks) /\ complete [script c st ks ++ [last_reply]].
Proof.
  intros G. split.
  - cbn [source_tests]. rewrite (served_goes_on c st ks [last_reply] G). cbn [served last_reply b_eow b_work fst snd]. now rewrite !app_nil_r.
  - constructor; [|constructor]. rewrite (served_goes_on c st ks [last_reply] G). reflexivity.
Qed.

Lemma asking_goes_on c st zl : SlotInv c st zl -> asking (sl_runner zl) = true -> Forall (goes_on c st) (sl_taken zl).
Proof.
  intros I A. apply asking_iff in A as [A1 A2]. destruct (s_where _ _ _ I) as [(_ & G)|(l & k & _ & _ & _ & [(b & _ & Q & _)|(_ & Q)])]; auto; congruence.
Qed.

Definition over (s : runner) : Prop := tight (r_world s) /\ ((srcs (r_world s) = [[last_reply]] /\ r_prod s = PFetch) \/ srcs (r_world s) = []).

Lemma over_asking s : over s -> asking s = false.
Proof.
  intros (_ & H). destruct (asking s) eqn:A; auto. apply asking_iff in A as [_ A]. destruct H as [[H _]|H]; congruence.
Qed.

Lemma over_step ss max batch s e : RInv ss max batch s -> proper ss -> 1 <= max -> over s -> over (rstep batch s e).
Proof.
  intros R PR M (TI & W).
  assert (NP : w_panicked (r_world s) = false) by (destruct (v_hist _ _ _ _ R) as (es0 & IO & ->); now apply hist_no_panic).
  destruct e as [|o|].
  - destruct (producer_srcs batch s NP (v_fetch _ _ _ _ R) TI) as [TI' Q]. split; auto. destruct W as [[W1 W2]|W].
    + rewrite W1, W2 in Q. cbn [last_reply b_eow] in Q. now right.
    + rewrite W in Q. right. destruct (r_prod s); exact Q.
  - destruct (step_frame batch s (Task o)) as (A1 & A2 & A3); [discriminate|]. split; [unfold tight; now rewrite A2, A3|]. now rewrite A1, A2.
  - destruct (step_frame batch s Sender) as (A1 & A2 & A3); [discriminate|]. split; [unfold tight; now rewrite A2, A3|]. now rewrite A1, A2.
Qed.

Lemma run_over ss max batch es : proper ss -> 1 <= max -> 1 <= batch -> forall s, RInv ss max batch s -> over s ->
  RInv ss max batch (run (rstep batch) s es) /\ over (run (rstep batch) s es).
Proof.
  intros PR M B. induction es as [|e es IH]; intros s R O; [auto|]. apply (IH (rstep batch s e)); [now apply rstep_inv|eapply over_step; eauto].
Qed.

Lemma cut_runner c ps z zl sl : sound c ps -> SInv c ps z -> In zl (y_slots z) -> cut (y_queue z) zl sl ->
  let ss := [script c (y_queue z) (sl_taken zl) ++ [last_reply]] in
  proper ss /\ complete ss /\ 1 <= p_max (sl_params zl) /\ 1 <= p_batch (sl_params zl) /\
  source_tests ss = map fresh (got_tests c z zl) /\
  RInv ss (p_max (sl_params zl)) (p_batch (sl_params zl)) (sl_runner sl) /\ over (sl_runner sl).
Proof.
  intros SO I S [_ _ _ AS _ (es & RU)] ss. destruct (slot_of c ps z zl I S) as [IP SI]. destruct (slot_rinv c ps z zl SO (y_reach _ _ _ I) IP SI) as (PR & M & B & R).
  pose proof (asking_goes_on _ _ _ SI AS) as G. destruct (served_last c (y_queue z) (sl_taken zl) G) as [ST CP]. fold ss in ST, CP.
  destruct (script_tests c (y_queue z) (sl_taken zl) (slot_one_last _ _ _ SI)) as [ST0 _].
  assert (PR' : proper ss) by (split; [discriminate|]; rewrite ST, <- ST0; exact (proj2 PR)).
  destruct (s_run _ _ _ SI) as (es0 & RU0). pose proof (script_ok c (y_queue z) (sl_taken zl) (y_reach _ _ _ I)) as OK.
  destruct (feed_run (p_batch (sl_params zl)) (p_max (sl_params zl)) _ cancelled_answer es0 OK) as (es' & RU' & _). rewrite <- RU0 in RU'.
  pose proof (reach_rinv ss (p_max (sl_params zl)) (p_batch (sl_params zl)) es' PR' M B) as R'.
  change [Bundle cancelled_answer] with [last_reply] in RU'. fold ss in RU'. rewrite <- RU' in R'.
  split; auto. split; auto. split; auto. split; auto. split; auto. rewrite RU. apply run_over; auto. pose proof AS as AS0. apply asking_iff in AS as [AS1 AS2].
  rewrite feed_grow. unfold growr, over. cbn [set_prod r_world r_prod with_fetcher w_fetcher w_ended growf f_sources]. rewrite AS2. split; [|left; split; auto].
  destruct (s_tight _ _ _ SI) as [_ T2]. split.
  - cbn [with_fetcher w_fetcher growf f_sources]. rewrite AS2. right. exists [last_reply]. split; auto. constructor; [|constructor]. cbn [last_reply ok_reply b_eow]. now right.
  - cbn [with_fetcher w_fetcher w_ended growf f_sources]. intros Q. rewrite (T2 Q) in AS2. discriminate.
Qed.

(* ---- the invariant holds ---- *)

Lemma CInv_init c ps : CInv c ps (cinit c ps) (sinit c ps).
Proof.
  constructor; auto; cbn [cinit k_system k_cancelled k_told]; try discriminate.
  - apply sinit_inv.
  - intros i sl zl E1 E2. right. rewrite E1 in E2. injection E2 as ->. split; auto.
Qed.

Lemma live_same c ps k z : CInv c ps k z -> k_cancelled k = false -> z = k_system k.
Proof.
  intros I NC. destruct z as [q zs] eqn:EZ. destruct (k_system k) as [q' ss] eqn:EK. pose proof (n_queue _ _ _ _ I) as Q. pose proof (n_len _ _ _ _ I) as L.
  pose proof (n_slot _ _ _ _ I) as SL. rewrite EK in Q, L, SL. cbn [y_queue y_slots] in *. subst q'. f_equal. rewrite (n_live _ _ _ _ I NC) in SL.
  clear -L SL. revert zs L SL. induction ss as [|a ss IH]; intros [|b zs] L SL; try discriminate; auto. f_equal.
  - destruct (SL 0 a b eq_refl eq_refl) as [[[] _]|[_ E]]; auto.
  - apply IH; [now injection L|]. intros i sl zl E1 E2. exact (SL (S i) sl zl E1 E2).
Qed.

Lemma unserved_step c q e j : (forall i, e <> Step i) -> unserved q j -> unserved (JobQueueModel.step c q e) j.
Proof.
  intros NE (t & E & P). destruct e as [who n|i]; [|now destruct (NE i)]. cbn [JobQueueModel.step]. destruct (Nat.eqb n 0); [now exists t|]. exists t. split; auto.
  cbn [st_threads]. rewrite nth_error_app1; auto. apply nth_error_Some. congruence.
Qed.

Lemma quiet_arrive c q who n : quiescent q -> quiescent (JobQueueModel.step c q (Arrive who n)).
Proof.
  intros Q j t E. cbn [JobQueueModel.step] in E. destruct (Nat.eqb n 0); [now apply (Q j)|]. cbn [st_threads] in E.
  destruct (Nat.lt_ge_cases j (length (st_threads q))) as [L|L].
  - rewrite nth_error_app1 in E; auto. now apply (Q j).
  - rewrite nth_error_app2 in E; auto. destruct (j - length (st_threads q)) as [|[|m]]; try discriminate. injection E as <-. now left.
Qed.

Lemma cut_queue c q e zl sl : (forall i, e <> Step i) -> cut q zl sl -> cut (JobQueueModel.step c q e) zl sl.
Proof. intros NE [A B C D (j & E1 & E2) F]. constructor; auto. exists j. split; auto. now apply unserved_step. Qed.

Lemma existsb_quiet c st : reachable c st -> existsb holds_lock (st_threads st) = false -> quiescent st.
Proof.
  intros R E j t N. assert (NH : holds_lock t = false).
  { destruct (holds_lock t) eqn:H; auto. rewrite <- E. symmetry. apply existsb_exists. exists t. split; auto. eapply nth_error_In; eauto. }
  pose proof (never_panics c st j t R N) as NP. unfold holds_lock in NH. destruct (th_pc t) as [| | | |s e b|]; try discriminate; [now left|right; eauto|congruence].
Qed.

(* The queue of the system and the one of [z] after an event at slot [i] alone. *)
Lemma told_dec i k : In i (k_told k) \/ ~ In i (k_told k).
Proof. destruct (in_dec Nat.eq_dec i (k_told k)); auto. Qed.

Lemma nth_upd {A} (l : list A) i j x y : nth_error l i = Some y -> nth_error (upd i x l) j = if Nat.eqb i j then Some x else nth_error l j.
Proof.
  intros E. destruct (Nat.eqb_spec i j) as [<-|N].
  - apply nth_error_upd_eq. apply nth_error_Some. congruence.
  - now apply nth_error_upd_neq.
Qed.

(* Both change slot [i] in the same way. *)
Lemma both c ps k z e i sl sl' q' :
  CInv c ps k z -> sound c ps -> k_cancelled k = true -> nth_error (y_slots (k_system k)) i = Some sl -> ~ In i (k_told k) ->
  sstep c (k_system k) e = with_slot (k_system k) q' i sl' -> sstep c z e = with_slot z q' i sl' ->
  quiescent q' -> (forall zl sl, cut (y_queue z) zl sl -> cut q' zl sl) ->
  CInv c ps {| k_system := sstep c (k_system k) e; k_cancelled := k_cancelled k; k_told := k_told k |} (sstep c z e).
Proof.
  intros I SO CA E NT E1 E2 QT CU. pose proof (sstep_inv c ps z e SO (n_z _ _ _ _ I)) as SI. pose proof (n_len _ _ _ _ I) as LN. constructor; auto; cbn [k_system k_cancelled k_told].
  - rewrite E1, E2. reflexivity.
  - rewrite E1, E2. cbn [with_slot y_slots]. now rewrite !upd_length.
  - intros C. congruence.
  - intros _. now rewrite E2.
  - rewrite E1, E2. cbn [with_slot y_slots y_queue].
    assert (EZ : exists zl, nth_error (y_slots z) i = Some zl).
    { destruct (nth_error (y_slots z) i) eqn:Q; eauto. apply nth_error_None in Q. assert (i < length (y_slots (k_system k))) by (apply nth_error_Some; congruence). lia. }
    destruct EZ as (zl0 & EZ). intros j s1 z1. rewrite (nth_upd _ i j sl' sl E), (nth_upd _ i j sl' zl0 EZ). destruct (Nat.eqb_spec i j) as [<-|N].
    + intros [= <-] [= <-]. right. auto.
    + intros Q1 Q2. destruct (n_slot _ _ _ _ I j s1 z1 Q1 Q2) as [[A B]|[A B]]; [left|right]; auto.
Qed.

Lemma CInv_step c ps k z e : sound c ps -> CInv c ps k z -> exists z', CInv c ps (cstep c k e) z'.
Proof.
  intros SO I. destruct e as [e|]; cbn [cstep].
  2:{ destruct (existsb holds_lock _) eqn:H; [now exists z|]. exists z. destruct I as [A B C D E F]. constructor; auto; cbn [k_system k_cancelled k_told]; [discriminate|].
      intros _. rewrite B. apply (existsb_quiet c); auto. rewrite <- B. exact (y_reach _ _ _ A). }
  destruct (k_cancelled k) eqn:CA; cbn [negb].
  2:{ pose proof (live_same _ _ _ _ I CA) as EQ. exists (sstep c z e). pose proof (n_live _ _ _ _ I CA) as TL. pose proof (sstep_inv c ps z e SO (n_z _ _ _ _ I)) as SI. rewrite <- EQ.
      constructor; auto; cbn [k_system k_cancelled k_told]; try discriminate. intros i sl zl E1 E2. right. rewrite TL. rewrite E1 in E2. injection E2 as ->. split; auto. }
  pose proof (n_queue _ _ _ _ I) as EQ. pose proof (n_quiet _ _ _ _ I CA) as QT.
  assert (FIND : forall i sl, nth_error (y_slots (k_system k)) i = Some sl -> exists zl, nth_error (y_slots z) i = Some zl).
  { intros i sl E. destruct (nth_error (y_slots z) i) eqn:Q; eauto. apply nth_error_None in Q. assert (i < length (y_slots (k_system k))) by (apply nth_error_Some; congruence). pose proof (n_len _ _ _ _ I). lia. }
  assert (SAME : CInv c ps {| k_system := k_system k; k_cancelled := true; k_told := k_told k |} z) by (rewrite <- CA; destruct k; exact I).
  destruct e as [i|j|i|i e].
  - (* Ask *)
    cbn [sstep]. destruct (nth_error (y_slots (k_system k)) i) as [sl|] eqn:E; [|exists z; exact SAME].
    destruct (sl_pending sl) as [j|] eqn:PE; [exists z; exact SAME|]. destruct (asking (sl_runner sl) && negb (Nat.eqb (p_batch (sl_params sl)) 0)) eqn:AS; [|exists z; exact SAME].
    destruct (FIND i sl E) as (zl & EZ). destruct (n_slot _ _ _ _ I i sl zl E EZ) as [[T CU]|[T ->]].
    + destruct (cut_runner c ps z zl sl SO (n_z _ _ _ _ I) (nth_error_In _ _ EZ) CU) as (_ & _ & _ & _ & _ & _ & OV). rewrite (over_asking _ OV) in AS. discriminate.
    + exists (sstep c z (Ask i)).
      set (sl' := {| sl_params := sl_params zl; sl_pending := Some (length (st_threads (y_queue z))); sl_taken := sl_taken zl; sl_runner := sl_runner zl |}).
      set (q' := JobQueueModel.step c (y_queue z) (Arrive (p_tag (sl_params zl)) (p_batch (sl_params zl)))).
      pose proof (both c ps k z (Ask i) i zl sl' q' I SO CA E T) as BO. cbn [sstep] in BO |- *. rewrite E, EZ, PE, AS in *. rewrite <- EQ in *. fold sl' q' in BO |- *. rewrite CA in BO. apply BO; auto.
      * now apply quiet_arrive.
      * intros a b. apply cut_queue. discriminate.
  - exists z. exact I.
  - (* Reply *)
    destruct (has_answer c (k_system k) i) eqn:HA.
    + unfold has_answer in HA. destruct (nth_error (y_slots (k_system k)) i) as [sl|] eqn:E; [|discriminate]. destruct (sl_pending sl) as [j|] eqn:PE; [|discriminate].
      destruct (nth_error (st_threads (y_queue (k_system k))) j) as [t|] eqn:K; [|discriminate]. destruct (answer_of c t) as [b|] eqn:AO; [|discriminate].
      destruct (FIND i sl E) as (zl & EZ). destruct (n_slot _ _ _ _ I i sl zl E EZ) as [[T CU]|[T ->]]; [rewrite (u_pending _ _ _ CU) in PE; discriminate|].
      exists (sstep c z (Reply i)).
      set (sl' := {| sl_params := sl_params zl; sl_pending := None; sl_taken := sl_taken zl ++ [j]; sl_runner := feed b (sl_runner zl) |}).
      pose proof (both c ps k z (Reply i) i zl sl' (y_queue z) I SO CA E T) as BO. cbn [sstep] in BO |- *. rewrite <- EQ in *. rewrite E, EZ, PE, K, AO in *. fold sl' in BO |- *. rewrite CA in BO. apply BO; auto.
    + destruct (has_request (k_system k) i) eqn:HR; [|exists z; exact I]. unfold has_answer, has_request in *. unfold refuse.
      destruct (nth_error (y_slots (k_system k)) i) as [sl|] eqn:E; [|discriminate]. destruct (sl_pending sl) as [j|] eqn:PE; [|discriminate].
      destruct (FIND i sl E) as (zl & EZ). destruct (n_slot _ _ _ _ I i sl zl E EZ) as [[T CU]|[T ->]]; [rewrite (u_pending _ _ _ CU) in PE; discriminate|].
      destruct (slot_of c ps z zl (n_z _ _ _ _ I) (nth_error_In _ _ EZ)) as [IP SI]. destruct (s_pend _ _ _ SI j PE) as [LT AS].
      exists z. constructor; cbn [k_system k_cancelled k_told with_slot y_queue y_slots].
      * exact (n_z _ _ _ _ I).
      * exact EQ.
      * rewrite upd_length. exact (n_len _ _ _ _ I).
      * intros C. congruence.
      * auto.
      * intros j' s1 z1. rewrite (nth_upd _ i j' _ zl E). destruct (Nat.eqb_spec i j') as [<-|N].
        -- intros [= <-] E2. rewrite EZ in E2. injection E2 as <-. left. split; [apply in_or_app; right; now left|]. constructor; auto; cbn [sl_params sl_taken sl_pending sl_runner].
           ++ exists j. split; auto. destruct (nth_error (st_threads (y_queue z)) j) as [t|] eqn:K; [|apply nth_error_None in K; lia]. exists t. split; auto.
              destruct (QT j t K) as [P|(s & e & b & P)]; auto. exfalso. rewrite <- EQ, K in HA. unfold answer_of, eow_of, status_of in HA. rewrite P in HA.
              destruct b; [|discriminate]. destruct (JobQueueModel.bundle c t); discriminate.
           ++ exists []. reflexivity.
        -- intros E1 E2. destruct (n_slot _ _ _ _ I j' s1 z1 E1 E2) as [[A B]|[A B]]; [left|right]; split; auto; [apply in_or_app; now left|].
           intros Q. apply in_app_or in Q as [Q|[Q|[]]]; auto.
  - (* Go *)
    cbn [sstep]. destruct (nth_error (y_slots (k_system k)) i) as [sl|] eqn:E; [|exists z; exact SAME].
    destruct (FIND i sl E) as (zl & EZ). destruct (n_slot _ _ _ _ I i sl zl E EZ) as [[T CU]|[T ->]].
    + exists z. constructor; cbn [k_system k_cancelled k_told with_slot y_queue y_slots].
      * exact (n_z _ _ _ _ I).
      * exact EQ.
      * rewrite upd_length. exact (n_len _ _ _ _ I).
      * discriminate.
      * auto.
      * intros j' s1 z1. rewrite (nth_upd _ i j' _ sl E). destruct (Nat.eqb_spec i j') as [<-|N].
        -- intros [= <-] E2. rewrite EZ in E2. injection E2 as <-. left. split; auto. destruct CU as [A B C D F (es & G)]. constructor; auto; cbn [sl_params sl_taken sl_pending sl_runner].
           exists (es ++ [e]). rewrite run_app, <- G, A. reflexivity.
        -- intros E1 E2. exact (n_slot _ _ _ _ I j' s1 z1 E1 E2).
    + exists (sstep c z (Go i e)).
      set (sl' := {| sl_params := sl_params zl; sl_pending := sl_pending zl; sl_taken := sl_taken zl; sl_runner := rstep (p_batch (sl_params zl)) (sl_runner zl) e |}).
      pose proof (both c ps k z (Go i e) i zl sl' (y_queue z) I SO CA E T) as BO. cbn [sstep] in BO |- *. rewrite <- EQ in *. rewrite E, EZ in *. fold sl' in BO |- *. rewrite CA in BO. apply BO; auto.
Qed.

Lemma reach_cinv c ps k : sound c ps -> can_reach c ps k -> exists z, CInv c ps k z.
Proof.
  intros SO (es & ->). induction es as [|e es IH] using rev_ind; [exists (sinit c ps); apply CInv_init|].
  destruct IH as (z & I). rewrite run_app. exact (CInv_step c ps _ z e SO I).
Qed.
