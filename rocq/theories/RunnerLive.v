(* Progress and termination of a runner's tasks. *)
From Verif Require Import Base StatusModel FetchModel FetchSpec FetchProofs RunnerModel RunnerSpec RunnerProofs.

(* ---- the sources only shrink ---- *)

Lemma loop_shrinks fuel : forall f f' r, fetch_loop fuel f = (f', r) ->
  length (concat (f_sources f')) <= length (concat (f_sources f)) /\
  (r = StillWaiting -> f' = f \/ length (concat (f_sources f')) < length (concat (f_sources f))).
Proof.
  assert (SH : forall (b : bundle) (script : list reply) rest, length (concat (if b_eow b then rest else script :: rest)) < length (concat ((Bundle b :: script) :: rest))).
  { intros b script rest. destruct (b_eow b); simpl; rewrite ?app_length; lia. }
  induction fuel as [|fuel IH]; intros f f' r E; cbn [fetch_loop] in E.
  - injection E as <- <-. split; auto.
  - destruct (f_sources f) as [|[|[b|] script] rest] eqn:ES.
    + unfold fetch_retries in E. unfold try_assemble in E.
      destruct (Nat.eqb _ _).
      * injection E as <- <-. cbn [f_sources]. rewrite ES. split; [auto|discriminate].
      * destruct (tr_state (f_retry f)) as [| |l p] eqn:TS.
        -- injection E as <- <-. cbn [f_sources]. rewrite ES. split; auto. left. destruct f; cbn in *; now subst.
        -- injection E as <- <-. cbn [f_sources]. rewrite ES. split; auto. left. destruct f; cbn in *; now subst.
        -- destruct (negb p).
           ++ injection E as <- <-. cbn [f_sources]. rewrite ES. split; auto. left. destruct f; cbn in *; now subst.
           ++ destruct (rev _); injection E as <- <-; cbn [f_sources]; rewrite ES; split; auto; discriminate.
    + injection E as <- <-. rewrite ES. split; auto.
    + specialize (SH b script rest). destruct (_ && _).
      * destruct (IH _ _ _ E) as [A B]. cbn [f_sources] in A. split; [lia|]. intros _. right. lia.
      * destruct (hydrate_slice _ _ _) as [[t h]|]; [|injection E as <- <-; cbn [f_sources]; split; [lia|discriminate]].
        destruct h; try (injection E as <- <-; cbn [f_sources]; split; [lia|discriminate]).
        destruct (is_nil (b_work b)).
        -- destruct (IH _ _ _ E) as [A B]. cbn [f_sources] in A. split; [lia|]. intros _. right. lia.
        -- injection E as <- <-. cbn [f_sources]. split; [lia|discriminate].
    + injection E as <- <-. cbn [f_sources concat app length]. split; [lia|discriminate].
Qed.

Lemma fetch_shrinks w : w_panicked w = false -> w_ended w = false -> w_panicked (fstep w Fetch) = false ->
  length (concat (srcs (fstep w Fetch))) <= length (concat (srcs w)) /\
  (w_answers (fstep w Fetch) = w_answers w -> w_ended (fstep w Fetch) = false ->
   fstep w Fetch = w \/ length (concat (srcs (fstep w Fetch))) < length (concat (srcs w))).
Proof.
  intros P E. unfold fstep. rewrite P, E. unfold fetch_next_tests.
  destruct (fetch_loop (S (S (length (concat (srcs w))))) (w_fetcher w)) as [f' r] eqn:L.
  destruct (loop_shrinks _ _ _ _ L) as [A B]. destruct r; cbn [w_fetcher w_answers w_ended w_panicked]; intros NP; try discriminate; split; auto.
  - intros Q. apply (f_equal (@length bundle)) in Q. rewrite app_length in Q. cbn [length] in Q. lia.
  - discriminate.
  - intros _ _. destruct (B eq_refl) as [-> |]; auto. left. destruct w; cbn in *; now subst.
Qed.

(* ---- the measure ---- *)

Definition w_task (t : task) : nat :=
  match t with
  | TDone _ | TPanic => 0 | TRecv => 1 | TMid => 2 | TPush _ => 3 | TReport rs => 1 + 2 * length rs
  | TFlush _ rem => 4 + 2 * length rem | TRun _ => 5 | TRefill _ => 9
  end.
Definition w_prod (p : producer) : nat := match p with PFetch => 3 | PSend ms _ => 2 + 12 * length ms | PWait => 1 | PExit => 0 end.
Definition measure (T : nat) (s : runner) : nat :=
  36 * (T - length (handed (r_world s))) + length (concat (srcs (r_world s))) + w_prod (r_prod s) + 11 * length (r_chan s) +
  3 * r_refills s + w_task (r_task s) + length (r_results s) + (if r_sender_done s then 0 else 1).

Lemma batch_len ts : ts <> [] -> length (batch_messages ts) = length ts + 2.
Proof. destruct ts as [|t ts]; [congruence|]. intros _. cbn [batch_messages length]. rewrite app_length, map_length. cbn [length]. lia. Qed.

Lemma handed_bound ss0 max w : proper ss0 -> 1 <= max -> (exists es, in_order (start ss0 max) es /\ w = run fstep (start ss0 max) es) ->
  length (handed w) <= length (source_tests ss0) * max.
Proof. intros PR M (es & IO & ->). now apply hist_bound. Qed.

Ltac projm := cbn [rinit set_prod set_task push_result set_sender accept_item accept_size refilled begin_flush finish_task
  r_world r_prod r_chan r_refills r_refill_open r_eligible r_size r_processed r_task r_results r_buffer r_sent r_sender_done w_prod].

Lemma producer_measure ss0 max batch s : proper ss0 -> 1 <= max -> RInv ss0 max batch s ->
  step_producer batch s = s \/
  measure (length (source_tests ss0) * max) (step_producer batch s) < measure (length (source_tests ss0) * max) s.
Proof.
  intros PR M R. pose proof (rx_open_true _ _ _ _ R) as RX. unfold step_producer.
  destruct (r_prod s) as [|ms c| |] eqn:P; auto.
  - pose proof (v_fetch _ _ _ _ R P) as NE. rewrite NE. pose proof (v_hist _ _ _ _ R) as HI0.
    destruct (fetch_cases ss0 max (r_world s) PR M HI0 NE) as (HI & RS & CS). cbv zeta.
    assert (NP : forall w, (exists es, in_order (start ss0 max) es /\ w = run fstep (start ss0 max) es) -> w_panicked w = false).
    { intros w (es & IO & ->). now apply hist_no_panic. }
    destruct (fetch_shrinks (r_world s) (NP _ HI0) NE (NP _ HI)) as [SH SW].
    pose proof (handed_bound ss0 max _ PR M HI) as HB.
    set (w' := fstep (r_world s) Fetch) in *. clearbody w'.
    destruct CS as [(b & A & E & W & N)|[(A & N)|[(A & N & _)|(A & N)]]]; rewrite A.
    + right. rewrite skipn_app_len. unfold measure. projm. rewrite P. cbn [w_prod]. rewrite (handed_new _ _ _ A), (batch_len _ W).
      rewrite (handed_new _ _ _ A), app_length in HB. rewrite app_length.
      assert (1 <= length (b_work b)) by (destruct (b_work b); [congruence|simpl; lia]). lia.
    + right. rewrite skipn_app_len. unfold measure. projm. rewrite P. cbn [w_prod b_work batch_messages length].
      rewrite (handed_new _ _ _ A). cbn [b_work]. rewrite app_nil_r. lia.
    + right. rewrite skipn_all, N. unfold measure. projm. rewrite P, (handed_same _ _ A). cbn [w_prod]. lia.
    + rewrite skipn_all, N. destruct (SW A N) as [-> |LT].
      * left. destruct s; cbn in *; now subst.
      * right. unfold measure. projm. rewrite P, (handed_same _ _ A). cbn [w_prod]. lia.
  - destruct ms as [|m ms].
    + right. unfold measure. destruct c; projm; rewrite P; cbn [w_prod length]; lia.
    + rewrite RX by discriminate. cbn [negb]. destruct (Nat.ltb _ _); auto. right. unfold measure. projm. rewrite P. cbn [w_prod length].
      rewrite app_length. cbn [length]. lia.
  - destruct (r_refills s) as [|n] eqn:F.
    + destruct (r_refill_open s); auto. right. unfold measure. projm. rewrite P. cbn [w_prod]. lia.
    + right. unfold measure. projm. rewrite P, F. cbn [w_prod]. lia.
Qed.

Lemma task_measure T batch s o : step_task batch s o = s \/ measure T (step_task batch s o) < measure T s.
Proof.
  unfold step_task. destruct (r_task s) as [| |t|t|m|t rem|rs|c|] eqn:TT; auto.
  - destruct (r_chan s) as [|[n|t|] ch] eqn:CH.
    + destruct (is_exited (r_prod s)); auto. right. unfold measure. projm. rewrite TT. cbn [w_task]. lia.
    + right. unfold measure. projm. rewrite TT, CH. cbn [w_task length]. lia.
    + right. unfold measure. projm. rewrite TT, CH. destruct (_ && _); cbn [w_task length]; lia.
    + right. unfold measure. projm. rewrite TT, CH. cbn [w_task length]. lia.
  - destruct (r_chan s) as [|[n|t|] ch] eqn:CH.
    + destruct (is_exited (r_prod s)); auto. right. unfold measure. projm. rewrite TT. cbn [w_task]. lia.
    + right. unfold measure. projm. rewrite TT, CH. cbn [w_task length]. lia.
    + right. unfold measure. projm. rewrite TT, CH. destruct (_ && _); cbn [w_task length]; lia.
    + right. unfold measure. projm. rewrite TT, CH. cbn [w_task length]. lia.
  - destruct (is_exited (r_prod s)).
    + right. unfold measure. projm. rewrite TT. cbn [w_task]. lia.
    + destruct (Nat.ltb _ _); auto. right. unfold measure. projm. rewrite TT. cbn [w_task]. lia.
  - right. destruct o; unfold measure; projm; rewrite TT; cbn [w_task length]; lia.
  - destruct (Nat.ltb _ _); auto. right. unfold measure. projm. rewrite TT, app_length. cbn [w_task length]. lia.
  - destruct (r_chan s) as [|[n|u|] ch] eqn:CH.
    + destruct (is_exited (r_prod s)); auto. right. unfold measure. projm. rewrite TT, CH. cbn [w_task]. rewrite map_length. cbn [length]. lia.
    + right. unfold measure. projm. rewrite TT, CH. cbn [w_task length]. lia.
    + right. unfold measure. projm. rewrite TT, CH. cbn [w_task length]. rewrite app_length. cbn [length]. lia.
    + right. unfold measure. projm. rewrite TT, CH. cbn [w_task length]. lia.
  - destruct rs as [|r rs].
    + right. unfold measure. projm. rewrite TT. cbn [w_task length]. lia.
    + destruct (Nat.ltb _ _); auto. right. unfold measure. projm. rewrite TT, app_length. cbn [w_task length]. lia.
Qed.

Lemma account_same w buf : handed (fstep w (Account buf)) = handed w /\ srcs (fstep w (Account buf)) = srcs w.
Proof. unfold fstep. destruct (w_panicked w); auto. destruct (account_results _ _); auto. Qed.

Lemma sender_measure T batch s : step_sender batch s = s \/ measure T (step_sender batch s) < measure T s.
Proof.
  unfold step_sender. destruct (r_sender_done s) eqn:D; auto.
  assert (SB : forall rs buf fin, measure T (send_buffer s rs buf fin) =
             measure T (set_sender s (r_world s) rs [] [] fin)).
  { intros rs buf fin. unfold send_buffer, measure. projm. destruct (account_same (r_world s) buf) as [-> ->]. reflexivity. }
  destruct (r_results s) as [|[r|] rs] eqn:RS.
  - destruct (r_task s) eqn:TT; auto. right. destruct (r_buffer s); rewrite ?SB; unfold measure; projm; rewrite TT, D, RS; cbn [length]; lia.
  - right. cbv zeta. destruct (Nat.leb _ _); rewrite ?SB; unfold measure; projm; rewrite D, RS; cbn [length]; lia.
  - right. destruct (r_buffer s); rewrite ?SB; unfold measure; projm; rewrite D, RS; cbn [length]; lia.
Qed.

Lemma effective_bound ss0 max batch : proper ss0 -> 1 <= max -> 1 <= batch -> forall es s, RInv ss0 max batch s -> effective batch s es ->
  length es <= measure (length (source_tests ss0) * max) s.
Proof.
  intros PR M B. induction es as [|e es IH]; intros s R E; cbn [length]; [lia|]. destruct E as [E1 E2].
  specialize (IH _ (rstep_inv _ _ _ _ e PR M B R) E2).
  assert (rstep batch s e = s \/ measure (length (source_tests ss0) * max) (rstep batch s e) < measure (length (source_tests ss0) * max) s) as [Q|Q].
  { destruct e; cbn [rstep]; [now apply producer_measure|apply task_measure|apply sender_measure]. }
  - congruence.
  - lia.
Qed.

Lemma effective_init ss0 max batch es : proper ss0 -> 1 <= max -> 1 <= batch -> effective batch (rinit ss0 max) es ->
  length es <= 36 * (length (source_tests ss0) * max) + length (concat ss0) + 5.
Proof.
  intros PR M B E. pose proof (effective_bound ss0 max batch PR M B es _ (rinit_inv ss0 max batch PR M B) E) as L.
  unfold measure in L. cbn [rinit r_world r_prod r_chan r_refills r_task r_results r_sender_done w_prod w_task length start w_fetcher f_sources handed w_answers flat_map] in L. 
  change (handed (start ss0 max)) with (@nil wtest) in L. cbn [length] in L. lia.
Qed.

(* ---- progress ---- *)

Lemma all_reported s ss0 max batch : RInv ss0 max batch s -> r_chan s = [] -> pmsgs (r_prod s) = [] -> r_buffer s = [] -> r_results s = [] ->
  task_reports (r_task s) = [] -> in_hand s = [] -> map key (handed (r_world s)) = map rkey (w_results (r_world s)).
Proof.
  intros R CH PM BF RS TR IH. destruct (v_keys _ _ _ _ R) as (got & R3 & R3'). rewrite CH, PM in R3. cbn in R3. rewrite app_nil_r in R3.
  rewrite R3, R3', IH. unfold reports. rewrite BF, RS, (v_sent _ _ _ _ R). cbn [results_in flat_map app map].
  unfold task_reports in TR. rewrite TR, !app_nil_r. reflexivity.
Qed.

Lemma fetch_moves' batch s b : r_prod s = PFetch -> w_ended (r_world s) = false ->
  w_answers (fstep (r_world s) Fetch) = w_answers (r_world s) ++ [b] -> rstep batch s Producer <> s.
Proof.
  intros P NE A. cbn [rstep]. unfold step_producer. rewrite P, NE. cbv zeta. rewrite A, skipn_app_len.
  intros Q. apply (f_equal r_prod) in Q. cbn [set_prod r_prod] in Q. congruence.
Qed.

Lemma sender_moves batch s : r_sender_done s = false -> r_results s <> [] -> rstep batch s Sender <> s.
Proof.
  intros D NR. destruct (sender_measure 0 batch s) as [Q|Q]; [|intros K; cbn [rstep] in K; rewrite K in Q; lia].
  exfalso. unfold step_sender in Q. rewrite D in Q. destruct (r_results s) as [|[r|] rs] eqn:RS; [congruence| |];
  apply (f_equal r_results) in Q; rewrite RS in Q; apply (f_equal (@length rmsg)) in Q; cbn [length] in Q; cbv zeta in Q.
  - destruct (Nat.leb _ _); cbn in Q; lia.
  - destruct (r_buffer s); cbn in Q; lia.
Qed.

Lemma pushes_or_sends ss0 max batch s : 1 <= batch -> RInv ss0 max batch s -> (forall c, r_task s <> TDone c) ->
  length (r_results s) < batch * 2 \/ rstep batch s Sender <> s.
Proof.
  intros B R ND. destruct (Nat.ltb_spec (length (r_results s)) (batch * 2)) as [L|L]; auto. right. apply sender_moves.
  - destruct (r_sender_done s) eqn:D; auto. destruct (v_done _ _ _ _ R D) as (_ & _ & c & Q). destruct (ND c Q).
  - intros Q. rewrite Q in L. simpl in L. lia.
Qed.

Lemma progress ss0 max batch s : proper ss0 -> 1 <= max -> 1 <= batch -> complete ss0 -> RInv ss0 max batch s -> ~ finished s ->
  (flushing s -> r_prod s = PFetch -> attempt (r_world s) = max) -> can_move batch s.
Proof.
  intros PR M B CP R NF FL. unfold can_move.
  assert (DN : (forall c, r_task s <> TDone c) -> r_sender_done s = false).
  { intros ND. destruct (r_sender_done s) eqn:D; auto. destruct (v_done _ _ _ _ R D) as (_ & _ & c & Q). destruct (ND c Q). }
  (* waiting for a message *)
  assert (WAIT : (r_task s = TRecv \/ r_task s = TMid \/ exists t rem, r_task s = TFlush t rem) -> can_move batch s).
  { intros T. destruct (r_chan s) as [|m ch] eqn:CH.
    - destruct (r_prod s) as [|ms c| |] eqn:P.
      + (* the fetcher answers, or there are reports to send *)
        pose proof (v_fetch _ _ _ _ R P) as NE.
        assert (AN : (length (w_results (r_world s)) = length (handed (r_world s)) \/ attempt (r_world s) = max /\ handed (r_world s) <> []) -> can_move batch s).
        { intros Q. left. destruct (v_hist _ _ _ _ R) as (es & IO & EW).
          assert (exists b, w_answers (fstep (r_world s) Fetch) = w_answers (r_world s) ++ [b]) as [b A].
          { rewrite EW in *. destruct Q as [Q|[Q1 Q]]; [now apply (hist_progress ss0 max)|now apply (hist_progress_last ss0 max)]. }
          eapply fetch_moves'; eauto. }
        destruct T as [T|[T|(t & rem & T)]].
        * destruct (v_core _ _ _ _ R) as (xs & mid & bs & K); [now rewrite T|].
          pose proof (k_stream _ _ _ _ K) as ST. rewrite CH, P in ST. cbn [pmsgs app] in ST.
          destruct xs; [|discriminate]. destruct mid; [discriminate|].
          destruct (r_results s) as [|x rs] eqn:RS.
          -- apply AN. left. destruct (k_flush _ _ _ _ K eq_refl T) as [(_ & BF)|(l & Q)]; [|rewrite RS in Q; destruct l; discriminate].
             pose proof (all_reported s ss0 max batch R CH ltac:(now rewrite P) BF RS ltac:(now rewrite T) ltac:(unfold in_hand; now rewrite T)) as Q.
             apply (f_equal (@length (nat * nat))) in Q. rewrite !map_length in Q. auto.
          -- right; left. apply sender_moves; [apply DN; rewrite T; discriminate|rewrite RS; discriminate].
        * destruct (v_core _ _ _ _ R) as (xs & mid & bs & K); [now rewrite T|]. destruct (k_tmid _ _ _ _ K T) as (NX & _).
          pose proof (k_stream _ _ _ _ K) as ST. rewrite CH, P in ST. destruct xs; [congruence|discriminate].
        * apply AN. right. split; [apply FL; auto; unfold flushing; now rewrite T|].
          destruct (v_keys _ _ _ _ R) as (got & R3 & R3'). intros Q. rewrite Q in R3. symmetry in R3. apply app_eq_nil in R3 as [-> _].
          unfold in_hand in R3'. rewrite T in R3'. cbn [map] in R3'. destruct (map rkey (reports s)); discriminate.
      + left. destruct ms as [|m ms]; cbn [rstep]; unfold step_producer; rewrite P.
        * intros Q. apply (f_equal r_prod) in Q. cbn [set_prod r_prod] in Q. destruct c; congruence.
        * rewrite (rx_open_true _ _ _ _ R) by congruence. cbn [negb]. rewrite CH. destruct (Nat.ltb_spec (length (@nil msg)) (batch * 2)) as [L|L]; [|cbn [length] in L; lia].
          intros Q. apply (f_equal r_chan) in Q. cbn [set_prod r_chan] in Q. rewrite CH in Q. discriminate.
      + left. cbn [rstep]. unfold step_producer. rewrite P. destruct (r_refills s) as [|n] eqn:F.
        * destruct (r_refill_open s) eqn:OP; [|intros Q; apply (f_equal r_prod) in Q; cbn [set_prod r_prod] in Q; congruence].
          exfalso. rewrite (v_open _ _ _ _ R) in OP. destruct (v_core _ _ _ _ R OP) as (xs & mid & bs & K).
          pose proof (k_stream _ _ _ _ K) as ST. rewrite CH, P in ST. cbn [pmsgs app] in ST.
          destruct xs; [|discriminate]. destruct mid; [discriminate|].
          destruct (k_send _ _ _ _ K) as [(Q & _)|(_ & [(_ & _ & Q)|(_ & Q)])]; [now rewrite P| |discriminate|congruence].
          apply Q. pose proof (k_ne _ _ _ _ K) as NB. destruct bs as [|b bs]; auto. inversion NB as [|? ? NB1 _]; subst. destruct b; [congruence|]. discriminate.
        * intros Q. apply (f_equal r_prod) in Q. cbn [set_prod r_prod] in Q. congruence.
      + right; right. intros o Q. apply (f_equal r_task) in Q. cbn [rstep] in Q. unfold step_task in Q.
        destruct T as [T|[T|(t & rem & T)]]; rewrite T, CH, P in Q; cbn in Q; congruence.
    - right; right. intros o Q. apply (f_equal r_chan) in Q. rewrite CH in Q. apply (f_equal (@length msg)) in Q. cbn [rstep] in Q. unfold step_task in Q.
      destruct T as [T|[T|(t & rem & T)]]; rewrite T, CH in Q; destruct m; cbn in Q; lia. }
  destruct (r_task s) as [| |t|t|m|t rem|rs|c|] eqn:T.
  - apply WAIT; auto.
  - apply WAIT; auto.
  - right; right. intros o. destruct (v_core _ _ _ _ R) as (xs & mid & bs & K); [now rewrite T|].
    destruct (k_ref _ _ _ _ K t T) as (EL & MD & BS & _).
    assert (RF : r_refills s = 0).
    { destruct (producing (r_prod s)) eqn:PP; [|exact (proj1 (proj2 (k_idle _ _ _ _ K PP)))].
      destruct (k_send _ _ _ _ K PP) as [(Q & _)|(_ & [(_ & Q & _)|(Q & _)])]; congruence. }
    cbn [rstep]. unfold step_task. rewrite T, RF. cbn [Nat.ltb Nat.leb]. intros Q. apply (f_equal r_task) in Q. destruct (is_exited _); cbn in Q; congruence.
  - right; right. intros o Q. apply (f_equal r_task) in Q. cbn [rstep] in Q. unfold step_task in Q. rewrite T in Q. destruct o; cbn in Q; congruence.
  - destruct (pushes_or_sends ss0 max batch s B R) as [L|L]; [rewrite T; discriminate| |auto]. right; right. intros o Q.
    apply (f_equal r_task) in Q. cbn [rstep] in Q. unfold step_task in Q. rewrite T in Q. apply Nat.ltb_lt in L. rewrite L in Q. cbn in Q. congruence.
  - apply WAIT. right; right. eauto.
  - destruct (pushes_or_sends ss0 max batch s B R) as [L|L]; [rewrite T; discriminate| |auto]. right; right. intros o Q.
    apply (f_equal r_task) in Q. cbn [rstep] in Q. unfold step_task in Q. rewrite T in Q. apply Nat.ltb_lt in L. destruct rs as [|r rs].
    + cbn in Q. congruence.
    + rewrite L in Q. cbn in Q. injection Q as Q. apply (f_equal (@length aresult)) in Q. cbn in Q. lia.
  - assert (P : r_prod s = PExit) by (apply (v_dead _ _ _ _ R); rewrite T; [auto|discriminate]).
    assert (D : r_sender_done s = false). { destruct (r_sender_done s) eqn:D; auto. destruct NF. unfold finished. eauto. }
    right; left. destruct (r_results s) as [|x rs] eqn:RS; [|apply sender_moves; [auto|rewrite RS; discriminate]].
    cbn [rstep]. unfold step_sender. rewrite D, RS, T. intros Q. apply (f_equal r_sender_done) in Q. rewrite D in Q. destruct (r_buffer s); cbn in Q; discriminate.
  - destruct (v_nopanic _ _ _ _ R T).
Qed.

(* ---- the end ---- *)

Lemma ended_eow ss0 max es : proper ss0 -> 1 <= max -> complete ss0 -> in_order (start ss0 max) es ->
  w_ended (run fstep (start ss0 max) es) = true -> exists b, In b (w_answers (run fstep (start ss0 max) es)) /\ b_eow b = true.
Proof.
  intros PR M CP. induction es as [|e es IH] using rev_ind; intros IO; [discriminate|].
  apply in_order_snoc in IO as [IO RO]. rewrite run_app. change (run fstep (run fstep (start ss0 max) es) [e]) with (fstep (run fstep (start ss0 max) es) e).
  assert (HI : exists es0, in_order (start ss0 max) es0 /\ run fstep (start ss0 max) es = run fstep (start ss0 max) es0) by eauto.
  pose proof (hist_no_panic ss0 max PR M es IO) as NP. specialize (IH IO).
  set (w := run fstep (start ss0 max) es) in *. clearbody w. destruct e as [|rs].
  - destruct (w_ended w) eqn:NE; [rewrite fetch_ended; auto|].
    destruct (fetch_cases ss0 max w PR M HI NE) as (_ & _ & [(b & _ & _ & _ & N)|[(A & N)|[(_ & _ & N)|(_ & N)]]]); try congruence; try contradiction.
    intros _. rewrite A. exists {| b_work := []; b_eow := true |}. split; auto. apply in_or_app. simpl. auto.
  - unfold fstep. rewrite NP. destruct (account_results _ _); cbn [w_ended w_answers]; auto.
Qed.

Lemma finished_all ss0 max batch s : RInv ss0 max batch s -> finished s ->
  map rkey (concat (r_sent s)) = map key (handed (r_world s)).
Proof.
  intros R (P & D & c & T). destruct (v_done _ _ _ _ R D) as (RS & BF & _).
  destruct (v_dead _ _ _ _ R) as (_ & CH); [now rewrite T|rewrite T; discriminate|].
  rewrite (v_sent _ _ _ _ R). symmetry. eapply all_reported; eauto; rewrite ?P, ?T; auto. unfold in_hand. now rewrite T.
Qed.

Lemma finished_given ss0 max batch s : proper ss0 -> 1 <= max -> complete ss0 -> RInv ss0 max batch s -> finished s -> r_task s = TDone false ->
  first_attempts (r_world s) = source_tests ss0.
Proof.
  intros PR M CP R (P & _) T. pose proof (v_exit _ _ _ _ R P (or_intror T)) as E. destruct (v_hist _ _ _ _ R) as (es & IO & W).
  rewrite W in *. destruct (ended_eow ss0 max es PR M CP IO E) as (b & I & B). eapply hist_all_given; eauto.
Qed.

Lemma attempt_one ss0 batch s : proper ss0 -> RInv ss0 1 batch s -> attempt (r_world s) = 1.
Proof.
  intros PR R. destruct (v_hist _ _ _ _ R) as (es & IO & ->). destruct (hist_runs ss0 1 PR (le_n 1) es IO) as (HR & _).
  unfold attempt. destruct (rev _) as [|t l] eqn:RV; auto. rewrite Forall_forall in HR.
  assert (I : In t (handed (run fstep (start ss0 1) es))) by (apply in_rev; rewrite RV; left; auto). specialize (HR t I). lia.
Qed.

(* ---- a crash ---- *)

Lemma no_crash_step batch s e : e <> Task Failed -> ~ crashed s -> ~ crashed (rstep batch s e).
Proof.
  intros NE NC. destruct e as [|o|]; cbn [rstep].
  - assert (Q : r_task (step_producer batch s) = r_task s).
    { unfold step_producer. destruct (r_prod s) as [|[|m ms] c| |]; auto.
      - cbv zeta. destruct (w_ended _); auto. destruct (skipn _ _); auto.
      - destruct (negb _); auto. destruct (Nat.ltb _ _); auto.
      - destruct (r_refills s); auto. destruct (r_refill_open s); auto. }
    unfold crashed in *. now rewrite Q.
  - unfold crashed in *. unfold step_task. destruct (r_task s) as [| |t|t|m|t rem|rs|c|] eqn:T; try tauto.
    + destruct (r_chan s) as [|[n|t|] ch]; cbn; auto; [destruct (is_exited _); cbn; rewrite ?T; auto|destruct (_ && _); auto].
    + destruct (r_chan s) as [|[n|t|] ch]; cbn; auto; [destruct (is_exited _); cbn; rewrite ?T; auto|destruct (_ && _); auto].
    + destruct (is_exited _); [cbn; auto|]. destruct (Nat.ltb (r_refills s) 1); [cbn; auto|rewrite T; auto].
    + destruct o; [cbn; auto|congruence].
    + destruct (Nat.ltb (length (r_results s)) (batch * 2)); [cbn; auto|rewrite T; auto].
    + rewrite T. exact NC.
    + rewrite T. exact NC.
  - assert (Q : r_task (step_sender batch s) = r_task s).
    { unfold step_sender. destruct (r_sender_done s); auto. destruct (r_results s) as [|[r|] rs]; cbv zeta.
      - destruct (r_task s) eqn:T; auto. destruct (r_buffer s); exact T.
      - destruct (Nat.leb _ _); auto.
      - destruct (r_buffer s); auto. }
    unfold crashed in *. now rewrite Q.
Qed.

Lemma no_crash batch s es : ~ crashed s -> Forall (fun e => e <> Task Failed) es -> ~ crashed (run (rstep batch) s es).
Proof.
  revert s. induction es as [|e es IH]; intros s NC F; auto. inversion F; subst. apply IH; auto. now apply no_crash_step.
Qed.

Lemma producer_frame batch s : r_task (step_producer batch s) = r_task s /\ reports (step_producer batch s) = reports s.
Proof.
  unfold step_producer. destruct (r_prod s) as [|[|m ms] c| |]; auto.
  - cbv zeta. destruct (w_ended _); auto. destruct (skipn _ _); auto.
  - destruct (negb _); auto. destruct (Nat.ltb _ _); auto.
  - destruct (r_refills s); auto. destruct (r_refill_open s); auto.
Qed.

Lemma sender_frame batch s : r_task (step_sender batch s) = r_task s /\ reports (step_sender batch s) = reports s.
Proof.
  unfold step_sender. destruct (r_sender_done s); auto. destruct (r_results s) as [|[r|] rs] eqn:RS; cbv zeta.
  - destruct (r_task s) eqn:T; auto. destruct (r_buffer s) as [|b0 bf] eqn:BF; unfold send_buffer, reports; projm; rewrite T, ?BF, ?RS; split; auto.
    rewrite concat_app. cbn [concat]. rewrite <- !app_assoc. reflexivity.
  - destruct (Nat.leb _ _); unfold send_buffer, reports; projm; rewrite RS; split; auto.
    + rewrite concat_app. cbn [concat results_in flat_map]. rewrite <- !app_assoc. reflexivity.
    + cbn [results_in flat_map]. rewrite <- !app_assoc. reflexivity.
  - destruct (r_buffer s) as [|b0 bf] eqn:BF; unfold send_buffer, reports; projm; rewrite RS, ?BF; split; auto.
    rewrite concat_app. cbn [concat results_in flat_map]. rewrite <- !app_assoc. reflexivity.
Qed.

Definition after_crash (t : wtest) (R0 : list aresult) (s : runner) : Prop :=
  (exists rem, r_task s = TFlush t rem /\ reports s = R0) \/
  ((exists rs, r_task s = TReport rs) \/ r_task s = TDone true) /\
  exists us, reports s = R0 ++ map (fun u => error_result (wt_run t) 0 (id_of u)) (t :: us).

Lemma after_crash_step t R0 batch s e : after_crash t R0 s -> after_crash t R0 (rstep batch s e).
Proof.
  intros A. destruct e as [|o|]; cbn [rstep].
  - destruct (producer_frame batch s) as [E1 E2]. unfold after_crash. rewrite E1, E2. exact A.
  - unfold step_task. destruct A as [(rem & T & RE)|([(rs & T)|T] & us & RE)]; rewrite T.
    + destruct (r_chan s) as [|m ch] eqn:CH.
      * destruct (is_exited _); [|left; eauto]. right. split; [left; eexists; reflexivity|]. exists rem.
        rewrite <- RE. unfold reports. rewrite T. projm. rewrite !app_nil_r, <- !app_assoc. reflexivity.
      * left. destruct m as [n|u|]; eexists; (split; [reflexivity|]); rewrite <- RE; unfold reports; rewrite T; reflexivity.
    + right. destruct rs as [|r rs].
      * split; [right; reflexivity|]. exists us. rewrite <- RE. unfold reports. rewrite T. reflexivity.
      * destruct (Nat.ltb _ _); [|split; eauto]. split; [left; eexists; reflexivity|]. exists us. rewrite <- RE. unfold reports. rewrite T. projm.
        rewrite results_in_app, <- !app_assoc. reflexivity.
    + right. eauto.
  - destruct (sender_frame batch s) as [E1 E2]. unfold after_crash. rewrite E1, E2. exact A.
Qed.

Lemma crash_reports batch s t es : r_task s = TRun t -> after_crash t (reports s) (run (rstep batch) (rstep batch s (Task Failed)) es).
Proof.
  intros T. apply (run_invariant (rstep batch) (after_crash t (reports s))); [intros; now apply after_crash_step|].
  left. exists []. cbn [rstep]. unfold step_task. rewrite T. split; auto. unfold reports. rewrite T. reflexivity.
Qed.

(* ---- how far ahead tests are fetched ---- *)

Lemma prefetch ss0 max batch s : RInv ss0 max batch s -> alive (r_task s) = true -> r_prod s = PFetch -> on_the_way s <> [] ->
  exists l b, w_answers (r_world s) = l ++ [b] /\ 2 * length (on_the_way s) <= length (b_work b) + 1.
Proof.
  intros R AL P NW. destruct (v_core _ _ _ _ R AL) as (xs & mid & bs & K).
  pose proof (k_idle _ _ _ _ K) as ID. rewrite P in ID. destruct (ID eq_refl) as (-> & _ & EL). clear ID.
  assert (OW : on_the_way s = xs).
  { unfold on_the_way. rewrite P, app_nil_r. pose proof (k_stream _ _ _ _ K) as ST. rewrite P in ST. cbn [pmsgs flat_map] in ST.
    rewrite !app_nil_r in ST. rewrite ST, items_app, items_map. destruct mid; cbn; now rewrite app_nil_r. }
  rewrite OW in *. destruct mid; [|destruct (k_mid _ _ _ _ K eq_refl); congruence].
  destruct (k_last _ _ _ _ K (v_fetch _ _ _ _ R P) eq_refl) as (l & b & A & L). exists l, b. split; auto.
  destruct (k_size _ _ _ _ K eq_refl) as [S1 S2].
  assert (E : r_eligible s = false) by (destruct (r_eligible s); auto; discriminate (EL eq_refl)).
  pose proof (k_req _ _ _ _ K eq_refl E) as RQ. pose proof (Nat.div_mod_eq (r_size s) 2) as DM.
  pose proof (Nat.mod_upper_bound (r_size s) 2 ltac:(lia)). lia.
Qed.

(* the answer before the one being delivered is delivered completely *)
Lemma idle_flushed ss0 max batch s : RInv ss0 max batch s -> r_task s = TRecv -> r_chan s = [] -> pmsgs (r_prod s) = [] -> r_results s = [] ->
  r_buffer s = [].
Proof.
  intros R T CH PM RS. destruct (v_core _ _ _ _ R) as (xs & mid & bs & K); [now rewrite T|].
  pose proof (k_stream _ _ _ _ K) as ST. rewrite CH, PM in ST. destruct xs; [|discriminate]. destruct mid; [discriminate|].
  destruct (k_flush _ _ _ _ K eq_refl T) as [(_ & BF)|(l & Q)]; auto. rewrite RS in Q. destruct l; discriminate.
Qed.

Lemma refill_free ss0 max batch s t : RInv ss0 max batch s -> r_task s = TRefill t -> r_refills s = 0 /\ r_prod s <> PExit.
Proof.
  intros R T. destruct (v_core _ _ _ _ R) as (xs & mid & bs & K); [now rewrite T|]. destruct (k_ref _ _ _ _ K t T) as (EL & MD & BS & _).
  destruct (producing (r_prod s)) eqn:PP.
  - split; [|intros Q; rewrite Q in PP; discriminate].
    destruct (k_send _ _ _ _ K PP) as [(Q & _)|(_ & [(_ & Q & _)|(Q & _)])]; congruence.
  - destruct (k_idle _ _ _ _ K PP) as (_ & _ & Q). specialize (Q EL). congruence.
Qed.

Lemma refills_le ss0 max batch s : RInv ss0 max batch s -> alive (r_task s) = true -> r_refills s <= 1.
Proof.
  intros R AL. destruct (v_core _ _ _ _ R AL) as (xs & mid & bs & K). destruct (producing (r_prod s)) eqn:PP.
  - destruct (k_send _ _ _ _ K PP) as [(_ & Q)|(_ & [(_ & Q & _)|(_ & Q)])]; lia.
  - destruct (k_idle _ _ _ _ K PP) as (_ & Q & _). lia.
Qed.

Lemma sent_why batch s : r_sent (rstep batch s Sender) = r_sent s \/
  exists b, r_sent (rstep batch s Sender) = r_sent s ++ [b] /\
    (batch <= length b \/ (exists rs, r_results s = ResultsFlush :: rs) \/ exists c, r_task s = TDone c).
Proof.
  cbn [rstep]. unfold step_sender. destruct (r_sender_done s); auto. destruct (r_results s) as [|[r|] rs]; cbv zeta.
  - destruct (r_task s) eqn:T; auto. destruct (r_buffer s); auto. right. eexists. split; [reflexivity|]. right; right. eauto.
  - destruct (Nat.leb_spec batch (length (r_buffer s ++ [r]))); auto. right. eexists. split; [reflexivity|]. auto.
  - destruct (r_buffer s); auto. right. eexists. split; [reflexivity|]. right; left. eauto.
Qed.
