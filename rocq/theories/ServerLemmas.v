(* Consequences of the invariants of the results plane: what a streamed answer
   means, and when the remote store is complete. *)
From Verif Require Import Base JobQueueModel WorkerSetModel RunModel RunSpec RunProofs RunLemmas RunAnswers
  ServerModel ServerSpec ServerProofs.
From Coq Require Import Permutation.

Section Lemmas.
Context {T M L : Type}.
Implicit Types (st : sstate T M L) (r : run_id) (w : write L) (es : list (sevent T M L)).

Ltac ss := unfold fetch, read_step, write_step, add_write, set_core, set_reads, smk in *; simpl in *.

Lemma read_cell_idle (c : RunModel.state T M) r : read_cell c r = RSCell -> finished_and_idle c r.
Proof.
  unfold read_cell, finished_and_idle. destruct (get r (s_runs c)) as [[]|]; try discriminate.
  destruct (map _ _) as [|a l] eqn:E; try discriminate. intros _. eexists; split; [reflexivity|].
  simpl. rewrite <- (map_length (fun p : entity * bool => en_tag (fst p))), E. reflexivity.
Qed.

Lemma idle_read_cell (c : RunModel.state T M) r : finished_and_idle c r -> read_cell c r = RSCell.
Proof.
  unfold read_cell. intros (s & -> & H). destruct s; try discriminate. simpl in H. injection H as H.
  rewrite <- (map_length (fun p : entity * bool => en_tag (fst p))) in H.
  destruct (map _ _); [reflexivity|discriminate].
Qed.

(* How the requests for results change. *)
Lemma reads_step st ev k rd : nth_error (sv_reads (sstep st ev)) k = Some rd ->
  nth_error (sv_reads st) k = Some rd \/
  (ev = SFetch (rd_run rd) /\ k = length (sv_reads st) /\
   (rd_pc rd = RdGot -> read_cell (sv_core st) (rd_run rd) = RSCell) /\ rd_pc rd <> RdStream) \/
  (exists ok rd0, ev = SRead k ok /\ nth_error (sv_reads st) k = Some rd0 /\ rd_run rd = rd_run rd0 /\
     rd_pc rd <> RdGot /\ (rd_pc rd = RdStream -> rd_pc rd0 = RdGot /\ sv_count st (rd_run rd) = 0%Z)).
Proof.
  destruct ev as [ev|r0 flat meta s|r0 e l|j ok|r0|j ok]; simpl.
  - destruct ev; auto.
  - destruct (manifest_accepted _ _); auto.
  - destruct (write_cell _ _); auto.
  - destruct (nth_error (sv_writes st) j) as [w|]; auto. ss. destruct (w_pc w); try destruct ok; auto.
  - unfold fetch. destruct (read_cell (sv_core st) r0) eqn:E; ss; rewrite nth_error_snoc;
      destruct (Nat.ltb _ _); auto; destruct (Nat.eqb_spec k (length (sv_reads st))); try discriminate;
      intros [= <-]; simpl; right; left; repeat split; auto; discriminate.
  - destruct (nth_error (sv_reads st) j) as [rd0|] eqn:E; auto. ss.
    destruct (rd_pc rd0) eqn:P; auto.
    + destruct (Z.eqb_spec (sv_count st (rd_run rd0)) 0); ss; rewrite nth_error_upd;
        destruct (Nat.eqb_spec j k) as [<-|]; auto; destruct (Nat.ltb _ _); try discriminate; intros [= <-];
        right; right; exists ok, rd0; simpl; repeat split; auto; discriminate.
    + simpl. rewrite nth_error_upd. destruct (Nat.eqb_spec j k) as [<-|]; auto.
      destruct (Nat.ltb _ _); try discriminate; intros [= <-].
      right; right; exists ok, rd0; simpl; repeat split; auto; discriminate.
Qed.

Lemma stream_step st ev k r ls : In (SAnswer k r (AStream ls)) (sv_log (sstep st ev)) ->
  In (SAnswer k r (AStream ls)) (sv_log st) \/
  (ev = SRead k true /\ nth_error (sv_reads st) k = Some {| rd_run := r; rd_pc := RdStream |} /\ ls = sv_file st r).
Proof.
  destruct ev as [ev|r0 flat meta s|r0 e l|j ok|r0|j ok]; simpl.
  - destruct ev; simpl; rewrite ?app_nil_r; auto.
  - destruct (manifest_accepted _ _); ss; rewrite in_app_iff; simpl; intuition discriminate.
  - destruct (write_cell _ _); ss; rewrite in_app_iff; simpl; intuition discriminate.
  - destruct (nth_error (sv_writes st) j) as [w|]; auto. ss.
    destruct (w_pc w), ok; simpl; try rewrite in_app_iff; simpl; try destruct (w_from w); simpl; intuition discriminate.
  - unfold fetch. destruct (read_cell (sv_core st) r0) eqn:E; ss; rewrite in_app_iff; simpl; intuition discriminate.
  - destruct (nth_error (sv_reads st) j) as [rd0|] eqn:E; auto. ss.
    destruct rd0 as [r0 [| |]]; simpl; auto.
    + destruct (Z.eqb _ _); simpl; rewrite in_app_iff; simpl; intuition discriminate.
    + destruct ok; simpl; rewrite in_app_iff; simpl.
      * intros [H|[[= <- <- <-]|[]]]; auto.
      * intuition.
Qed.

Section Init.
Context (f : run_id -> list L) (g : run_id -> option (list L)).
Let init : sstate T M L := sinit f g.

(* A request that got past the gate, traced back through the history. *)
Lemma reads_trace es k rd : nth_error (sv_reads (run sstep init es)) k = Some rd ->
  (rd_pc rd = RdGot ->
     exists es1 es2, es = es1 ++ SFetch (rd_run rd) :: es2 /\ k = length (sv_reads (run sstep init es1)) /\
       finished_and_idle (sv_core (run sstep init es1)) (rd_run rd)) /\
  (rd_pc rd = RdStream ->
     exists es1 es2 ok es3, es = es1 ++ SFetch (rd_run rd) :: es2 ++ SRead k ok :: es3 /\
       k = length (sv_reads (run sstep init es1)) /\
       finished_and_idle (sv_core (run sstep init es1)) (rd_run rd) /\
       sv_count (run sstep init (es1 ++ SFetch (rd_run rd) :: es2)) (rd_run rd) = 0%Z).
Proof.
  revert k rd. induction es as [|ev es IH] using rev_ind; intros k rd H.
  - destruct k; discriminate.
  - rewrite run_app in H. simpl in H.
    destruct (reads_step _ _ _ _ H) as [H'|[(-> & -> & HG & HS)|(ok & rd0 & -> & H' & Er & HG & HS)]].
    + destruct (IH _ _ H') as [A B]. split; intros P.
      * destruct (A P) as (es1 & es2 & -> & Hk & HF). exists es1, (es2 ++ [ev]).
        repeat split; auto. now rewrite <- app_assoc.
      * destruct (B P) as (es1 & es2 & ok & es3 & -> & Hk & HF & HC). exists es1, es2, ok, (es3 ++ [ev]).
        repeat split; auto. rewrite <- app_assoc. simpl. rewrite <- app_assoc. reflexivity.
    + split; intros P; [|congruence].
      exists es, []. repeat split; auto. now apply read_cell_idle, HG.
    + split; intros P; [congruence|]. destruct (HS P) as [P0 HC].
      destruct (IH _ _ H') as [A _]. destruct (A P0) as (es1 & es2 & E & Hk & HF).
      rewrite Er in *. subst es. exists es1, es2, ok, []. repeat split; auto.
      now rewrite <- app_assoc.
Qed.

Lemma stream_trace es k r ls : In (SAnswer k r (AStream ls)) (sv_log (run sstep init es)) ->
  exists es1 es2 ok es3 es4, es = es1 ++ SFetch r :: es2 ++ SRead k ok :: es3 ++ SRead k true :: es4 /\
    k = length (sv_reads (run sstep init es1)) /\
    finished_and_idle (sv_core (run sstep init es1)) r /\
    sv_count (run sstep init (es1 ++ SFetch r :: es2)) r = 0%Z /\
    ls = sv_file (run sstep init (es1 ++ SFetch r :: es2 ++ SRead k ok :: es3)) r.
Proof.
  induction es as [|ev es IH] using rev_ind; intros H.
  - destruct H.
  - rewrite run_app in H. simpl in H. destruct (stream_step _ _ _ _ _ H) as [H'|(-> & HR & ->)].
    + destruct (IH H') as (es1 & es2 & ok & es3 & es4 & -> & R). exists es1, es2, ok, es3, (es4 ++ [ev]).
      split; auto. repeat (rewrite <- app_assoc; simpl). reflexivity.
    + destruct (reads_trace es k _ HR) as [_ B]. destruct (B eq_refl) as (es1 & es2 & ok & es3 & E & Hk & HF & HC).
      simpl in *. exists es1, es2, ok, es3, []. repeat split; auto; subst es.
      * repeat (rewrite <- app_assoc; simpl). reflexivity.
      * reflexivity.
Qed.

(* When nothing is counted, the store has every acknowledged line. *)
Lemma acked_stored st r bad : file_inv f st -> log_inv st -> pending_writes st r = 0 ->
  (forall k, In (SFailed k) (sv_log st) -> failed bad k = true) ->
  exists rest, Permutation (sv_file st r) (f r ++ acked_lines bad r (sv_log st) ++ rest).
Proof.
  intros HFile [HF HA HN HS] HP Hbad.
  set (n := length (sv_writes st)).
  set (line_at := fun k => match nth_error (sv_writes st) k with Some w => stored r w | None => [] end).
  assert (E1 : flat_map (stored r) (sv_writes st) = flat_map line_at (seq 0 n)).
  { unfold line_at, n. clear. generalize (sv_writes st) as l. intros l.
    assert (H : forall (l pre : list (write L)), flat_map (stored r) l =
       flat_map (fun k => match nth_error (pre ++ l) k with Some w => stored r w | None => [] end) (seq (length pre) (length l))).
    { clear l. induction l as [|a l IH]; intros pre; simpl; auto.
      rewrite nth_error_app2, Nat.sub_diag by lia. simpl. f_equal.
      rewrite (IH (pre ++ [a])), app_length. simpl. rewrite Nat.add_1_r.
      now rewrite <- app_assoc. }
    exact (H l []). }
  set (good := fun k => negb (failed bad k)).
  set (keys := flat_map (fun o : sobs L => match o with
                | SAck (Some k) r' _ _ => if Nat.eqb r' r && good k then [k] else [] | _ => [] end) (sv_log st)).
  assert (HK : forall k, In k keys -> exists e l, In (SAck (Some k) r e l) (sv_log st) /\ good k = true).
  { intros k. unfold keys. rewrite in_flat_map. intros [o [Ho Hk]].
    destruct o as [|[j|] r' e l| | | | |]; try destruct Hk.
    destruct (Nat.eqb_spec r' r) as [->|]; simpl in Hk; [|destruct Hk].
    destruct (good j) eqn:G; simpl in Hk; [|destruct Hk]. destruct Hk as [<-|[]]. eauto. }
  assert (HKN : NoDup keys).
  { unfold keys. clear - HN. revert HN. unfold acked_keys. induction (sv_log st) as [|o h IH]; simpl; auto.
    destruct o as [|[j|] r' e l| | | | |]; simpl; auto. intros HN. inversion HN as [|? ? Hn HN']; subst.
    destruct (_ && _); simpl; auto. constructor; auto. intros HI. apply Hn.
    rewrite in_flat_map in *. destruct HI as [o [Ho Hk]]. exists o; split; auto.
    destruct o as [|[i|]| | | | |]; simpl in *; auto. destruct (_ && _); simpl in *; auto. }
  assert (HI : incl keys (seq 0 n)).
  { intros k Hk. destruct (HK k Hk) as (e & l & HL & _). destruct (HA _ _ _ _ HL) as (w & Hw & _).
    apply in_seq. split; [lia|]. simpl. apply nth_error_Some. congruence. }
  destruct (incl_perm keys (seq 0 n) HKN HI) as [rest HPm].
  exists (flat_map line_at rest).
  rewrite (HFile r), E1, <- (flat_map_perm line_at _ _ HPm), flat_map_app.
  apply Permutation_app_head, Permutation_app_tail.
  replace (acked_lines bad r (sv_log st)) with (flat_map line_at keys); [reflexivity|].
  unfold acked_lines, keys, line_at.
  assert (HA' : forall k e l, In (SAck (Some k) r e l) (sv_log st) -> good k = true ->
     exists w, nth_error (sv_writes st) k = Some w /\ stored r w = [l]).
  { intros k e l HL G. destruct (HA _ _ _ _ HL) as (w & Hw & Er & El & _ & Hp). exists w. split; auto.
    unfold stored. rewrite Er, Nat.eqb_refl.
    assert (Hc : counted (w_pc w) = false).
    { destruct (counted (w_pc w)) eqn:Hc; auto. exfalso. unfold pending_writes in HP.
      apply length_zero_iff_nil in HP.
      assert (HIn : In w (filter (fun w => Nat.eqb (w_run w) r && counted (w_pc w)) (sv_writes st))).
      { apply filter_In. split; [eapply nth_error_In; eauto|]. now rewrite Er, Nat.eqb_refl, Hc. }
      rewrite HP in HIn. destruct HIn. }
    destruct (flag (w_pc w)) as [[]|] eqn:Fl.
    - now rewrite El.
    - exfalso. assert (HIn := proj2 (HF k) (ex_intro _ w (conj Hw Fl))). apply Hbad in HIn.
      unfold good in G. rewrite HIn in G. discriminate.
    - destruct (w_pc w); simpl in *; discriminate. }
  clear - HA'. induction (sv_log st) as [|o h IH]; simpl; auto.
  rewrite flat_map_app, IH by (intros; eapply HA'; simpl; eauto).
  f_equal. destruct o as [|[j|] r' e l| | | | |]; simpl; auto.
  destruct (Nat.eqb_spec r' r) as [->|]; simpl; auto. unfold good in *.
  destruct (failed bad j) eqn:G; simpl; auto.
  destruct (HA' j e l) as (w & Hw & Es); [now left|now rewrite G|]. rewrite Hw, Es. reflexivity.
Qed.

Lemma failed_in bad k : In (SFailed k : sobs L) bad -> failed bad k = true.
Proof. intros H. unfold failed. apply existsb_exists. exists (SFailed k). split; auto. apply Nat.eqb_refl. Qed.

Lemma small_prefix es1 es2 : small (run sstep init (es1 ++ es2)) -> small (run sstep init es1).
Proof. unfold small. rewrite run_app. intros H. assert (Q := writes_len_run (run sstep init es1) es2). lia. Qed.

Lemma stored_sent r st : log_inv st -> exists rest,
  Permutation (flat_map (stored r) (sv_writes st) ++ rest) (sent_lines r (sv_log st)).
Proof.
  intros [_ _ _ ->]. induction (sv_writes st) as [|w l [rest IH]]; simpl.
  - exists []. constructor.
  - unfold stored at 1. destruct (Nat.eqb (w_run w) r); simpl; eauto.
    destruct (flag (w_pc w)) as [[]|]; simpl; eauto.
    all: exists (w_line w :: rest); rewrite <- IH; apply Permutation_sym, Permutation_middle.
Qed.

(* Everything streamed was stored before or sent. *)
Lemma file_sent es r : exists rest,
  Permutation (sv_file (run sstep init es) r ++ rest) (f r ++ sent_lines r (sv_log (run sstep init es))).
Proof.
  destruct (stored_sent r _ (log_run f g es)) as [rest H]. exists rest.
  unfold init. rewrite (file_run f g es r), <- app_assoc. now apply Permutation_app_head.
Qed.

(* ---- C17 ---- *)
Definition last_inv r st : Prop := forall l k w, finish_order st r = l ++ [k] -> pending_writes st r = 0 ->
  nth_error (sv_writes st) k = Some w -> w_elig w = true ->
  (exists d, w_pc w = WRemote d) \/ In (SStoreFailed k) (sv_log st) \/ sv_remote st r = Some (sv_file st r).

Lemma fo_app st st' r more : sv_log st' = sv_log st ++ more ->
  (forall o, In o more -> match o with SFinished _ r' => r' <> r | _ => True end) ->
  finish_order st' r = finish_order st r.
Proof.
  intros E H. unfold finish_order. rewrite E, flat_map_app.
  replace (flat_map _ more) with (@nil nat); [now rewrite app_nil_r|].
  clear E. induction more as [|o m IH]; simpl; auto. rewrite <- IH by (intros; apply H; simpl; auto).
  specialize (H o (or_introl eq_refl)). destruct o as [|[]| | | | |]; auto.
  now rewrite (proj2 (Nat.eqb_neq _ _) H).
Qed.

(* Finished writes are writes of that run, past the count. *)
Definition fin_inv st : Prop := forall k r, In (SFinished k r) (sv_log st) ->
  exists w, nth_error (sv_writes st) k = Some w /\ w_run w = r /\ counted (w_pc w) = false /\ w_pc w <> WLooked.

Lemma fin_step st ev : fin_inv st -> fin_inv (sstep st ev).
Proof.
  intros I.
  assert (Same : forall st' more, sv_writes st' = sv_writes st -> sv_log st' = sv_log st ++ more ->
     (forall o, In o more -> match o with SFinished _ _ => False | _ => True end) -> fin_inv st').
  { intros st' more EW EL HM k r. rewrite EL, EW, in_app_iff. intros [H|H]; [now apply I|]. destruct (HM _ H). }
  assert (Add : forall core w, fin_inv (add_write st core w)).
  { intros core w k r. ss. rewrite in_app_iff. intros [H|[?|[]]]; [|discriminate].
    destruct (I _ _ H) as (v & Hv & R). exists v. rewrite nth_error_app1; auto.
    apply nth_error_Some. congruence. }
  assert (Go : forall k w p st' more, nth_error (sv_writes st) k = Some w ->
     sv_writes st' = upd k (wgo w p) (sv_writes st) -> sv_log st' = sv_log st ++ more ->
     (counted (w_pc w) = false -> w_pc w <> WLooked -> counted p = false /\ p <> WLooked) ->
     ((forall o, In o more -> match o with SFinished _ _ => False | _ => True end) \/
      more = [SFinished k (w_run w)] /\ counted p = false /\ p <> WLooked) -> fin_inv st').
  { intros k w p st' more HW EW EL Hp HM j r. rewrite EL, EW, in_app_iff, nth_error_upd.
    assert (Hlt : k < length (sv_writes st)) by (apply nth_error_Some; congruence).
    rewrite (proj2 (Nat.ltb_lt _ _) Hlt). intros [H|H].
    - destruct (I _ _ H) as (v & Hv & Er & Hc & Hl). destruct (Nat.eqb_spec k j) as [<-|]; [|eauto].
      assert (v = w) by congruence; subst v. destruct (Hp Hc Hl). eexists; split; [reflexivity|]. simpl; auto.
    - destruct HM as [HM|(-> & Hc & Hl)]; [destruct (HM _ H)|].
      destruct H as [[= <- <-]|[]]. rewrite Nat.eqb_refl. eexists; split; [reflexivity|]. simpl; auto. }
  destruct ev as [ev|r0 flat meta s0|r0 e l|k ok|r0|k ok]; simpl.
  - destruct ev; auto; (eapply Same; [reflexivity|ss; reflexivity|simpl; intros ? []]).
  - destruct (manifest_accepted _ _); auto. eapply Same; [reflexivity|ss; reflexivity|simpl; intros ? []].
  - destruct (write_cell _ _); auto. eapply Same; [reflexivity|ss; reflexivity|simpl; intros ? [<-|[]]; exact Logic.I].
  - destruct (nth_error _ k) as [w|] eqn:E; [|exact I].
    unfold write_step. destruct (w_pc w) as [| | |d|d|d] eqn:P.
    + eapply Go; [exact E|reflexivity|reflexivity|rewrite P; congruence|left; intros ? []].
    + eapply Go; [exact E|reflexivity|reflexivity|rewrite P; discriminate|left].
      destruct (w_from w), ok; simpl; intros o H; try destruct H as [<-|H]; try exact Logic.I; destruct H.
    + destruct ok; (eapply Go; [exact E|reflexivity|reflexivity|rewrite P; discriminate|left]);
      simpl; intros o H; try destruct H as [<-|H]; try exact Logic.I; destruct H.
    + eapply Go; [exact E|reflexivity|reflexivity|rewrite P; discriminate|right].
      destruct (_ && _); simpl; repeat split; discriminate.
    + destruct ok; (eapply Go; [exact E|reflexivity|reflexivity|split; [reflexivity|discriminate]|left]);
      simpl; intros o H; try destruct H as [<-|H]; try exact Logic.I; destruct H.
    + exact I.
  - unfold fetch; destruct (read_cell (sv_core st) r0); (eapply Same; [reflexivity|ss; reflexivity|simpl]);
      intros o H; repeat destruct H as [<-|H]; try exact Logic.I; destruct H.
  - destruct (nth_error _ k) as [w|] eqn:E; [|exact I].
    unfold read_step. destruct (rd_pc w); try destruct ok; try destruct (Z.eqb _ _); auto;
      (eapply Same; [reflexivity|ss; reflexivity|simpl]);
      intros o H; repeat destruct H as [<-|H]; try exact Logic.I; destruct H.
Qed.

Lemma fin_run es : fin_inv (run sstep init es).
Proof. apply run_invariant; [apply fin_step|]. intros k r []. Qed.

Lemma fo_in st r k : In k (finish_order st r) <-> In (SFinished k r) (sv_log st).
Proof.
  unfold finish_order. rewrite in_flat_map. split.
  - intros [o [Ho Hk]]. destruct o as [|[]| | | | |]; simpl in Hk; try destruct Hk.
    destruct (Nat.eqb_spec r0 r) as [->|]; simpl in Hk; [|destruct Hk]. destruct Hk as [<-|[]]. exact Ho.
  - intros H. eexists; split; [exact H|]. simpl. rewrite Nat.eqb_refl. now left.
Qed.

Lemma counted_pending st r k w : nth_error (sv_writes st) k = Some w -> w_run w = r ->
  counted (w_pc w) = true -> pending_writes st r <> 0.
Proof.
  intros H E C HP. unfold pending_writes in HP. apply length_zero_iff_nil in HP.
  assert (HIn : In w (filter (fun w => Nat.eqb (w_run w) r && counted (w_pc w)) (sv_writes st))).
  { apply filter_In. split; [eapply nth_error_In; eauto|]. now rewrite E, Nat.eqb_refl, C. }
  rewrite HP in HIn. destruct HIn.
Qed.

(* A step that leaves the writes, the store and the remote alone. *)
Lemma last_other r st st' more : last_inv r st -> sv_log st' = sv_log st ++ more ->
  (forall o, In o more -> match o with SFinished _ r' => r' <> r | _ => True end) ->
  sv_writes st' = sv_writes st -> sv_file st' = sv_file st -> sv_remote st' = sv_remote st -> last_inv r st'.
Proof.
  intros I EL HM EW EF ER l k w HO HP HW He. unfold pending_writes in HP. rewrite EW in *.
  rewrite (fo_app st st' r more EL HM) in HO. rewrite ER, EF, EL.
  destruct (I l k w HO HP HW He) as [?|[?|?]]; auto. right; left. apply in_app_iff; auto.
Qed.

Lemma last_step r st ev : fin_inv st -> count_inv st -> small st -> last_inv r st -> last_inv r (sstep st ev).
Proof.
  intros FI CI SM I.
  assert (Add : forall core w, counted (w_pc w) = false -> last_inv r (add_write st core w)).
  { intros core w Hc l k v HO HP HW He.
    erewrite (fo_app st _ r) in HO; [|reflexivity|simpl; intros o [<-|[]]; exact Logic.I].
    unfold pending_writes in HP. ss. rewrite pend_snoc in HP by auto.
    assert (HI : In k (finish_order st r)) by (rewrite HO; apply in_app_iff; simpl; auto).
    apply fo_in, FI in HI. destruct HI as (v' & Hv' & _).
    rewrite nth_error_app1 in HW by (apply nth_error_Some; congruence).
    destruct (I l k v HO HP HW He) as [?|[?|?]]; auto. right; left; apply in_app_iff; auto. }
  destruct ev as [ev|r0 flat meta s0|r0 e l|k ok|r0|k ok]; simpl.
  - destruct ev; auto; (eapply last_other; [exact I|reflexivity|simpl; intros ? []|reflexivity..]).
  - destruct (manifest_accepted _ _); auto. eapply last_other; [exact I|reflexivity|simpl; intros ? []|reflexivity..].
  - destruct (write_cell _ _); auto.
    eapply last_other; [exact I|reflexivity|simpl; intros ? [<-|[]]; exact Logic.I|reflexivity..].
  - destruct (nth_error _ k) as [w|] eqn:E; [|exact I].
    assert (Hlt : k < length (sv_writes st)) by (apply nth_error_Some; congruence).
    destruct (Nat.eqb_spec (w_run w) r) as [Er|Hn].
    + (* a write of this run *)
      unfold write_step. destruct (w_pc w) as [| | |d|d|d] eqn:P.
      * intros l j v HO HP. exfalso. revert HP. eapply (counted_pending _ r k (wgo w _)).
        -- cbn [sv_writes smk]. apply nth_error_upd_eq; auto.
        -- exact Er.
        -- simpl. now destruct (w_from w).
      * intros l j v HO HP. exfalso. revert HP. eapply (counted_pending _ r k (wgo w _)).
        -- cbn [sv_writes smk]. apply nth_error_upd_eq; auto.
        -- exact Er.
        -- reflexivity.
      * intros l j v HO HP. exfalso. revert HP. destruct ok; (eapply (counted_pending _ r k (wgo w _));
         [cbn [sv_writes smk]; apply nth_error_upd_eq; auto|exact Er|reflexivity]).
      * intros l j v HO HP HW He.
        unfold finish_order in HO. cbn [sv_log smk] in HO. rewrite flat_map_app in HO. simpl in HO.
        rewrite Er, Nat.eqb_refl in HO. apply app_inj_tail in HO as [_ <-].
        cbn [sv_writes smk] in HW. rewrite nth_error_upd_eq in HW by auto. injection HW as <-.
        assert (Q := pend_upd st k w (wgo w (if (sv_count st (w_run w) =? 1)%Z && w_elig w then WRemote d else WDone d)) r E eq_refl).
        assert (H1 : pending_writes st r = 1).
        { unfold pending_writes in HP at 1. cbn [sv_writes smk] in HP. rewrite Er in *. rewrite HP, Nat.eqb_refl, P in Q.
          simpl in Q. destruct (_ && _); simpl in Q; lia. }
        left. exists d. simpl. rewrite Er, (count_exact st r CI SM), H1. simpl in He. now rewrite He.
      * destruct ok.
        -- intros l j v HO HP HW He. right; right. cbn [sv_remote sv_file smk]. unfold fset. now rewrite Er, Nat.eqb_refl.
        -- intros l j v HO HP HW He.
           erewrite (fo_app st _ r) in HO; [|reflexivity|simpl; intros o [<-|[]]; exact Logic.I].
           cbn [sv_writes smk] in HW. rewrite nth_error_upd in HW. cbn [sv_remote sv_file sv_log smk].
           destruct (Nat.eqb_spec k j) as [<-|Hkj].
           ++ right; left. apply in_app_iff; right; now left.
           ++ assert (Q := pend_upd st k w (wgo w (WDone d)) r E eq_refl).
              unfold pending_writes in HP at 1. cbn [sv_writes smk] in HP. rewrite HP, P in Q. simpl in Q.
              destruct (I l j v HO) as [?|[?|?]]; auto.
              ** destruct (Nat.eqb _ _); lia.
              ** right; left; apply in_app_iff; auto.
      * exact I.
    + (* a write of another run *)
      intros l j v HO HP HW He.
      assert (EX : exists p more, sv_writes (write_step st k w ok) = upd k (wgo w p) (sv_writes st) /\
         sv_log (write_step st k w ok) = sv_log st ++ more /\
         (forall o, In o more -> match o with SFinished _ r' => r' <> r | _ => True end) /\
         sv_file (write_step st k w ok) r = sv_file st r /\ sv_remote (write_step st k w ok) r = sv_remote st r).
      { assert (Hn' : Nat.eqb r (w_run w) = false) by (apply Nat.eqb_neq; auto).
        unfold write_step. destruct (w_pc w) as [| | |d|d|d] eqn:P; try destruct ok;
          try (eexists _, _; split; [reflexivity|]; split; [reflexivity|];
               cbn [sv_file sv_remote smk]; unfold fset; rewrite ?Hn'; split; [|split; reflexivity];
               simpl; try destruct (w_from w); simpl; intros o H; try destruct H as [<-|H]; auto; try destruct H).
        - exists (WDone d), []. rewrite app_nil_r. repeat split; auto; [|simpl; intros ? []].
          symmetry. apply nth_error_ext. intros i. rewrite nth_error_upd. destruct (Nat.eqb_spec k i) as [<-|]; auto.
          rewrite (proj2 (Nat.ltb_lt _ _) Hlt), E. f_equal. destruct w; simpl in *; subst; reflexivity.
        - exists (WDone d), []. rewrite app_nil_r. repeat split; auto; [|simpl; intros ? []].
          symmetry. apply nth_error_ext. intros i. rewrite nth_error_upd. destruct (Nat.eqb_spec k i) as [<-|]; auto.
          rewrite (proj2 (Nat.ltb_lt _ _) Hlt), E. f_equal. destruct w; simpl in *; subst; reflexivity. }
      destruct EX as (p & more & EW & EL & HM & EF & ERm).
      rewrite (fo_app st _ r _ EL HM) in HO. rewrite EW in HW. rewrite EF, ERm, EL.
      assert (HI : In j (finish_order st r)) by (rewrite HO; apply in_app_iff; simpl; auto).
      apply fo_in, FI in HI. destruct HI as (v' & Hv' & Er' & _).
      assert (k <> j) by (intros ->; congruence).
      rewrite nth_error_upd_neq in HW by auto.
      assert (Q := pend_upd st k w (wgo w p) r E eq_refl). rewrite <- EW in Q. fold (pending_writes (write_step st k w ok) r) in Q.
      rewrite HP, (proj2 (Nat.eqb_neq _ _) Hn) in Q.
      destruct (I l j v HO) as [?|[?|?]]; auto; [lia|]. right; left; apply in_app_iff; auto.
  - unfold fetch; destruct (read_cell (sv_core st) r0); (eapply last_other; [exact I|reflexivity|simpl|reflexivity..]);
      intros o H; repeat destruct H as [<-|H]; try exact Logic.I; destruct H.
  - destruct (nth_error _ k) as [w|] eqn:E; [|exact I].
    unfold read_step. destruct (rd_pc w); try destruct ok; try destruct (Z.eqb _ _); auto;
      (eapply last_other; [exact I|reflexivity|simpl|reflexivity..]);
      intros o H; repeat destruct H as [<-|H]; try exact Logic.I; destruct H.
Qed.

Lemma last_run r es : small (run sstep init es) -> last_inv r (run sstep init es).
Proof.
  induction es as [|ev es IH] using rev_ind; intros H.
  - intros l k w HO. destruct l; discriminate.
  - rewrite run_app. simpl. apply small_prefix in H. apply last_step; auto.
    + apply fin_run.
    + apply count_run.
Qed.

Lemma quiet_pending st r : quiet st r -> pending_writes st r = 0.
Proof.
  intros H. unfold pending_writes. apply length_zero_iff_nil.
  destruct (filter _ (sv_writes st)) as [|w l] eqn:E; auto. exfalso.
  assert (HI : In w (filter (fun w => Nat.eqb (w_run w) r && counted (w_pc w)) (sv_writes st))) by (rewrite E; now left).
  apply filter_In in HI as [HI HC]. apply andb_true_iff in HC as [Hr HC]. apply Nat.eqb_eq in Hr.
  destruct (H w HI Hr) as [ok Hp]. rewrite Hp in HC. discriminate.
Qed.

Lemma remote_complete es r l k : small (run sstep init es) -> quiet (run sstep init es) r ->
  finish_order (run sstep init es) r = l ++ [k] -> taken_at_end (run sstep init es) k ->
  ~ In (SStoreFailed k) (sv_log (run sstep init es)) ->
  sv_remote (run sstep init es) r = Some (sv_file (run sstep init es) r).
Proof.
  intros HS HQ HO (w & HW & He) HF.
  destruct (last_run r es HS l k w HO (quiet_pending _ _ HQ) HW He) as [[d Hd]|[?|?]]; auto; [|contradiction].
  exfalso. assert (HI : In k (finish_order (run sstep init es) r)) by (rewrite HO; apply in_app_iff; simpl; auto).
  apply fo_in, fin_run in HI. destruct HI as (v & Hv & Er & _). assert (v = w) by congruence; subst v.
  destruct (HQ w (nth_error_In _ _ HW) Er) as [ok Hp]. congruence.
Qed.
End Init.
End Lemmas.
