(* Invariants of the results plane. *)
From Verif Require Import Base JobQueueModel WorkerSetModel RunModel RunSpec RunProofs RunLemmas RunAnswers ServerModel ServerSpec.
From Coq Require Import Permutation.

(* ---- lists ---- *)
Lemma filter_len_upd {A} (f : A -> bool) k (x y : A) l : nth_error l k = Some x ->
  length (filter f (upd k y l)) + (if f x then 1 else 0) = length (filter f l) + (if f y then 1 else 0).
Proof.
  revert k; induction l as [|a l IH]; intros [|k] H; simpl in *; try discriminate.
  - injection H as ->. destruct (f x), (f y); simpl; lia.
  - specialize (IH k H). destruct (f a); simpl; lia.
Qed.

Lemma incl_perm {A} (l m : list A) : NoDup l -> incl l m -> exists rest, Permutation (l ++ rest) m.
Proof.
  revert m; induction l as [|a l IH]; intros m HN HI.
  - exists m. apply Permutation_refl.
  - destruct (in_split a m) as [m1 [m2 ->]]. { apply HI; now left. }
    inversion HN as [|? ? Hn HN']; subst.
    destruct (IH (m1 ++ m2)) as [rest HP]; auto.
    { intros x Hx. specialize (HI x (or_intror Hx)). rewrite in_app_iff in *. simpl in HI.
      destruct HI as [?|[<-|?]]; auto. contradiction. }
    exists rest. simpl. rewrite HP. apply Permutation_middle.
Qed.

Lemma flat_map_perm {A B} (f : A -> list B) l m : Permutation l m -> Permutation (flat_map f l) (flat_map f m).
Proof.
  induction 1; simpl; auto.
  - now apply Permutation_app_head.
  - rewrite !app_assoc. apply Permutation_app_tail, Permutation_app_comm.
  - etransitivity; eauto.
Qed.

Lemma flat_map_upd_perm {A B} (f : A -> list B) k (x y : A) l add : nth_error l k = Some x ->
  Permutation (f y) (f x ++ add) ->
  Permutation (flat_map f (upd k y l)) (flat_map f l ++ add).
Proof.
  revert k; induction l as [|a l IH]; intros [|k] H HP; simpl in *; try discriminate.
  - injection H as ->. rewrite HP, <- !app_assoc. apply Permutation_app_head, Permutation_app_comm.
  - rewrite <- app_assoc. apply Permutation_app_head. now apply IH.
Qed.

Section Proofs.
Context {T M L : Type}.
Implicit Types (st : sstate T M L) (r : run_id) (w : write L) (es : list (sevent T M L)).

Ltac ss := unfold fetch, read_step, write_step, add_write, set_core, set_reads, smk in *; simpl in *.

Lemma pend_upd st k w w' r : nth_error (sv_writes st) k = Some w -> w_run w' = w_run w ->
  length (filter (fun v => Nat.eqb (w_run v) r && counted (w_pc v)) (upd k w' (sv_writes st)))
   + (if Nat.eqb (w_run w) r then (if counted (w_pc w) then 1 else 0) else 0)
  = pending_writes st r + (if Nat.eqb (w_run w) r then (if counted (w_pc w') then 1 else 0) else 0).
Proof.
  intros H E. assert (Q := filter_len_upd (fun v : write L => Nat.eqb (w_run v) r && counted (w_pc v)) k w w' _ H).
  simpl in Q. rewrite E in Q. unfold pending_writes. destruct (Nat.eqb (w_run w) r); simpl in *; lia.
Qed.

Lemma pend_snoc (l : list (write L)) w r : counted (w_pc w) = false ->
  filter (fun v => Nat.eqb (w_run v) r && counted (w_pc v)) (l ++ [w]) =
  filter (fun v => Nat.eqb (w_run v) r && counted (w_pc v)) l.
Proof. intros H. rewrite filter_app. simpl. rewrite H, andb_false_r. apply app_nil_r. Qed.

(* ---- the counter ---- *)
Definition count_inv st : Prop := forall r, sv_count st r = u64 (Z.of_nat (pending_writes st r)).

Lemma u64_succ z : u64 (u64 z + 1) = u64 (z + 1).
Proof. unfold u64. now rewrite Zplus_mod_idemp_l. Qed.
Lemma u64_pred z : u64 (u64 z - 1) = u64 (z - 1).
Proof. unfold u64. now rewrite Zminus_mod_idemp_l. Qed.

Definition c01 (p : write_pc) : Z := if counted p then 1%Z else 0%Z.

Lemma count_go st st' k w p : count_inv st -> nth_error (sv_writes st) k = Some w ->
  sv_writes st' = upd k (wgo w p) (sv_writes st) ->
  (sv_count st' = sv_count st /\ c01 p = c01 (w_pc w)) \/
  sv_count st' = fset (sv_count st) (w_run w) (u64 (sv_count st (w_run w) + (c01 p - c01 (w_pc w)))) ->
  count_inv st'.
Proof.
  intros I E EW EC r. assert (Q := pend_upd st k w (wgo w p) r E eq_refl). rewrite <- EW in Q.
  fold (pending_writes st' r) in Q. cbn [w_pc wgo] in Q. unfold c01 in EC.
  destruct EC as [[-> Ep]| ->].
  - rewrite I. f_equal. destruct (Nat.eqb_spec (w_run w) r), (counted p), (counted (w_pc w)); simpl in *; lia.
  - unfold fset. rewrite (Nat.eqb_sym r). destruct (Nat.eqb_spec (w_run w) r) as [Er|Hn]; [subst r|].
    + rewrite I. unfold u64 at 1 2. rewrite Zplus_mod_idemp_l. unfold u64. f_equal.
      destruct (counted p), (counted (w_pc w)); simpl in *; lia.
    + rewrite I. f_equal. lia.
Qed.

Lemma count_step st ev : count_inv st -> count_inv (sstep st ev).
Proof.
  intros I.
  destruct ev as [ev|r0 flat meta s|r0 e l|k ok|r0|k ok]; simpl.
  - intros r. specialize (I r). now destruct ev.
  - intros r. specialize (I r). destruct (manifest_accepted _ _); ss; unfold pending_writes in *; simpl; auto.
    rewrite pend_snoc; auto.
  - intros r. specialize (I r). destruct (write_cell _ _); ss; unfold pending_writes in *; simpl; auto.
    rewrite pend_snoc; auto.
  - destruct (nth_error _ k) as [w|] eqn:E; [|exact I].
    unfold write_step.
    destruct (w_pc w) as [| | |d|d|d] eqn:P; try destruct ok; try exact I;
      (eapply count_go; [exact I|exact E|reflexivity|rewrite P]); auto.
    + right. ss. now destruct (w_from w).
    + right. ss. now destruct (w_from w).
    + right. ss. now destruct (_ && _).
    + right. ss. now destruct (_ && _).
  - intros r. specialize (I r). ss. unfold fetch; destruct (read_cell (sv_core st) r0); exact I.
  - intros r. specialize (I r). destruct (nth_error _ k) as [w|] eqn:E; [|exact I].
    ss. destruct (rd_pc w); try destruct ok; try destruct (Z.eqb _ _); exact I.
Qed.

Lemma count_run f g es : count_inv (run sstep (sinit f g) es).
Proof. apply run_invariant; [exact count_step|]. intros r; reflexivity. Qed.

Lemma pend_le st r : pending_writes st r <= length (sv_writes st).
Proof. unfold pending_writes. generalize (sv_writes st). intros l.
  induction l as [|a l IH]; simpl; auto. destruct (_ && _); simpl; lia. Qed.

Lemma writes_len_step st ev : length (sv_writes st) <= length (sv_writes (sstep st ev)).
Proof.
  destruct ev as [ev|r0 flat meta s|r0 e l|k ok|r0|k ok]; simpl.
  - destruct ev; simpl; auto.
  - destruct (manifest_accepted _ _); ss; rewrite ?app_length; lia.
  - destruct (write_cell _ _); ss; rewrite ?app_length; lia.
  - destruct (nth_error _ k) as [w|]; auto. ss.
    destruct (w_pc w); try destruct ok; simpl; rewrite ?upd_length; auto.
  - unfold fetch; destruct (read_cell (sv_core st) r0); simpl; auto.
  - destruct (nth_error _ k) as [w|]; auto. ss.
    destruct (rd_pc w); try destruct ok; try destruct (Z.eqb _ _); simpl; auto.
Qed.

Lemma writes_len_run st es : length (sv_writes st) <= length (sv_writes (run sstep st es)).
Proof. revert st; induction es as [|e es IH]; simpl; auto. intros st.
  etransitivity; [apply (writes_len_step st e)|]. apply IH. Qed.

Lemma count_exact st r : count_inv st -> small st -> sv_count st r = Z.of_nat (pending_writes st r).
Proof.
  intros I H. rewrite I. unfold u64. apply Z.mod_small. unfold small in H.
  assert (Q := pend_le st r). lia.
Qed.

(* ---- the contents of the store ---- *)
Definition flag (p : write_pc) : option bool :=
  match p with WDumped b | WRemote b | WDone b => Some b | _ => None end.
Definition stored r w : list L :=
  if Nat.eqb (w_run w) r then match flag (w_pc w) with Some true => [w_line w] | _ => [] end else [].
Definition file_inv (f : run_id -> list L) st : Prop :=
  forall r, Permutation (sv_file st r) (f r ++ flat_map (stored r) (sv_writes st)).

Lemma stored_snoc r l w : flag (w_pc w) = None -> flat_map (stored r) (l ++ [w]) = flat_map (stored r) l.
Proof. intros H. rewrite flat_map_app. simpl. unfold stored at 2. rewrite H.
  destruct (Nat.eqb _ _); simpl; now rewrite app_nil_r. Qed.

Lemma stored_same st k w p r : nth_error (sv_writes st) k = Some w ->
  flag p = flag (w_pc w) ->
  Permutation (flat_map (stored r) (upd k (wgo w p) (sv_writes st))) (flat_map (stored r) (sv_writes st)).
Proof.
  intros H E. rewrite (flat_map_upd_perm (stored r) k w (wgo w p) _ [] H). { now rewrite app_nil_r. }
  rewrite app_nil_r. unfold stored. simpl. now rewrite E.
Qed.

Lemma file_step f st ev : file_inv f st -> file_inv f (sstep st ev).
Proof.
  intros I r. specialize (I r) as Ir.
  destruct ev as [ev|r0 flat meta s|r0 e l|k ok|r0|k ok]; simpl.
  - destruct ev; exact Ir.
  - destruct (manifest_accepted _ _); ss; auto. now rewrite stored_snoc.
  - destruct (write_cell _ _); ss; auto. now rewrite stored_snoc.
  - destruct (nth_error _ k) as [w|] eqn:E; [|exact Ir].
    unfold write_step.
    destruct (w_pc w) as [| | |d|d|d] eqn:P; ss.
    + rewrite stored_same; auto. rewrite P. now destruct (w_from w).
    + rewrite stored_same; auto. now rewrite P.
    + destruct ok; simpl.
      * unfold fset. rewrite (Nat.eqb_sym r). destruct (Nat.eqb_spec (w_run w) r) as [<-|Hn].
        -- rewrite (flat_map_upd_perm (stored (w_run w)) k w _ _ [w_line w] E).
           2:{ unfold stored; simpl; rewrite Nat.eqb_refl, P. reflexivity. }
           rewrite app_assoc. now apply Permutation_app_tail.
        -- rewrite (flat_map_upd_perm (stored r) k w _ _ [] E).
           2:{ unfold stored; simpl. rewrite (proj2 (Nat.eqb_neq _ _) Hn). reflexivity. }
           now rewrite app_nil_r.
      * rewrite (flat_map_upd_perm (stored r) k w _ _ [] E). { now rewrite app_nil_r. }
        unfold stored; simpl. rewrite P. simpl. now destruct (Nat.eqb _ _).
    + rewrite stored_same; auto. rewrite P. now destruct (_ && _).
    + destruct ok; simpl; rewrite stored_same; auto; now rewrite P.
    + exact Ir.
  - unfold fetch; destruct (read_cell (sv_core st) r0); ss; exact Ir.
  - destruct (nth_error _ k) as [w|] eqn:E; [|exact Ir].
    ss. destruct (rd_pc w); try destruct ok; try destruct (Z.eqb _ _); exact Ir.
Qed.

Lemma file_run f g es : file_inv f (run sstep (sinit f g) es).
Proof. apply run_invariant; [apply file_step|]. intros r; simpl. now rewrite app_nil_r. Qed.

(* The store of a run only grows. *)
Lemma file_grows st ev r : exists more, sv_file (sstep st ev) r = sv_file st r ++ more.
Proof.
  destruct ev as [ev|r0 flat meta s|r0 e l|k ok|r0|k ok]; simpl.
  - exists []. rewrite app_nil_r. now destruct ev.
  - exists []. rewrite app_nil_r. now destruct (manifest_accepted _ _).
  - exists []. rewrite app_nil_r. now destruct (write_cell _ _).
  - destruct (nth_error _ k) as [w|] eqn:E; [|exists []; now rewrite app_nil_r].
    ss. destruct (w_pc w) as [| | |d|d|d] eqn:P; try destruct ok; simpl;
      try (exists []; now rewrite app_nil_r).
    unfold fset. rewrite (Nat.eqb_sym r). destruct (Nat.eqb_spec (w_run w) r) as [<-|]; eauto.
    exists []; now rewrite app_nil_r.
  - exists []. rewrite app_nil_r. now unfold fetch; destruct (read_cell (sv_core st) r0).
  - exists []. rewrite app_nil_r. destruct (nth_error _ k) as [w|]; auto. ss.
    destruct (rd_pc w); try destruct ok; try destruct (Z.eqb _ _); auto.
Qed.
Lemma file_grows_run st es r : exists more, sv_file (run sstep st es) r = sv_file st r ++ more.
Proof.
  revert st; induction es as [|e es IH]; intros st; simpl.
  - exists []. now rewrite app_nil_r.
  - destruct (IH (sstep st e)) as [m1 ->]. destruct (file_grows st e r) as [m2 ->].
    exists (m2 ++ m1). now rewrite app_assoc.
Qed.

(* ---- the log and the writes ---- *)
Lemma log_grows st ev : exists more, sv_log (sstep st ev) = sv_log st ++ more.
Proof.
  destruct ev as [ev|r0 flat meta s|r0 e l|k ok|r0|k ok]; simpl.
  - destruct ev; simpl; eauto; exists []; now rewrite app_nil_r.
  - destruct (manifest_accepted _ _); ss; eauto.
  - destruct (write_cell _ _); ss; eauto.
  - destruct (nth_error _ k) as [w|] eqn:E; [|exists []; now rewrite app_nil_r].
    ss. destruct (w_pc w) as [| | |d|d|d] eqn:P; try destruct ok; simpl; eauto; exists []; now rewrite app_nil_r.
  - unfold fetch; destruct (read_cell (sv_core st) r0); ss; eauto.
  - destruct (nth_error _ k) as [w|]; [|exists []; now rewrite app_nil_r]. ss.
    destruct (rd_pc w); try destruct ok; try destruct (Z.eqb _ _); simpl; eauto; exists []; now rewrite app_nil_r.
Qed.
Lemma log_grows_run st es : exists more, sv_log (run sstep st es) = sv_log st ++ more.
Proof.
  revert st; induction es as [|e es IH]; intros st; simpl.
  - exists []. now rewrite app_nil_r.
  - destruct (IH (sstep st e)) as [m1 ->]. destruct (log_grows st e) as [m2 ->].
    exists (m2 ++ m1). now rewrite app_assoc.
Qed.

(* SFailed k is logged iff the dump of write k failed; an ACK is of a write past its plan. *)
Definition past_ack (p : write_pc) : bool :=
  match p with WLooked | WPlanned => false | _ => true end.
Definition acked_keys (h : list (sobs L)) : list nat :=
  flat_map (fun o => match o with SAck (Some k) _ _ _ => [k] | _ => [] end) h.
Record log_inv st : Prop := {
  li_fail : forall k, In (SFailed k) (sv_log st) <->
              exists w, nth_error (sv_writes st) k = Some w /\ flag (w_pc w) = Some false;
  li_ack : forall k r e l, In (SAck (Some k) r e l) (sv_log st) ->
              exists w, nth_error (sv_writes st) k = Some w /\ w_run w = r /\ w_line w = l /\
              w_from w = Some e /\ past_ack (w_pc w) = true;
  li_nodup : NoDup (acked_keys (sv_log st));
  li_sent : forall r, sent_lines r (sv_log st) =
              flat_map (fun w => if Nat.eqb (w_run w) r then [w_line w] else []) (sv_writes st) }.

Lemma acked_keys_in k (h : list (sobs L)) : In k (acked_keys h) <-> exists r e l, In (SAck (Some k) r e l) h.
Proof.
  unfold acked_keys. rewrite in_flat_map. split.
  - intros [o [Ho Hk]]. destruct o as [|[]| | | | |]; simpl in Hk; try contradiction.
    destruct Hk as [<-|[]]. eauto.
  - intros (r & e & l & H). exists (SAck (Some k) r e l). simpl; auto.
Qed.

Lemma sent_upd k (w w' : write L) l r : nth_error l k = Some w -> w_run w' = w_run w -> w_line w' = w_line w ->
  flat_map (fun w => if Nat.eqb (w_run w) r then [w_line w] else []) (upd k w' l) =
  flat_map (fun w => if Nat.eqb (w_run w) r then [w_line w] else []) l.
Proof.
  intros H E1 E2. revert k H; induction l as [|a l IH]; intros [|k] H; simpl in *; try discriminate.
  - injection H as ->. now rewrite E1, E2.
  - now rewrite (IH k H).
Qed.

(* A step that touches neither the writes nor the logged facts about them. *)
Lemma log_inv_other st st' more : log_inv st -> sv_writes st' = sv_writes st -> sv_log st' = sv_log st ++ more ->
  (forall o, In o more -> match o with SFailed _ | SSent _ _ _ | SAck (Some _) _ _ _ => False | _ => True end) ->
  log_inv st'.
Proof.
  intros [A B C D] EW EL HM.
  split.
  - intros k. rewrite EL, EW, in_app_iff, <- A. split; auto. intros [?|HI]; auto. destruct (HM _ HI).
  - intros k r e l. rewrite EL, EW, in_app_iff. intros [?|HI]; eauto. destruct (HM _ HI).
  - rewrite EL. unfold acked_keys. rewrite flat_map_app.
    replace (flat_map _ more) with (@nil nat); [now rewrite app_nil_r|].
    clear - HM. induction more as [|o m IH]; simpl; auto. rewrite <- IH by (intros; apply HM; simpl; auto).
    specialize (HM o (or_introl eq_refl)). now destruct o as [|[]| | | | |].
  - intros r. rewrite EL, EW, <- D. unfold sent_lines. rewrite flat_map_app.
    replace (flat_map _ more) with (@nil L); [now rewrite app_nil_r|].
    clear - HM. induction more as [|o m IH]; simpl; auto. rewrite <- IH by (intros; apply HM; simpl; auto).
    specialize (HM o (or_introl eq_refl)). now destruct o as [|[]| | | | |].
Qed.

Lemma log_inv_add st core w : log_inv st -> flag (w_pc w) = None -> log_inv (add_write st core w).
Proof.
  intros [A B C D] HF. split; ss.
  - intros k. rewrite in_app_iff, A. simpl. split.
    + intros [[v [Hv Hf]]|[?|[]]]; [|discriminate]. exists v. split; auto.
      rewrite nth_error_app1; auto. apply nth_error_Some; congruence.
    + intros [v [Hv Hf]]. left. exists v. split; auto. rewrite nth_error_snoc in Hv.
      destruct (Nat.ltb _ _); auto. destruct (Nat.eqb _ _); try discriminate.
      injection Hv as <-. congruence.
  - intros k r e l. rewrite in_app_iff. simpl. intros [H|[?|[]]]; [|discriminate].
    destruct (B k r e l H) as [v [Hv Hr]]. exists v. split; auto.
    rewrite nth_error_app1; auto. apply nth_error_Some; congruence.
  - unfold acked_keys. rewrite flat_map_app. simpl. now rewrite app_nil_r.
  - intros r. unfold sent_lines in *. rewrite !flat_map_app, D. simpl. reflexivity.
Qed.

Lemma log_inv_go st st' k w p more : log_inv st -> nth_error (sv_writes st) k = Some w ->
  sv_writes st' = upd k (wgo w p) (sv_writes st) -> sv_log st' = sv_log st ++ more ->
  (past_ack (w_pc w) = true -> past_ack p = true) ->
  (flag (w_pc w) = Some false -> flag p = Some false) ->
  (flag p = Some false -> flag (w_pc w) = Some false \/ more = [SFailed k]) ->
  (more = [] \/ more = [SFinished k (w_run w)] \/ more = [SStoreFailed k] \/
   (more = [SFailed k] /\ flag p = Some false) \/
   (exists e, w_from w = Some e /\ past_ack (w_pc w) = false /\ past_ack p = true /\
              more = [SAck (Some k) (w_run w) e (w_line w)])) ->
  log_inv st'.
Proof.
  intros [A B C D] HW EW EL HP HF1 HF2 HM.
  assert (Hlt : k < length (sv_writes st)) by (apply nth_error_Some; congruence).
  split.
  - intros j. rewrite EL, EW, in_app_iff, A, nth_error_upd.
    destruct (Nat.eqb_spec k j) as [<-|Hn].
    + rewrite (proj2 (Nat.ltb_lt _ _) Hlt). split.
      * intros [[v [Hv Hf]]|HI].
        -- assert (v = w) by congruence; subst v. eexists; split; [reflexivity|]. simpl. auto.
        -- eexists; split; [reflexivity|]. simpl.
           destruct HM as [->|[->|[->|[[-> ?]|(e & ? & ? & ? & ->)]]]]; simpl in HI; intuition discriminate.
      * intros [v [[= <-] Hf]]. simpl in Hf. destruct (HF2 Hf) as [?| ->]; [left; eauto|right; now left].
    + split; [intros [H|HI]; auto|now left].
      exfalso. destruct HM as [->|[->|[->|[[-> ?]|(e & ? & ? & ? & ->)]]]]; simpl in HI; intuition congruence.
  - intros j r e l. rewrite EL, EW, in_app_iff, nth_error_upd. intros [HI|HI].
    + destruct (B j r e l HI) as (v & Hv & <- & <- & Hfr & Hp).
      destruct (Nat.eqb_spec k j) as [<-|Hn]; [|exists v; auto].
      rewrite (proj2 (Nat.ltb_lt _ _) Hlt). assert (v = w) by congruence; subst v.
      eexists; split; [reflexivity|]. simpl. auto.
    + destruct HM as [->|[->|[->|[[-> ?]|(e' & ? & ? & ? & ->)]]]]; simpl in HI; try (intuition discriminate).
      destruct HI as [[= <- <- <- <-]|[]]. rewrite Nat.eqb_refl, (proj2 (Nat.ltb_lt _ _) Hlt).
      eexists; split; [reflexivity|]. simpl. auto.
  - rewrite EL. unfold acked_keys. rewrite flat_map_app.
    destruct HM as [->|[->|[->|[[-> ?]|(e' & ? & Hp & ? & ->)]]]]; simpl; rewrite ?app_nil_r; auto.
    apply (Permutation_NoDup (Permutation_cons_append _ k)). constructor; auto.
    fold (acked_keys (sv_log st)). rewrite acked_keys_in. intros (r & e & l & HI).
    destruct (B _ _ _ _ HI) as (v & Hv & _ & _ & _ & Hp'). congruence.
  - intros r. rewrite EL, EW, (sent_upd k w (wgo w p)), <- D; auto. unfold sent_lines. rewrite flat_map_app.
    destruct HM as [->|[->|[->|[[-> ?]|(e' & ? & Hp & ? & ->)]]]]; simpl; now rewrite ?app_nil_r.
Qed.

Ltac fin := repeat match goal with H : w_pc _ = _ |- _ => rewrite H end; simpl;
  repeat match goal with |- context [match ?x with _ => _ end] => destruct x; simpl end;
  try discriminate; auto 6.
Lemma log_step st ev : log_inv st -> log_inv (sstep st ev).
Proof.
  intros I.
  destruct ev as [ev|r0 flat meta s|r0 e l|k ok|r0|k ok]; simpl.
  - destruct ev; auto; (eapply log_inv_other; [exact I|reflexivity|ss; reflexivity|simpl; intros ? []]).
  - destruct (manifest_accepted _ _).
    + now apply log_inv_add.
    + eapply log_inv_other; [exact I|reflexivity|ss; reflexivity|simpl; intros ? []].
  - destruct (write_cell _ _).
    + now apply log_inv_add.
    + eapply log_inv_other; [exact I|reflexivity|ss; reflexivity|simpl; intros ? [<-|[]]; exact Logic.I].
  - destruct (nth_error _ k) as [w|] eqn:E; [|exact I].
    unfold write_step.
    destruct (w_pc w) as [| | |d|d|d] eqn:P.
    + eapply log_inv_go; [exact I|exact E|reflexivity|reflexivity|fin..].
    + eapply log_inv_go; [exact I|exact E|reflexivity|reflexivity|fin|fin|fin|].
      destruct (w_from w) as [e|] eqn:F; auto. destruct ok; auto.
      right; right; right; right. exists e. rewrite P. auto.
    + destruct ok; (eapply log_inv_go; [exact I|exact E|reflexivity|reflexivity|fin..]).
    + eapply log_inv_go; [exact I|exact E|reflexivity|reflexivity|fin..].
    + destruct ok; (eapply log_inv_go; [exact I|exact E|reflexivity|reflexivity|fin..]).
    + exact I.
  - unfold fetch; destruct (read_cell (sv_core st) r0); (eapply log_inv_other; [exact I|reflexivity|ss; reflexivity|simpl]);
      intros o H; repeat destruct H as [<-|H]; try exact Logic.I; destruct H.
  - destruct (nth_error _ k) as [w|] eqn:E; [|exact I].
    unfold read_step. destruct (rd_pc w); try destruct ok; try destruct (Z.eqb _ _); auto;
      (eapply log_inv_other; [exact I|reflexivity|ss; reflexivity|simpl]);
      intros o H; repeat destruct H as [<-|H]; try exact Logic.I; destruct H.
Qed.

Lemma log_run f g es : log_inv (run sstep (sinit f g) es).
Proof.
  apply run_invariant; [apply log_step|]. split; simpl; auto; try contradiction.
  - intros k; split; [contradiction|]. intros [w [H _]]. destruct k; discriminate.
  - constructor.
Qed.
End Proofs.
