From Verif Require Import Base OffloadModel ResultsFsModel ResultsFsSpec ResultsFsProofs ManifestFsModel ManifestFsSpec.

Section Proofs.
Context {V : Type} (ser : V -> bytes) (parse : bytes -> option V) (consumed : bytes -> nat).
Context (CO : codec_ok ser parse consumed).
Implicit Types (st : mfs V) (ev : mevent V).
Notation step := (mstep ser parse consumed false).

(* The remote has the manifest; the local file has its first n bytes. *)
Definition kept st (r : run_id) (v : V) : Prop :=
  m_remote st r = Some (ser v) /\ exists n, m_disk st r = firstn n (ser v).
Definition kept0 st (r : run_id) (v : V) : Prop :=
  m_remote st r = Some (ser v) /\ (m_disk st r = [] \/ m_disk st r = ser v).

Lemma kept0_kept st r v : kept0 st r v -> kept st r v.
Proof. intros [H [E|E]]; split; auto; [exists 0|exists (length (ser v)); rewrite firstn_all]; auto. Qed.

Lemma ser_ne v : ser v <> [].
Proof.
  intros E. destruct CO as (C1 & C2 & C3 & _). specialize (C3 v 1). rewrite E in C3. simpl in C3.
  specialize (C1 v). rewrite E in C1. rewrite C3 in C1 by lia. discriminate.
Qed.

Lemma parse_nil (v : V) : parse [] = None.
Proof.
  destruct CO as (_ & C2 & _). specialize (C2 v 0). apply C2. destruct (ser v) eqn:E; simpl; [|lia].
  now apply ser_ne in E.
Qed.

Lemma parse_prefix v n x : parse (firstn n (ser v)) = Some x -> x = v /\ firstn n (ser v) = ser v.
Proof.
  destruct CO as (C1 & C2 & _). intros H. destruct (Nat.lt_ge_cases n (length (ser v))) as [L|L].
  - rewrite C2 in H by auto. discriminate.
  - rewrite firstn_all2 in * by auto. rewrite C1 in H. injection H as <-. auto.
Qed.

Lemma parse_rest v n x : parse (skipn n (ser v)) = Some x -> x = v.
Proof.
  destruct CO as (C1 & C2 & C3 & _). destruct n as [|n]; simpl.
  - rewrite C1. congruence.
  - intros H. change (parse (skipn (S n) (ser v)) = Some x) in H. rewrite C3 in H by lia. discriminate.
Qed.

Lemma mother_run st ev r : (match ev with MDump r' _ _ _ | MLoad r' _ | MOffload r' _ _ _ _ => r' end) <> r ->
  m_disk (step st ev) r = m_disk st r /\ m_remote (step st ev) r = m_remote st r /\
  exists a, m_log (step st ev) = m_log st ++ [a] /\ answer_of a <> r.
Proof.
  intros H. destruct ev as [r0 v w s|r0 l|r0 c now ac o]; simpl.
  - destruct w; [destruct s|]; simpl; rewrite ?set_ne by auto; eauto.
  - destruct (parse _); simpl; [eauto|]. destruct (m_remote st r0); simpl; [|eauto].
    destruct l as [|[|]]; simpl; rewrite ?set_ne by auto; repeat split; auto.
    2, 3: eexists; split; [reflexivity|auto].
    eexists; split; [reflexivity|]. destruct (parse _); auto.
  - destruct (file_eligible _ _ _ _) as [[|]|]; simpl; eauto. destruct o; simpl; rewrite ?set_ne by auto; eauto.
Qed.

Lemma kept_step st ev r v : kept st r v -> no_dump r ev ->
  kept (step st ev) r v /\ exists a, m_log (step st ev) = m_log st ++ [a] /\ (forall x, a = MRead r x -> x = v).
Proof.
  intros K D. destruct (Nat.eq_dec (match ev with MDump r' _ _ _ | MLoad r' _ | MOffload r' _ _ _ _ => r' end) r) as [E|E].
  2:{ destruct (mother_run st ev r E) as (A & B & a & L & N). split.
    - unfold kept. now rewrite A, B.
    - exists a. split; auto. intros x ->. now destruct N. }
  destruct ev as [r0 v0 w s|r0 l|r0 c now ac o]; subst r0; simpl in *; [congruence|..]; destruct K as [K1 [n K2]].
  - rewrite K2. destruct (parse (firstn n (ser v))) as [x|] eqn:P; simpl.
    + apply parse_prefix in P as [-> _]. split; [split; eauto|]. eexists; split; [reflexivity|]. congruence.
    + rewrite K1. destruct l as [|[k|]]; simpl.
      * split; [split; simpl; auto; rewrite set_eq; exists (length (ser v)); now rewrite firstn_all|].
        eexists; split; [reflexivity|]. intros x. destruct (parse (skipn _ _)) eqn:P2; [|discriminate].
        intros [= <-]. eapply parse_rest; eauto.
      * split; [split; simpl; auto; rewrite set_eq; eauto|]. eexists; split; [reflexivity|]. discriminate.
      * split; [split; simpl; auto; eauto|]. eexists; split; [reflexivity|]. discriminate.
  - destruct (file_eligible _ _ _ _) as [[|]|]; simpl.
    2, 3: split; [split; simpl; eauto|eexists; split; [reflexivity|discriminate]].
    destruct o; simpl; (split; [split; simpl; auto; rewrite ?set_eq; eauto; exists 0; auto|eexists; split; [reflexivity|discriminate]]).
Qed.

Lemma kept_run es : forall st r v, kept st r v -> (forall ev, In ev es -> no_dump r ev) ->
  kept (run step st es) r v /\
  exists os, m_log (run step st es) = m_log st ++ os /\ (forall x, In (MRead r x) os -> x = v).
Proof.
  induction es as [|ev es IH]; intros st r v K D; simpl.
  - split; auto. exists []. rewrite app_nil_r. split; [auto|intros ? []].
  - destruct (kept_step st ev r v K) as [K1 (a & E1 & R1)]; [apply D; now left|].
    destruct (IH _ r v K1) as [K2 (os & E2 & R2)]; [intros; apply D; now right|]. split; auto.
    exists (a :: os). rewrite E2, E1, <- app_assoc. split; auto. intros x [->|H]; auto.
Qed.

Lemma kept0_step st ev r v : kept0 st r v -> no_dump r ev -> whole_loads r ev -> kept0 (step st ev) r v.
Proof.
  intros K D W. destruct (Nat.eq_dec (match ev with MDump r' _ _ _ | MLoad r' _ | MOffload r' _ _ _ _ => r' end) r) as [E|E].
  2:{ destruct (mother_run st ev r E) as (A & B & _). unfold kept0. now rewrite A, B. }
  destruct ev as [r0 v0 w s|r0 l|r0 c now ac o]; subst r0; simpl in *; [congruence|..]; destruct K as [K1 K2].
  - destruct (parse _); simpl; [split; auto|]. rewrite K1. destruct l as [|[[|k]|]]; simpl.
    + split; simpl; auto. rewrite set_eq. auto.
    + split; simpl; auto. rewrite set_eq. auto.
    + congruence.
    + split; auto.
  - destruct (file_eligible _ _ _ _) as [[|]|]; simpl; [|split; auto..].
    destruct o; simpl; split; simpl; auto; rewrite ?set_eq; auto.
Qed.

Lemma kept0_run es : forall st r v, kept0 st r v -> (forall ev, In ev es -> no_dump r ev /\ whole_loads r ev) ->
  kept0 (run step st es) r v.
Proof.
  induction es as [|ev es IH]; intros st r v K D; simpl; auto.
  apply IH; [|intros; apply D; now right]. destruct (D ev) as [? ?]; [now left|]. now apply kept0_step.
Qed.

Lemma kept0_load st r v : kept0 st r v -> m_log (step st (MLoad r MLoadOk)) = m_log st ++ [MRead r v].
Proof.
  destruct CO as (C1 & C2 & C3 & C4). intros [K1 [K2|K2]]; simpl; rewrite K2.
  - rewrite (parse_nil v), K1. simpl. rewrite C4. change (skipn 0 (ser v)) with (ser v). now rewrite C1.
  - now rewrite C1.
Qed.

Lemma dump_kept st r v w s : length (m_disk st r) <= length (ser v) ->
  m_log (step st (MDump r v w s)) = m_log st ++ [MDumped r v] -> kept0 (step st (MDump r v w s)) r v.
Proof.
  intros L H. simpl in *. destruct w; [destruct s|]; simpl in *; apply app_inv_head in H; try discriminate.
  split; simpl; rewrite !set_eq; unfold overwrite; rewrite skipn_all2, app_nil_r by auto; auto.
Qed.

(* Without offloads, the local file stays. *)
Lemma local_read noop st r v w s es l :
  length (m_disk st r) <= length (ser v) ->
  m_log (mstep ser parse consumed noop st (MDump r v w s)) = m_log st ++ [MDumped r v] ->
  (forall ev, In ev es -> no_dump r ev /\ forall c now ac o, ev <> MOffload r c now ac o) ->
  let st' := run (mstep ser parse consumed noop) st (MDump r v w s :: es) in
  m_log (mstep ser parse consumed noop st' (MLoad r l)) = m_log st' ++ [MRead r v].
Proof.
  destruct CO as (C1 & _). intros L H D st'.
  assert (K : m_disk (mstep ser parse consumed noop st (MDump r v w s)) r = ser v).
  { simpl in *. destruct w; [destruct s|]; simpl in *; apply app_inv_head in H; try discriminate.
    rewrite set_eq. unfold overwrite. now rewrite skipn_all2, app_nil_r by auto. }
  assert (K' : m_disk st' r = ser v).
  { unfold st'. change (run ?f st (?e :: es)) with (run f (f st e) es). revert K D.
    generalize (mstep ser parse consumed noop st (MDump r v w s)). clear - C1.
    induction es as [|ev es IH]; intros st K D; simpl; auto. apply IH; [|intros; apply D; now right].
    destruct (D ev (or_introl eq_refl)) as [D1 D2]. destruct ev as [r0 v0 w s|r0 l|r0 c now ac o]; simpl in *.
    - destruct w; [destruct s|]; simpl; rewrite ?set_ne by auto; auto.
    - destruct (Nat.eq_dec r r0) as [<-|N]; [rewrite K, C1; auto|].
      destruct (parse _); auto. destruct noop; auto. destruct (m_remote st r0); auto. destruct l as [|[|]]; simpl; rewrite ?set_ne by auto; auto.
    - assert (N : r <> r0) by (intros <-; eapply D2; reflexivity).
      destruct (file_eligible _ _ _ _) as [[|]|]; auto. destruct o; simpl; rewrite ?set_ne by auto; auto. }
  simpl. now rewrite K', C1.
Qed.
End Proofs.
