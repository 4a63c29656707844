From Verif Require Import Base RunModel InstanceModel InstanceSpec.

(* ---------------- periodic jobs ---------------- *)

(* The invariant: the log is well formed; the running call is the one the log
   says; at most one call is in progress, and only while active. *)
Definition jinv (st : jstate) : Prop :=
  exists o, one_at_a_time (j_log st) o /\
    (forall i, nth_error (j_calls st) i = Some JRunning <-> o = Some i) /\
    (forall i, in_progress st i -> j_active st = true) /\
    (forall i k, in_progress st i -> in_progress st k -> i = k).

Lemma upd_some {A} i (x : A) l k y : nth_error l i = Some y ->
  nth_error (upd i x l) k = if Nat.eqb i k then Some x else nth_error l k.
Proof.
  intros H. rewrite nth_error_upd. destruct (Nat.eqb_spec i k); auto.
  assert (i < length l) by (apply nth_error_Some; congruence).
  destruct (Nat.ltb_spec i (length l)); auto; lia.
Qed.

Lemma snoc_some {A} (l : list A) x k y : nth_error (l ++ [x]) k = Some y ->
  nth_error l k = Some y \/ (k = length l /\ x = y).
Proof.
  intros H. destruct (Nat.ltb_spec k (length l)).
  - rewrite nth_error_app1 in H by lia. auto.
  - rewrite nth_error_app2 in H by lia. destruct (k - length l) eqn:E; simpl in H.
    + inversion H. right. split; auto; lia.
    + destruct n; discriminate.
Qed.

Lemma snoc_old {A} (l : list A) x k y : nth_error l k = Some y -> nth_error (l ++ [x]) k = Some y.
Proof. intros H. rewrite nth_error_app1; auto. apply nth_error_Some; congruence. Qed.

Lemma jinv_init : jinv jinit.
Proof.
  exists None. repeat split; simpl; try constructor.
  - destruct i; discriminate.
  - discriminate.
  - intros i [H|H]; destruct i; discriminate.
  - intros i k [H|H]; destruct i; discriminate.
Qed.

Ltac jcase E := match goal with |- context [nth_error (j_calls ?s) ?i] => destruct (nth_error (j_calls s) i) as [[]|] eqn:E end.

Lemma jinv_step st ev : jinv st -> jinv (jstep st ev).
Proof.
  intros (o & L & R & A & U). destruct ev as [|i|i|i|i]; simpl.
  - exists o. simpl. repeat split; auto.
    + intros H. apply snoc_some in H as [H|[_ H]]; [now apply R|discriminate].
    + intros H. apply snoc_old. now apply R.
    + intros i [H|H]; apply snoc_some in H as [H|[_ H]]; try discriminate; apply (A i); red; auto.
    + intros i k Hi Hk. apply U.
      * destruct Hi as [H|H]; apply snoc_some in H as [H|[_ H]]; try discriminate; red; auto.
      * destruct Hk as [H|H]; apply snoc_some in H as [H|[_ H]]; try discriminate; red; auto.
  - jcase E; try (exists o; now auto).
    destruct (j_active st) eqn:EA.
    + exists o. unfold in_progress. simpl. split; [now constructor|]. split; [|split].
      * intros k. rewrite (upd_some _ _ _ _ _ E). destruct (Nat.eqb_spec i k) as [->|].
        -- split; [discriminate|]. intros H. apply R in H. congruence.
        -- apply R.
      * auto.
      * intros k k'. rewrite !(upd_some _ _ _ _ _ E).
        destruct (Nat.eqb_spec i k); [intros [H|H]; discriminate|].
        destruct (Nat.eqb_spec i k'); [intros _ [H|H]; discriminate|]. apply U.
    + assert (N : forall k, ~ in_progress st k) by (intros k H; apply A in H; congruence).
      assert (o = None) as ->.
      { destruct o as [k|]; auto. exfalso. apply (N k). left. now apply R. }
      exists (Some i). unfold in_progress. simpl. split; [now constructor|]. split; [|split].
      * intros k. rewrite (upd_some _ _ _ _ _ E). destruct (Nat.eqb_spec i k) as [->|]; [tauto|].
        split; [|congruence]. intros H. exfalso. apply (N k). now left.
      * auto.
      * intros k k'. rewrite !(upd_some _ _ _ _ _ E).
        destruct (Nat.eqb_spec i k); destruct (Nat.eqb_spec i k'); try congruence.
        -- intros _ H. exfalso. now apply (N k').
        -- intros H. exfalso. now apply (N k).
        -- intros H. exfalso. now apply (N k).
  - jcase E; try (exists o; now auto).
    assert (o = Some i) as -> by now apply R.
    exists None. unfold in_progress. simpl. split; [now constructor|]. split; [|split].
    + intros k. rewrite (upd_some _ _ _ _ _ E). destruct (Nat.eqb_spec i k) as [->|]; [split; discriminate|].
      split; [|discriminate]. intros H. apply R in H. congruence.
    + intros _ _. apply (A i). now left.
    + intros k k'. rewrite !(upd_some _ _ _ _ _ E).
      assert (P : in_progress st i) by now left.
      destruct (Nat.eqb_spec i k); destruct (Nat.eqb_spec i k'); try congruence; intros H H'.
      -- now rewrite <- (U i k').
      -- rewrite (U k i); auto.
      -- now apply U.
  - jcase E; try (exists o; now auto).
    assert (P : in_progress st i) by now right.
    exists o. unfold in_progress. simpl. rewrite app_nil_r. split; [auto|]. split; [|split].
    + intros k. rewrite (upd_some _ _ _ _ _ E). destruct (Nat.eqb_spec i k) as [->|]; [|apply R].
      split; [discriminate|]. intros H. apply R in H. congruence.
    + intros k. rewrite (upd_some _ _ _ _ _ E). destruct (Nat.eqb_spec i k) as [->|]; [intros [H|H]; discriminate|].
      intros H. exfalso. apply n. now apply U.
    + intros k k'. rewrite !(upd_some _ _ _ _ _ E).
      destruct (Nat.eqb_spec i k); [intros [H|H]; discriminate|].
      destruct (Nat.eqb_spec i k'); [intros _ [H|H]; discriminate|]. apply U.
  - jcase E; try (exists o; now auto).
    + exists o. unfold in_progress. simpl. rewrite app_nil_r. split; [auto|]. split; [|split].
      * intros k. rewrite (upd_some _ _ _ _ _ E). destruct (Nat.eqb_spec i k) as [->|]; [|apply R].
        split; [discriminate|]. intros H. apply R in H. congruence.
      * intros k. rewrite (upd_some _ _ _ _ _ E). destruct (Nat.eqb_spec i k) as [->|]; [intros [H|H]; discriminate|]. apply A.
      * intros k k'. rewrite !(upd_some _ _ _ _ _ E).
        destruct (Nat.eqb_spec i k); [intros [H|H]; discriminate|].
        destruct (Nat.eqb_spec i k'); [intros _ [H|H]; discriminate|]. apply U.
    + assert (o = Some i) as -> by now apply R.
      exists None. unfold in_progress. simpl. split; [now constructor|]. split; [|split].
      * intros k. rewrite (upd_some _ _ _ _ _ E). destruct (Nat.eqb_spec i k) as [->|]; [split; discriminate|].
        split; [|discriminate]. intros H. apply R in H. congruence.
      * intros k. rewrite (upd_some _ _ _ _ _ E). destruct (Nat.eqb_spec i k) as [->|]; [intros [H|H]; discriminate|]. apply A.
      * intros k k'. rewrite !(upd_some _ _ _ _ _ E).
        destruct (Nat.eqb_spec i k); [intros [H|H]; discriminate|].
        destruct (Nat.eqb_spec i k'); [intros _ [H|H]; discriminate|]. apply U.
Qed.

Lemma jinv_run es : jinv (run jstep jinit es).
Proof. apply run_invariant. - intros; now apply jinv_step. - apply jinv_init. Qed.

(* Without drops the flag is set only while a call is in progress. *)
Definition jlive (st : jstate) : Prop := j_active st = true -> exists i, in_progress st i.

Lemma jlive_step st ev : (forall i, ev <> JDrop i) -> jinv st -> jlive st -> jlive (jstep st ev).
Proof.
  intros D (o & _ & _ & A & U) H. unfold jlive in *.
  destruct ev as [|i|i|i|i]; simpl; [| | | |now destruct (D i)].
  - intros HA. destruct (H HA) as (i & [Hi|Hi]); exists i; [left|right]; now apply snoc_old.
  - jcase E; auto. destruct (j_active st) eqn:EA; simpl; intros _.
    + destruct (H eq_refl) as (k & Hk). exists k. unfold in_progress in *. simpl.
      rewrite (upd_some _ _ _ _ _ E). destruct (Nat.eqb_spec i k) as [->|]; auto.
      destruct Hk; congruence.
    + exists i. left. simpl. rewrite (upd_some _ _ _ _ _ E). now rewrite Nat.eqb_refl.
  - jcase E; auto. simpl. intros _. exists i. right. simpl. rewrite (upd_some _ _ _ _ _ E). now rewrite Nat.eqb_refl.
  - jcase E; auto. simpl. discriminate.
Qed.

Lemma jlive_run es : (forall i, ~ In (JDrop i) es) -> jlive (run jstep jinit es).
Proof.
  induction es as [|e es IH] using rev_ind; intros D.
  - red. discriminate.
  - rewrite run_app. simpl. apply jlive_step.
    + intros i ->. apply (D i). apply in_or_app. right. now left.
    + apply jinv_run.
    + apply IH. intros i Hi. apply (D i). apply in_or_app. now left.
Qed.

(* Once the flag is set with nobody to reset it, no job begins again. *)
Definition jstuck (n : nat) (st : jstate) : Prop :=
  j_active st = true /\ (forall i, ~ in_progress st i) /\ length (filter (fun o => match o with JBegan _ => true | _ => false end) (j_log st)) = n.

Lemma jstuck_step n st ev : jstuck n st -> jstuck n (jstep st ev).
Proof.
  intros (A & N & L). destruct ev as [|i|i|i|i]; simpl.
  - repeat split; auto. intros i [H|H]; apply snoc_some in H as [H|[_ H]]; try discriminate; apply (N i); red; auto.
  - jcase E; try (repeat split; now auto). rewrite A. repeat split; simpl; auto.
    + intros k. unfold in_progress. simpl. rewrite (upd_some _ _ _ _ _ E).
      destruct (Nat.eqb_spec i k); [intros [H|H]; discriminate|]. apply N.
    + rewrite filter_app, app_length. simpl. lia.
  - jcase E; try (repeat split; now auto). exfalso. apply (N i). now left.
  - jcase E; try (repeat split; now auto). exfalso. apply (N i). now right.
  - jcase E; try (repeat split; now auto).
    + repeat split; simpl; auto.
      * intros k. unfold in_progress. simpl. rewrite (upd_some _ _ _ _ _ E).
        destruct (Nat.eqb_spec i k); [intros [H|H]; discriminate|]. apply N.
      * now rewrite app_nil_r.
    + exfalso. apply (N i). now left.
Qed.

(* ---------------- signals ---------------- *)
Section Instance.
Context {T M : Type}.
Notation istate := (istate T M).

Definition iinv (st : istate) : Prop :=
  i_panicked st = false /\
  (i_received st = i_retired st) /\
  (i_killed st = true -> i_retired st = true) /\
  (i_signals st = 0 -> i_thread st = SigWait /\ i_chan st = 0 /\ i_retired st = false /\ i_killed st = false) /\
  (i_thread st = SigWait -> i_chan st = 0 /\ i_retired st = false) /\
  (i_thread st = SigSent -> i_chan st = 1 /\ i_retired st = false /\ i_killed st = false \/ i_chan st = 0 /\ i_retired st = true /\ i_killed st = false) /\
  (i_thread st = SigEnded -> i_chan st = 1 /\ i_retired st = false /\ i_killed st = false \/ i_chan st = 0 /\ i_retired st = true).

Lemma iinv_init : iinv iinit.
Proof. unfold iinv; simpl; intuition; try discriminate. Qed.

Lemma iinv_step st ev : iinv st -> iinv (istep st ev).
Proof.
  destruct st as [s t c rc rt kl pn rs]. unfold iinv; simpl.
  intros (P & R & K & Z & W & S1 & S2). subst pn rt.
  destruct ev; simpl.
  - destruct t; intuition (try discriminate).
  - destruct t; simpl.
    + destruct (Nat.ltb_spec 0 s); simpl.
      * destruct W as [-> ->]; auto. destruct kl; [discriminate K; auto|]. intuition (try discriminate; try lia).
      * intuition (try discriminate).
    + intuition (try discriminate; try congruence).
    + intuition (try discriminate).
  - destruct kl; simpl; [intuition (try discriminate; try congruence)|].
    destruct c as [|c].
    + destruct t; try (simpl; intuition (try discriminate); fail).
      unfold on_recv; simpl. destruct rc; simpl.
      * intuition (try discriminate; try congruence).
      * exfalso. destruct S2 as [(H & _)|(_ & H)]; auto; discriminate.
    + unfold on_recv; simpl.
      destruct rc; simpl.
      * exfalso. destruct t.
        -- destruct W; auto; discriminate.
        -- destruct S1 as [(_ & H & _)|(H & _)]; auto; discriminate.
        -- destruct S2 as [(_ & H & _)|(H & _)]; auto; discriminate.
      * assert (c = 0). { destruct t; [destruct W; auto; discriminate| |];
          [destruct S1 as [(H & _)|(H & _)]|destruct S2 as [(H & _)|(H & _)]]; auto; congruence. }
        subst c.
        destruct t; [destruct W; auto; discriminate| |];
        intuition (try discriminate; try congruence).
  - destruct kl; simpl; [intuition (try discriminate; try congruence)|]. intuition (try discriminate; try congruence).
Qed.

Lemma iinv_run es : iinv (run istep iinit es).
Proof. apply run_invariant. - intros; now apply iinv_step. - apply iinv_init. Qed.

Lemma signals_run (es : list (ievent T M)) st : i_signals (run istep st es) = i_signals st + signals es.
Proof.
  revert st. induction es as [|e es IH]; intros st; simpl; [unfold signals; simpl; lia|].
  rewrite IH. unfold signals. simpl. destruct e; simpl.
  - lia.
  - destruct (i_thread st); simpl; auto. destruct (Nat.ltb 0 (i_signals st)); simpl; auto.
  - destruct (i_killed st || i_panicked st); auto. destruct (i_chan st); [destruct (i_thread st)|]; auto;
    unfold on_recv; destruct (i_received st); auto; destruct (i_retired st); auto.
  - destruct (i_killed st || i_panicked st); auto.
Qed.

Lemma killed_step st ev : i_killed (istep (T:=T) (M:=M) st ev) = false -> i_killed st = false.
Proof.
  destruct ev; simpl; auto.
  - destruct (i_thread st); simpl; auto. destruct (Nat.ltb 0 (i_signals st)); auto.
  - destruct (i_killed st) eqn:E; simpl; auto; congruence.
  - destruct (i_killed st) eqn:E; simpl; auto; congruence.
Qed.

Lemma runs_alive (es : list (ievent T M)) : i_killed (run istep iinit es) = false ->
  i_runs (run istep iinit es) = run RunModel.step init_state (requests es).
Proof.
  induction es as [|e es IH] using rev_ind; intros K; [reflexivity|].
  rewrite run_app in *. simpl in *.
  pose proof (killed_step _ _ K) as K'.
  assert (RQ : forall a b : list (ievent T M), requests (a ++ b) = requests a ++ requests b).
  { clear. intros a b. induction a as [|[| | |x] a IH]; simpl; auto. now rewrite IH. }
  rewrite RQ, run_app, <- IH by auto.
  set (st := run istep iinit es) in *.
  assert (P : i_panicked st = false) by apply iinv_run.
  destruct e; simpl; auto.
  - destruct (i_thread st); simpl; auto. destruct (Nat.ltb 0 (i_signals st)); auto.
  - rewrite K', P. simpl. destruct (i_chan st); [destruct (i_thread st)|]; auto;
    unfold on_recv; destruct (i_received st); auto; destruct (i_retired st); auto.
  - rewrite K', P. reflexivity.
Qed.

Lemma one_signal_kills (es : list (ievent T M)) : 1 <= signals es ->
  i_killed (run istep iinit (es ++ [IThread; IThread; IMain; IMain])) = true.
Proof.
  intros H. rewrite run_app.
  pose proof (signals_run es iinit) as E. pose proof (iinv_run es) as I.
  set (st := run istep iinit es) in *. clearbody st. simpl in E.
  destruct st as [s t c rc rt kl pn rs]. unfold iinv in I; simpl in *.
  destruct I as (P & R & K & Z & W & S1 & S2). subst pn rt.
  destruct s as [|s]; [lia|].
  destruct t.
  - destruct W as [-> ->]; auto. destruct kl; [discriminate K; auto|]. reflexivity.
  - destruct S1 as [(-> & -> & ->)|(-> & -> & ->)]; auto.
  - destruct S2 as [(-> & -> & ->)|(-> & ->)]; auto. destruct kl; reflexivity.
Qed.
End Instance.
