From Verif Require Import Base StatusModel ReportModel RwxModel RwxSpec.

Section Rwx.
Context {P : Type}.
Notation test := (test P). Notation spec := (spec P). Notation tresult := (tresult P). Notation attempt := (attempt P).

(* ---- the summary ---- *)
Definition retried (t : test) : bool := negb (Nat.eqb (length (opt_list (te_past t))) 0).

Lemma number_cons {A} (f : A -> bool) x l : number f (x :: l) = (if f x then 1 else 0) + number f l.
Proof. unfold number. simpl. destruct (f x); reflexivity. Qed.

Lemma account_all (vals : list test) s0 : let s := fold_left account vals s0 in
  su_tests s = su_tests s0 + length vals /\
  su_other_errors s = su_other_errors s0 /\
  su_retries s = su_retries s0 + number retried vals /\
  su_canceled s = su_canceled s0 + number (is_kind KCanceled) vals /\
  su_failed s = su_failed s0 + number (is_kind KFailed) vals /\
  su_pended s = su_pended s0 + number (is_kind KPended) vals /\
  su_quarantined s = su_quarantined s0 + number (is_kind KQuarantined) vals /\
  su_skipped s = su_skipped s0 + number (is_kind KSkipped) vals /\
  su_successful s = su_successful s0 + number (is_kind KSuccessful) vals /\
  su_timed_out s = su_timed_out s0 + number (is_kind KTimedOut) vals /\
  su_todo s = su_todo s0 + number (is_kind KTodo) vals /\
  (su_status s = SSFailed <-> su_status s0 = SSFailed \/ exists t, In t vals /\ bad (kind_of (at_status (te_attempt t))) = true).
Proof.
  revert s0. induction vals as [|t vals IH]; intros s0; simpl.
  - unfold number. simpl. repeat split; try lia; [tauto|]. intros [H|(t & [] & _)]; auto.
  - specialize (IH (account s0 t)). simpl in IH.
    rewrite !number_cons.
    destruct IH as (I1 & I2 & I3 & I4 & I5 & I6 & I7 & I8 & I9 & I10 & I11 & I12).
    unfold is_kind at 1 3 5 7 9 11 13 15.
    rewrite I1, I2, I3, I4, I5, I6, I7, I8, I9, I10, I11, I12. clear.
    unfold account, retried.
    assert (Hex : forall b : bool, (b = true \/ exists t0, In t0 vals /\ bad (kind_of (at_status (te_attempt t0))) = true) <->
      (b = true \/ exists t0, (In t0 vals) /\ bad (kind_of (at_status (te_attempt t0))) = true)) by (intros; reflexivity).
    clear Hex.
    destruct (Nat.eqb (length (opt_list (te_past t))) 0), (at_status (te_attempt t)) eqn:E; simpl;
      (repeat split; try lia);
      try (intros [H|(x & Hx & Hb)]; [first [now left | right; exists t; rewrite E; now auto]|right; exists x; now auto]);
      (intros [H|(x & [<-|Hx] & Hb)]; [now left|rewrite E in Hb; first [now left|discriminate]|right; exists x; now auto]).
Qed.

(* ---- the collected tests ---- *)

Lemma mget_mput_eq {V} i (v : V) m : mget i (mput i v m) = Some v.
Proof.
  induction m as [|[j w] m IH]; simpl; [now rewrite Nat.eqb_refl|].
  destruct (Nat.eqb i j) eqn:E; simpl; [now rewrite Nat.eqb_refl|]. now rewrite E.
Qed.
Lemma mget_mput_neq {V} i j (v : V) m : i <> j -> mget j (mput i v m) = mget j m.
Proof.
  intros N. induction m as [|[k w] m IH]; simpl.
  - destruct (Nat.eqb_spec j i); congruence.
  - destruct (Nat.eqb_spec i k) as [->|]; simpl.
    + destruct (Nat.eqb_spec j k); congruence.
    + now rewrite IH.
Qed.
Lemma mput_keys {V} i (v : V) m : NoDup (map fst m) ->
  NoDup (map fst (mput i v m)) /\ forall k, In k (map fst (mput i v m)) <-> k = i \/ In k (map fst m).
Proof.
  induction m as [|[j w] m IH]; simpl; intros N.
  - split; [repeat constructor; auto|]. intuition congruence.
  - inversion N as [|? ? Nj Nm]; subst. destruct (Nat.eqb_spec i j) as [->|]; simpl.
    + split; [now constructor|]. intuition congruence.
    + destruct (IH Nm) as [A B]. split.
      * constructor; auto. rewrite B. intuition congruence.
      * intros k. rewrite B. intuition congruence.
Qed.
Lemma mget_In {V} i (v : V) m : mget i m = Some v -> In (i, v) m.
Proof.
  induction m as [|[j w] m IH]; simpl; [discriminate|]. destruct (Nat.eqb_spec i j) as [->|]; auto.
  intros H; inversion H; auto.
Qed.
Lemma mget_of_In {V} i (v : V) m : NoDup (map fst m) -> In (i, v) m -> mget i m = Some v.
Proof.
  induction m as [|[j w] m IH]; simpl; [tauto|]. intros N [H|H].
  - inversion H. now rewrite Nat.eqb_refl.
  - inversion N as [|? ? Nj Nm]; subst. destruct (Nat.eqb_spec i j) as [->|]; auto.
    exfalso. apply Nj. apply in_map_iff. now exists (j, v).
Qed.

(* each entry of the map is the test with that id; and comes from a result *)
Definition cok (rs : list tresult) (c : collector P) : Prop :=
  NoDup (map fst (c_tests c)) /\
  (forall i t, In (i, t) (c_tests c) -> te_id t = i /\ of_test i rs <> []).

Lemma of_test_app i (rs : list tresult) r : of_test i (rs ++ [r]) = of_test i rs ++ (if Nat.eqb (sp_id (tr_spec r)) i then [r] else []).
Proof. unfold of_test. rewrite filter_app. simpl. destruct (Nat.eqb _ i); reflexivity. Qed.

Lemma fold_snoc rs r : fold_left push_result (rs ++ [r]) (@cnew P) = push_result (fold_left push_result rs cnew) r.
Proof. now rewrite fold_left_app. Qed.

Lemma cok_put rs r c t errs : cok rs c -> te_id t = sp_id (tr_spec r) ->
  cok (rs ++ [r]) {| c_tests := mput (sp_id (tr_spec r)) t (c_tests c); c_errors := errs |}.
Proof.
  intros [N H] E. set (i := sp_id (tr_spec r)) in *.
  destruct (mput_keys i t (c_tests c) N) as [N' K]. split; simpl; auto.
  intros j u Hu. rewrite of_test_app. fold i.
  apply mget_of_In in Hu; auto. destruct (Nat.eqb_spec i j) as [<-|Ne].
  - rewrite mget_mput_eq in Hu. inversion Hu; subst. split; auto. intros X. now apply app_eq_nil in X as [_ X].
  - rewrite mget_mput_neq in Hu by auto. apply mget_In in Hu. apply H in Hu as [A B]. split; auto. rewrite app_nil_r. auto.
Qed.
Lemma cok_more rs r c errs : cok rs c -> cok (rs ++ [r]) {| c_tests := c_tests c; c_errors := errs |}.
Proof.
  intros [N H]. split; auto. simpl. intros i t Hi. destruct (H _ _ Hi) as [A B]. split; auto.
  rewrite of_test_app. intros X. now apply app_eq_nil in X as [X _].
Qed.

Lemma cok_all rs : cok rs (fold_left push_result rs cnew).
Proof.
  induction rs as [|r rs IH] using rev_ind.
  - split; [constructor|]. intros i t [].
  - rewrite fold_snoc. set (c := fold_left push_result rs cnew) in *. unfold push_result.
    destruct (mget (sp_id (tr_spec r)) (c_tests c)) as [t|] eqn:G.
    + destruct (attempt_from (tr_src r) (tr_spec r)); [now apply cok_more|].
      apply cok_put; auto. simpl. apply mget_In in G. now apply IH in G.
    + destruct (attempt_from (tr_src r) (tr_spec r)); [now apply cok_more|]. simpl.
      destruct (sp_loc (tr_spec r)); [now apply cok_put|].
      destruct (at_status a); try (now apply cok_put). now apply cok_more.
Qed.

(* ---- what Attempt::from yields ---- *)
Lemma conv_material (s : spec) src : material s ->
  exists st, conv_status (sp_status s) (sp_exc s) (sp_bt s) (sp_output s) = inl st /\
    shows {| at_status := st; at_rest := sp_rest s; at_src := src |} src s.
Proof.
  intros M. unfold material in M. unfold shows. destruct (sp_status s) eqn:E; simpl; try congruence;
  eexists; (split; [reflexivity|]); repeat split; reflexivity.
Qed.

(* the loop over the past attempts *)
Fixpoint past_from (src : nat * nat) (l : list spec) : list attempt * list message :=
  match l with
  | [] => ([], [])
  | x :: t =>
      let '(atts, errs) := past_from src t in
      match attempt_from src x with
      | OSynthetic m => (atts, m :: errs)
      | OAttempt a p e => (a :: opt_list p ++ atts, e ++ errs)
      end
  end.

Lemma attempt_from_eq src (s : spec) : attempt_from src s =
  match conv_status (sp_status s) (sp_exc s) (sp_bt s) (sp_output s) with
  | inr m => OSynthetic m
  | inl st =>
      let this := {| at_status := st; at_rest := sp_rest s; at_src := src |} in
      match sp_past s with
      | None => OAttempt this None []
      | Some l => let '(atts, errs) := past_from src l in OAttempt this (Some atts) errs
      end
  end.
Proof.
  destruct s as [i n l st e b o r p]. simpl. destruct (conv_status st e b o) as [x|m]; auto.
  destruct p as [past|]; auto.
  assert (H : forall l0, (fix go (l1 : list spec) : list attempt * list message :=
            match l1 with
            | [] => ([], [])
            | x0 :: t =>
                let '(atts, errs) := go t in
                match attempt_from src x0 with
                | OSynthetic m => (atts, m :: errs)
                | OAttempt a p e0 => (a :: opt_list p ++ atts, e0 ++ errs)
                end
            end) l0 = past_from src l0).
  { induction l0 as [|y l0 IH]; simpl; auto. rewrite IH. reflexivity. }
  now rewrite H.
Qed.

Lemma attempt_no_past src (s : spec) : material s -> opt_list (sp_past s) = [] ->
  exists a p, attempt_from src s = OAttempt a p [] /\ opt_list p = [] /\ shows a src s.
Proof.
  intros M Hp. rewrite attempt_from_eq. destruct (conv_material s src M) as (st & -> & Hs). simpl.
  destruct (sp_past s) as [l|]; simpl in Hp.
  - subst l. simpl. eexists _, _. split; [reflexivity|]. auto.
  - eexists _, _. split; [reflexivity|]. auto.
Qed.

Lemma past_plain src (l : list spec) : (forall s, In s l -> material s /\ opt_list (sp_past s) = []) ->
  exists atts, past_from src l = (atts, []) /\ Forall2 (fun a s => shows a src s) atts l.
Proof.
  induction l as [|s l IH]; intros H; simpl.
  - exists []. auto.
  - destruct IH as (atts & -> & F); [intros; apply H; now right|].
    destruct (H s) as [M Hp]; [now left|].
    destruct (attempt_no_past src s M Hp) as (a & p & -> & Ep & Hs). exists (a :: atts).
    rewrite Ep. simpl. auto.
Qed.

(* a plain result yields its attempts, oldest first, and no errors *)
Lemma attempt_plain (r : tresult) : plain r ->
  exists a p, attempt_from (tr_src r) (tr_spec r) = OAttempt a p [] /\
    Forall2 (fun x y => shows x (fst y) (snd y)) (opt_list p ++ [a]) (timeline r) /\ shows a (tr_src r) (tr_spec r).
Proof.
  intros [M Hp]. rewrite attempt_from_eq. destruct (conv_material (tr_spec r) (tr_src r) M) as (st & -> & Hs). simpl.
  unfold timeline. destruct (sp_past (tr_spec r)) as [l|]; simpl in *.
  - destruct (past_plain (tr_src r) l Hp) as (atts & -> & F). eexists _, _. split; [reflexivity|]. split; [|exact Hs].
    rewrite map_app. simpl. apply Forall2_app; [|constructor; [exact Hs|constructor]].
    clear - F. induction F; simpl; constructor; auto.
  - eexists _, _. split; [reflexivity|]. split; [|exact Hs]. simpl. constructor; [exact Hs|constructor].
Qed.

Definition matches (atts : list attempt) (tl : list ((nat * nat) * spec)) : Prop :=
  Forall2 (fun a y => shows a (fst y) (snd y)) atts tl.

Lemma collected rs i :
  (forall r, In r (of_test i rs) -> plain r) ->
  (forall r rest, of_test i rs = r :: rest -> placed r) ->
  of_test i rs <> [] ->
  exists t, mget i (c_tests (fold_left push_result rs (@cnew P))) = Some t /\
    matches (attempts t) (flat_map timeline (of_test i rs)).
Proof.
  induction rs as [|r rs IH] using rev_ind; intros HP HF HN; [now destruct HN|].
  rewrite fold_snoc. rewrite of_test_app in *. set (c := fold_left push_result rs cnew) in *.
  destruct (Nat.eqb_spec (sp_id (tr_spec r)) i) as [E|Ne].
  - assert (Pr : plain r) by (apply HP, in_or_app; right; now left).
    destruct (attempt_plain r Pr) as (a & p & EA & F & Sh).
    destruct (of_test i rs) as [|r0 rest] eqn:ER.
    + (* the first result *)
      assert (G : mget i (c_tests c) = None).
      { destruct (mget i (c_tests c)) as [t|] eqn:G; auto. apply mget_In in G.
        destruct (cok_all rs) as [_ H]. apply H in G as [_ G]. congruence. }
      specialize (HF r [] eq_refl).
      assert (St : sp_loc (tr_spec r) = None -> forall x y z, at_status a <> AFailed x y z).
      { intros L x y z Hs. destruct HF as [HF|[H1 H2]]; [congruence|].
        destruct Sh as (_ & _ & Sh). destruct (sp_status (tr_spec r)); congruence. }
      unfold push_result. rewrite E, G, EA. simpl. rewrite app_nil_r.
      destruct (sp_loc (tr_spec r)) eqn:EL.
      * simpl. eexists. rewrite mget_mput_eq. split; [reflexivity|rewrite ?app_nil_r; exact F].
      * destruct (at_status a) eqn:Es; try (exfalso; eapply St; eauto; fail);
        simpl; eexists; rewrite mget_mput_eq; (split; [reflexivity|rewrite ?app_nil_r; exact F]).
    + destruct IH as (t & G & Mt).
      * intros r' H. apply HP, in_or_app. now left.
      * intros r' rest' H. apply (HF r' (rest' ++ [r])). simpl in H |- *. congruence.
      * discriminate.
      * unfold push_result. rewrite E, G, EA. simpl. eexists. rewrite mget_mput_eq. split; [reflexivity|].
        unfold attempts. simpl. rewrite flat_map_app, app_assoc. unfold matches in *. simpl (flat_map timeline [r]).
        rewrite app_nil_r.
        replace ((opt_list (te_past t) ++ te_attempt t :: opt_list p) ++ [a]) with (attempts t ++ (opt_list p ++ [a]))
          by (unfold attempts; rewrite <- !app_assoc; reflexivity).
        apply Forall2_app; auto.
  - rewrite app_nil_r in *. destruct IH as (t & G & Mt); auto.
    exists t. split; auto. unfold push_result.
    destruct (mget (sp_id (tr_spec r)) (c_tests c)) as [t0|]; destruct (attempt_from (tr_src r) (tr_spec r)); simpl; auto.
    + now rewrite mget_mput_neq.
    + destruct (sp_loc (tr_spec r)); simpl; [now rewrite mget_mput_neq|].
      destruct (at_status a); simpl; rewrite ?mget_mput_neq; auto.
Qed.

(* ---- errors are never lost ---- *)
Lemma errors_grow c r x : In x (c_errors c) -> In x (c_errors (push_result (P := P) c r)).
Proof.
  intros H. unfold push_result.
  destruct (mget (sp_id (tr_spec r)) (c_tests c)); destruct (attempt_from (tr_src r) (tr_spec r)); simpl; rewrite ?in_app_iff; auto.
  destruct (sp_loc (tr_spec r)); simpl; rewrite ?in_app_iff; auto.
  destruct (at_status a); simpl; rewrite ?in_app_iff; auto.
Qed.
Lemma errors_grow_all rs c x : In x (c_errors c) -> In x (c_errors (fold_left (push_result (P := P)) rs c)).
Proof. revert c. induction rs as [|r rs IH]; intros c H; simpl; auto. apply IH. now apply errors_grow. Qed.

Lemma synthetic_listed rs r c : In r rs -> sp_status (tr_spec r) = PrivateNativeRunnerError ->
  In (match sp_output (tr_spec r) with Some o => MOutput o | None => MNoOutput end)
     (c_errors (fold_left (push_result (P := P)) rs c)).
Proof.
  revert c. induction rs as [|r' rs IH]; intros c H E; [destruct H|]. destruct H as [->|H]; simpl; auto.
  apply errors_grow_all. unfold push_result. rewrite attempt_from_eq, E. simpl.
  destruct (mget (sp_id (tr_spec r)) (c_tests c)); simpl; apply in_app_iff; right; now left.
Qed.
End Rwx.
