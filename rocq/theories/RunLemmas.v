(* Properties of runs, by induction over the effects on one run. *)
From Verif Require Import Base JobQueueModel WorkerSetModel RunModel RunSpec RunProofs RunInv RunNext.
From Verif Require WorkerSetSpec WorkerSetProofs JobQueueSpec JobQueueProofs JobQueueLemmas.

Section Lemmas.
Context {T M : Type}.
Implicit Types (st : state T M) (r : run_id) (s : run_state T M) (h : list (obs T M)).

Lemma reachable_init : reachable (@init_state T M).
Proof. exists []; reflexivity. Qed.

Lemma reachable_step st ev : reachable st -> reachable (step st ev).
Proof. intros [es ->]. exists (es ++ [ev]). now rewrite run_app. Qed.

Lemma reachable_run st es : reachable st -> reachable (run step st es).
Proof. intros [es0 ->]. exists (es0 ++ es). now rewrite run_app. Qed.

Lemma history_ind (r : run_id) (P : option (run_state T M) -> list (obs T M) -> Prop) :
  P None [] ->
  (forall st os o', reachable st -> P (get r (s_runs st)) (history st r) -> effect st r o' os ->
     P o' (history st r ++ os)) ->
  forall st, reachable st -> P (get r (s_runs st)) (history st r).
Proof.
  intros H0 HS st [es ->]. induction es as [|ev es IH] using rev_ind; [exact H0|].
  rewrite run_app. simpl. set (st := run step init_state es) in *.
  destruct (step_effect st ev r) as (os & He & ->). apply HS; auto. exists es; reflexivity.
Qed.

Lemma count_app f (l1 l2 : list (obs T M)) : count f (l1 ++ l2) = count f l1 + count f l2.
Proof. unfold count. now rewrite filter_app, app_length. Qed.

Lemma unknown_impossible st r k p : reachable st -> get r (s_runs st) = None ->
  nth_error (s_reqs st) k = Some (QFind p FLookup) -> fp_run p = r -> False.
Proof. intros HR Hg Hk <-. destruct (i_f _ (reachable_inv _ HR)) as [F _]. eapply F; eauto. Qed.

Ltac solve_unknown := solve [exfalso; eapply unknown_impossible; eauto].

(* Cases on an effect, with the induction hypothesis IH about the run. *)
Ltac prep IH :=
  try solve_unknown;
  try (match goal with H : get _ (s_runs _) = _ |- _ => rewrite H in IH end);
  try op_cases; unfold count in *; simpl in *.
Ltac brk :=
  repeat (match goal with |- context [match ?x with _ => _ end] =>
            match x with context [match _ with _ => _ end] => fail 1 | _ => destruct x eqn:? end
          end; simpl in *).
Ltac break_hyp IH :=
  repeat (match type of IH with context [match ?x with _ => _ end] => destruct x eqn:? end; simpl in *; try discriminate).

(* C07 *)
Lemma gen_inv r st : reachable st ->
  match get r (s_runs st) with
  | None => count told_to_generate (history st r) = 0 /\
            forall o, In o (history st r) -> is_assignment o = true -> told_fatal o = true
  | Some (Waiting _ _ _ _) | Some (HasWork _ _ _ _ _) => count told_to_generate (history st r) = 1
  | Some _ => count told_to_generate (history st r) <= 1
  end.
Proof.
  apply (history_ind r (fun o h => match o with
    | None => count told_to_generate h = 0 /\ forall x, In x h -> is_assignment x = true -> told_fatal x = true
    | Some (Waiting _ _ _ _) | Some (HasWork _ _ _ _ _) => count told_to_generate h = 1
    | Some _ => count told_to_generate h <= 1
    end)).
  - split; [reflexivity|contradiction].
  - intros st0 os o' HR IH He. rewrite count_app.
    assert (Hgen : forall o, (forall x, In x o -> is_assignment x = true -> told_fatal x = true) ->
       (forall x, In x (history st0 r) -> is_assignment x = true -> told_fatal x = true) ->
       forall x, In x (history st0 r ++ o) -> is_assignment x = true -> told_fatal x = true).
    { intros o H1 H2 x Hin. apply in_app_iff in Hin as [Hin|Hin]; auto. }
    destruct He; prep IH; brk; try lia; break_hyp IH; try lia.
    all: destruct IH as [IH1 IH2]; split; [lia|]; apply Hgen; auto; intros x; simpl; try tauto; intros [<-|[]]; auto.
Qed.


Lemma split_snoc {A} (h os h1 h2 : list A) (o : A) :
  h ++ os = h1 ++ o :: h2 -> (exists h2' : list A, h = h1 ++ o :: h2' /\ h2 = h2' ++ os) \/
                             (exists l : list A, h1 = h ++ l /\ os = l ++ o :: h2).
Proof.
  intros H. apply app_eq_app in H as (l & [[H1 H2]|[H1 H2]]).
  - destruct l as [|x l]; simpl in H2.
    + right. exists []. rewrite app_nil_r in *. subst; auto.
    + injection H2 as -> ->. left. eauto.
  - right. eauto.
Qed.

Lemma gen_first r st : reachable st -> forall h1 o h2, history st r = h1 ++ o :: h2 ->
  told_to_generate o = true -> forall x, In x h1 -> is_assignment x = true -> told_fatal x = true.
Proof.
  intros HR.
  assert (Hg := fun st HR => gen_inv r st HR).
  apply (history_ind r (fun _ h => forall h1 o h2, h = h1 ++ o :: h2 ->
    told_to_generate o = true -> forall x, In x h1 -> is_assignment x = true -> told_fatal x = true)); auto.
  - intros [|]; discriminate.
  - intros st0 os o' HR0 IH He h1 o h2 Heq Ho.
    apply split_snoc in Heq as [(h2' & Heq & _)|(l & -> & Heq)]; [eauto|].
    assert (Hin : In o os) by (rewrite Heq; apply in_app_iff; simpl; auto).
    specialize (Hg _ HR0).
    destruct He; prep Hg;
      repeat match goal with H : _ \/ _ |- _ => destruct H as [H|H] end; try contradiction;
      try (subst o; simpl in Ho; revert Ho; brk; discriminate).
    destruct l as [|? [|]]; [|discriminate|discriminate]. rewrite app_nil_r. apply Hg.
Qed.

Lemma never_unknown r st : reachable st -> forall p, ~ In (OAssigned p RunUnknown) (history st r).
Proof.
  apply (history_ind r (fun _ h => forall p, ~ In (OAssigned p RunUnknown) h)); auto.
  intros st0 os o' HR0 IH He p Hin. apply in_app_iff in Hin as [Hin|Hin]; [eapply IH; eauto|].
  destruct He; try solve_unknown; simpl in Hin;
    repeat match goal with H : _ \/ _ |- _ => destruct H as [H|H] end; try contradiction; try discriminate.
  op_cases; injection Hin as _ Ha; revert Ha; brk; discriminate.
Qed.

(* C08 *)
Lemma over_effect st r (o : option (run_state T M)) os : effect st r o os ->
  phase_of st r = Some PhOver ->
  option_map phase_of_state o = Some PhOver /\ forall x, In x os -> says_cancelled x = false /\ says_running x = false.
Proof.
  unfold phase_of. intros He Hp. 
  destruct He; try (match goal with H : get _ (s_runs _) = _ |- _ => rewrite H in Hp end); simpl in *;
    try discriminate; try op_cases; simpl in *; try discriminate; split; auto;
    try (intros x Hx; repeat (destruct Hx as [<-|Hx]; [simpl; auto|]); try contradiction).
  - brk; auto.
  - destruct s as [|[]| |]; simpl in *; discriminate.
  - destruct s as [|[]| |]; simpl in *; discriminate.
  - destruct (get r (s_runs st)) as [[]|]; simpl in *; try discriminate; auto.
Qed.

Lemma cancelled_effect st r (o : option (run_state T M)) os : effect st r o os ->
  phase_of st r = Some PhCancelled ->
  option_map phase_of_state o = Some PhCancelled /\ forall x, In x os -> says_alive x = false.
Proof.
  unfold phase_of. intros He Hp. 
  destruct He; try (match goal with H : get _ (s_runs _) = _ |- _ => rewrite H in Hp end); simpl in *;
    try discriminate; try op_cases; simpl in *; try discriminate; split; auto;
    try (intros x Hx; repeat (destruct Hx as [<-|Hx]; [simpl; auto|]); try contradiction).
  destruct (get r (s_runs st)) as [[]|]; simpl in *; try discriminate; auto.
Qed.

Lemma run_cons st ev es : run step st (ev :: es) = run step (step st ev) es :> state T M.
Proof. reflexivity. Qed.

Lemma over_final r es : forall st, phase_of st r = Some PhOver ->
  phase_of (run step st es) r = Some PhOver /\
  exists os, history (run step st es) r = history st r ++ os /\
    forall o, In o os -> says_cancelled o = false /\ says_running o = false.
Proof.
  induction es as [|ev es IH]; intros st Hp.
  - split; auto. exists []. rewrite app_nil_r. split; [reflexivity|contradiction].
  - rewrite run_cons. destruct (step_effect st ev r) as (os & He & Hh).
    destruct (over_effect _ _ _ _ He Hp) as [Hp' Hos].
    destruct (IH _ Hp') as (H1 & os' & H2 & H3). split; auto.
    exists (os ++ os'). rewrite H2, Hh, app_assoc. split; auto.
    intros o Hin. apply in_app_iff in Hin as [|]; auto.
Qed.

Lemma cancelled_final r es : forall st, phase_of st r = Some PhCancelled ->
  phase_of (run step st es) r = Some PhCancelled /\
  exists os, history (run step st es) r = history st r ++ os /\ forall o, In o os -> says_alive o = false.
Proof.
  induction es as [|ev es IH]; intros st Hp.
  - split; auto. exists []. rewrite app_nil_r. split; [reflexivity|contradiction].
  - rewrite run_cons. destruct (step_effect st ev r) as (os & He & Hh).
    destruct (cancelled_effect _ _ _ _ He Hp) as [Hp' Hos].
    destruct (IH _ Hp') as (H1 & os' & H2 & H3). split; auto.
    exists (os ++ os'). rewrite H2, Hh, app_assoc. split; auto.
    intros o Hin. apply in_app_iff in Hin as [|]; auto.
Qed.

Definition closed st r : Prop := phase_of st r = Some PhOver \/ phase_of st r = Some PhCancelled.

Lemma closed_step st ev r : closed st r -> closed (step st ev) r.
Proof.
  intros H. destruct (step_effect st ev r) as (os & He & _).
  destruct H as [H|H]; [left; eapply over_effect; eauto|right; eapply cancelled_effect; eauto].
Qed.

Lemma closed_not_open st r q b : closed st r -> open st r = Some (q, b) -> False.
Proof.
  unfold closed, phase_of, open. destruct (get r (s_runs st)) as [[]|]; simpl; intuition congruence.
Qed.

Lemma reachable_gstep st ev : reachable st -> gstep st (step st ev).
Proof.
  intros HR. destruct (reachable_inv _ HR) as [F B I]. apply step_gstep; [apply F|].
  intros k r e j ts Hk. destruct (n_thr _ I _ _ _ _ j Hk eq_refl) as (c & js & t & Hq & _).
  unfold qa in Hq. destruct (get r (s_runs st)); congruence.
Qed.

Lemma late_requests r n es : forall st, reachable st -> closed st r ->
  (forall k e pc, n <= k -> nth_error (s_reqs st) k = Some (QNext r e pc) -> pc = NAnswered None) ->
  n <= length (s_reqs st) ->
  forall k e pc, n <= k -> nth_error (s_reqs (run step st es)) k = Some (QNext r e pc) -> pc = NAnswered None.
Proof.
  induction es as [|ev es IH]; intros st HR HC HK HL; [exact HK|].
  rewrite run_cons.
  assert (G := reachable_gstep st ev HR).
  assert (forall k e pc, n <= k -> nth_error (s_reqs (step st ev)) k = Some (QNext r e pc) -> pc = NAnswered None).
  { intros k' e' pc Hn Hk'.
    destruct G as [Q|? ? ? ? ? ? ? Ho Hreq ?|r0 e0 c js b Ho ? ? Hreq ?|r0 e0 ? ? Hreq ?|? ? ? ? ? ? ? ? Ho ? ? Hreq ?
       |k r0 e0 j c js b t Hk Ho Ht He ? ? Hreq ?|k r0 e0 j c js b t Hk Ho Ht He ? ? Hreq ?|k r0 e0 j ts p Hk Hb ? ? ? Hreq ?].
    - apply (qt_reqs _ _ Q) in Hk'; eauto.
    - rewrite Hreq in Hk'; eauto.
    - rewrite Hreq in Hk'. apply nth_snoc_inv in Hk' as [Hk'|(_ & _ & Hk')]; eauto.
      injection Hk' as <- <- <-. exfalso. eapply closed_not_open; eauto.
    - rewrite Hreq in Hk'. apply nth_snoc_inv in Hk' as [Hk'|(_ & _ & Hk')]; eauto. congruence.
    - rewrite Hreq in Hk'; eauto.
    - rewrite Hreq in Hk'. apply nth_upd_inv in Hk' as [[-> Hk']|[_ Hk']]; eauto.
      injection Hk' as <- <- <-. exfalso. eapply closed_not_open; eauto.
    - rewrite Hreq in Hk'. apply nth_upd_inv in Hk' as [[-> Hk']|[_ Hk']]; eauto.
      injection Hk' as <- <- <-. exfalso. eapply closed_not_open; eauto.
    - rewrite Hreq in Hk'. apply nth_upd_inv in Hk' as [[-> Hk']|[_ Hk']]; eauto.
      injection Hk' as <- <- <-. specialize (HK _ _ _ Hn Hk). discriminate. }
  apply IH; auto using reachable_step, closed_step.
  destruct G as [Q|? ? ? ? ? ? ? Ho Hreq ?|r0 e0 c js b Ho ? ? Hreq ?|r0 e0 ? ? Hreq ?|? ? ? ? ? ? ? ? Ho ? ? Hreq ?
       |k r0 e0 j c js b t Hk Ho Ht He ? ? Hreq ?|k r0 e0 j c js b t Hk Ho Ht He ? ? Hreq ?|k r0 e0 j ts p Hk Hb ? ? ? Hreq ?];
    try (rewrite Hreq, ?app_length, ?upd_length; simpl; lia).
  pose proof (qt_len _ _ Q). lia.
Qed.

Lemma no_tests_when_closed r es st k e ts eow p : reachable st -> closed st r ->
  In (OWork k r e ts eow p) (s_log (run step st es)) -> length (s_reqs st) <= k -> ts = [] /\ eow = true.
Proof.
  intros HR HC Hin Hk.
  destruct (n_log _ (i_n _ (reachable_inv _ (reachable_run st es HR))) _ _ _ _ _ _ Hin) as (jo & Hr & Hj).
  assert (H : NAnswered jo = NAnswered (T := T) None).
  { eapply (late_requests r (length (s_reqs st)) es st); eauto.
    intros k' e' pc Hle Hk'. apply nth_error_None in Hle. congruence. }
  injection H as ->. exact Hj.
Qed.

(* C14, C10 *)
Lemma manifest_inv r st : reachable st ->
  match get r (s_runs st) with
  | None | Some (Waiting _ _ _ _) =>
      count accepted_manifest (history st r) = 0 /\ count accepted_tests (history st r) = 0 /\ count has_plan (history st r) = 0
  | Some (HasWork _ _ _ _ _) =>
      count accepted_manifest (history st r) = 1 /\ count accepted_tests (history st r) = 1 /\ count has_plan (history st r) = 0
  | Some (Done _ _ _ _ _ _) => count accepted_manifest (history st r) <= 1 /\
      count accepted_tests (history st r) <= 1 /\ count has_plan (history st r) = count accepted_tests (history st r)
  | Some (Cancelled _ _) => count accepted_manifest (history st r) <= 1 /\
      count accepted_tests (history st r) <= 1 /\ count has_plan (history st r) = 0
  end.
Proof.
  apply (history_ind r (fun o h => match o with
  | None | Some (Waiting _ _ _ _) =>
      count accepted_manifest h = 0 /\ count accepted_tests h = 0 /\ count has_plan h = 0
  | Some (HasWork _ _ _ _ _) =>
      count accepted_manifest h = 1 /\ count accepted_tests h = 1 /\ count has_plan h = 0
  | Some (Done _ _ _ _ _ _) => count accepted_manifest h <= 1 /\
      count accepted_tests h <= 1 /\ count has_plan h = count accepted_tests h
  | Some (Cancelled _ _) => count accepted_manifest h <= 1 /\
      count accepted_tests h <= 1 /\ count has_plan h = 0
  end)); [repeat split|].
  intros st0 os o' HR IH He. rewrite !count_app.
  destruct He; prep IH; try (destruct flat; [congruence|]; simpl in * ); brk; break_hyp IH; try lia.
Qed.

(* C11 and the parameters of a run *)
Lemma in_snoc_or {A} (l : list A) x y : In x (l ++ [y]) <-> In x l \/ y = x.
Proof. rewrite in_app_iff. simpl. tauto. Qed.

End Lemmas.
