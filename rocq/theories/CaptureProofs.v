From Verif Require Import Base CaptureModel CaptureSpec.

Lemma drained_app a b : drained (a ++ b) = drained a ++ drained b.
Proof. induction a as [|[x|x] a IH]; simpl; auto. rewrite IH. apply app_assoc. Qed.

Lemma il_app_left {A} (b l1 l2 l : list A) : interleaving l1 l2 l -> interleaving (l1 ++ b) l2 (l ++ b).
Proof.
  induction 1; simpl; try (constructor; auto; fail).
  induction b; constructor; auto.
Qed.
Lemma il_app_right {A} (b l1 l2 l : list A) : interleaving l1 l2 l -> interleaving l1 (l2 ++ b) (l ++ b).
Proof.
  induction 1; simpl; try (constructor; auto; fail).
  induction b; constructor; auto.
Qed.

Definition pend_side (pc : copy_pc) : list byte := match pc with CPush b false _ _ => b | _ => [] end.
Definition pend_comb (pc : copy_pc) : list byte := match pc with CPush b _ _ _ => b | _ => [] end.

(* Invariant of one stream. *)
Definition kinv (k : stream) : Prop :=
  k_parent k = captured k ++ pend_side (k_pc k) /\
  (match k_pc k with
   | CWrite todo h | CPush _ _ todo h =>
       expected k = k_parent k ++ todo /\ (h = true -> k_child k = [])
   | CEnd true => expected k = k_parent k
   | CEnd false => prefix (k_parent k) (expected k)
   end) /\
  (forall l1 b a l2, k_log k = l1 ++ CPeeked b :: a :: l2 -> prefix b (bytes_of a)) /\
  (forall l1 b, k_log k = l1 ++ [CPeeked b] -> prefix b (k_side k)).

Definition cinv (p : pipes) : Prop :=
  kinv (p_out p) /\ kinv (p_err p) /\
  exists o e, interleaving o e (p_comb p) /\
    k_parent (p_out p) = o ++ pend_comb (k_pc (p_out p)) /\
    k_parent (p_err p) = e ++ pend_comb (k_pc (p_err p)).

Lemma kinv_new h : kinv (new_stream h).
Proof.
  repeat split; simpl; unfold expected, captured; simpl.
  - now rewrite app_nil_r.
  - intros [|? [|? ?]]; discriminate.
  - intros [|? ?]; discriminate.
Qed.

Lemma cinv_new h pi re : cinv (new_pipes h pi re).
Proof.
  split; [apply kinv_new|]. split; [apply kinv_new|].
  exists [], []. simpl. repeat split; constructor.
Qed.

(* Changing only the program counter of a stream. *)
Lemma kinv_set_pc pc k : pend_side pc = pend_side (k_pc k) ->
  (match pc with
   | CWrite todo h | CPush _ _ todo h =>
       expected k = k_parent k ++ todo /\ (h = true -> k_child k = [])
   | CEnd true => expected k = k_parent k
   | CEnd false => prefix (k_parent k) (expected k)
   end) -> kinv k -> kinv (set_pc pc k).
Proof. intros E H (A & B & C & D). unfold kinv, captured, expected in *. simpl. rewrite E. auto. Qed.

Lemma cinv_set w k comb p : cinv p -> kinv k ->
  (forall o e, interleaving o e (p_comb p) ->
     (k_parent (which w p) = (if w then e else o) ++ pend_comb (k_pc (which w p)) ->
      exists o' e', interleaving o' e' comb /\ k_parent k = (if w then e' else o') ++ pend_comb (k_pc k) /\
        (if w then o' = o else e' = e))) ->
  cinv (set_stream w k comb p).
Proof.
  intros (A & B & o & e & I & P1 & P2) K H. unfold cinv. destruct w; simpl in *.
  - split; [auto|]. split; [auto|]. destruct (H o e I P2) as (o' & e' & I' & E & ->). exists o, e'. auto.
  - split; [auto|]. split; [auto|]. destruct (H o e I P1) as (o' & e' & I' & E & ->). exists o', e. auto.
Qed.

(* ... when neither the combined channel nor what is pending for it changes *)
Lemma cinv_set_same w k p : cinv p -> kinv k -> k_parent k = k_parent (which w p) ->
  pend_comb (k_pc k) = pend_comb (k_pc (which w p)) -> cinv (set_stream w k (p_comb p) p).
Proof.
  intros C K E1 E2. apply cinv_set; auto. intros o e I H. exists o, e. split; auto.
  split; [|now destruct w]. now rewrite E1, E2.
Qed.

Lemma kinv_which w p : cinv p -> kinv (which w p).
Proof. intros (A & B & _). destruct w; auto. Qed.

Lemma snoc_log l1 (b : list byte) a l2 (l : list capture) c :
  l ++ [c] = l1 ++ CPeeked b :: a :: l2 ->
  (exists l2', l = l1 ++ CPeeked b :: a :: l2') \/ (l = l1 ++ [CPeeked b] /\ a = c).
Proof.
  intros H. destruct l2 as [|x l2] using rev_ind.
  - right. change (CPeeked b :: [a]) with ([CPeeked b] ++ [a]) in H. rewrite app_assoc in H.
    apply app_inj_tail in H as [-> ->]. auto.
  - left. clear IHl2.
    assert (E : l1 ++ CPeeked b :: a :: l2 ++ [x] = (l1 ++ CPeeked b :: a :: l2) ++ [x]) by (rewrite <- app_assoc; reflexivity).
    rewrite E in H. apply app_inj_tail in H as [-> _]. now exists l2.
Qed.


Lemma cinv_step p ev : cinv p -> cinv (cstep p ev).
Proof.
  intros C. destruct ev as [w a|w|w chunk|w ok|w|w| |w|]; simpl.
  - pose proof (kinv_which w p C) as K. set (k := which w p) in *.
    destruct (k_pc k) as [todo header| |] eqn:E; auto.
    assert (K2 : expected k = k_parent k ++ todo /\ (header = true -> k_child k = []))
      by (destruct K as (_ & K & _); rewrite E in K; exact K).
    assert (Kend : cinv (set_stream w (set_pc (CEnd false) k) (p_comb p) p)).
    { apply cinv_set_same; auto; fold k; rewrite ?E; auto. apply kinv_set_pc; auto; rewrite ?E; auto.
      destruct K2 as [K2 _]. now exists todo. }
    destruct todo as [|x todo].
    + destruct header; [|auto].
      apply cinv_set_same; auto; fold k; rewrite ?E; auto. apply kinv_set_pc; auto; rewrite ?E; auto.
      destruct K2; split; auto; discriminate.
    + assert (Goal2 : cinv (match parent_answer (p_piped p) (x :: todo) a with
        | WPending => p | WError => set_stream w (set_pc (CEnd false) k) (p_comb p) p
        | WWrote n => if Nat.ltb (length (x :: todo)) n then p
            else if Nat.eqb n 0 then set_stream w (set_pc (CEnd false) k) (p_comb p) p
            else set_stream w (accept (x :: todo) header n k) (p_comb p) p end)); [|destruct header; exact Goal2].
      set (t := x :: todo) in *.
      destruct (parent_answer (p_piped p) t a) as [|n|]; auto.
      destruct (Nat.ltb_spec (length t) n); auto. destruct (Nat.eqb_spec n 0); auto.
      apply cinv_set; auto.
      * destruct K as (A & _ & L1 & L2). unfold kinv, captured, expected in *. simpl. rewrite E in A. simpl in A.
        rewrite app_nil_r in A. repeat split; auto.
        -- now rewrite A.
        -- destruct K2 as [K2 _]. rewrite K2, <- app_assoc, firstn_skipn. reflexivity.
        -- apply K2.
      * fold k. rewrite E. simpl. intros o e I H1. rewrite app_nil_r in H1. exists o, e. split; auto.
        split; [now rewrite H1|now destruct w].
  - pose proof (kinv_which w p C) as K. set (k := which w p) in *.
    destruct (k_pc k) as [|b [|] todo header|] eqn:E; auto.
    + assert (K2 : expected k = k_parent k ++ todo /\ (header = true -> k_child k = []))
        by (destruct K as (_ & K & _); rewrite E in K; exact K).
      apply cinv_set; auto.
      * apply kinv_set_pc; auto. now rewrite E.
      * fold k. rewrite E. simpl. intros o e I H. destruct w.
        -- exists o, (e ++ b). split; [now apply il_app_right|]. rewrite app_nil_r. auto.
        -- exists (o ++ b), e. split; [now apply il_app_left|]. rewrite app_nil_r. auto.
    + apply cinv_set_same; auto; fold k; simpl; rewrite ?E; auto.
      destruct K as (A & B & L1 & L2). unfold kinv, captured, expected in *. simpl. rewrite E in *. simpl in *.
      repeat split; try apply B; auto.
      * rewrite app_nil_r, app_assoc. auto.
      * intros l1 c Hc. destruct (L2 _ _ Hc) as (d & Hd). exists (d ++ b). now rewrite Hd, app_assoc.
  - pose proof (kinv_which w p C) as K. set (k := which w p) in *.
    destruct (k_pc k) as [todo header| |] eqn:E; auto. destruct header; auto.
    apply cinv_set_same; auto; fold k; simpl; rewrite ?E; auto.
    destruct K as (A & B & L1 & L2). unfold kinv, captured, expected in *. simpl. rewrite E in *. simpl in *.
    repeat split; auto; [|discriminate]. destruct B as [B _]. rewrite !app_assoc. now rewrite B.
  - pose proof (kinv_which w p C) as K. set (k := which w p) in *.
    destruct (k_pc k) as [todo header| |] eqn:E; auto. destruct header; [now destruct todo|].
    assert (K2 : expected k = k_parent k ++ todo /\ (false = true -> k_child k = []))
      by (destruct K as (_ & K & _); rewrite E in K; exact K).
    assert (Kend : cinv (set_stream w (set_pc (CEnd false) k) (p_comb p) p)).
    { apply cinv_set_same; auto; fold k; rewrite ?E; auto. apply kinv_set_pc; auto; rewrite ?E; auto.
      destruct K2 as [K2 _]. now exists todo. }
    destruct todo; destruct ok; auto.
    apply cinv_set_same; auto; fold k; rewrite ?E; auto. apply kinv_set_pc; auto; rewrite ?E; auto.
    destruct K2 as [K2 _]. now rewrite app_nil_r in K2.
  - destruct (p_final p); auto. pose proof (kinv_which w p C) as K. set (k := which w p) in *.
    apply cinv_set_same; auto; fold k; simpl; auto.
    destruct K as (A & B & L1 & L2). unfold kinv, captured, expected in *. simpl.
    split; [|split; [|split]].
    + rewrite drained_app. simpl. rewrite !app_nil_r. auto.
    + exact B.
    + intros l1 b a l2 H. apply snoc_log in H as [(l2' & H)|[H ->]]; [now apply (L1 _ _ _ _ H)|]. simpl. now apply (L2 l1).
    + intros l1 b H. apply app_inj_tail in H as [_ H]. discriminate.
  - destruct (p_final p); auto. pose proof (kinv_which w p C) as K. set (k := which w p) in *.
    apply cinv_set_same; auto; fold k; simpl; auto.
    destruct K as (A & B & L1 & L2). unfold kinv, captured, expected in *. simpl.
    split; [|split; [|split]].
    + rewrite drained_app. simpl. rewrite !app_nil_r. auto.
    + exact B.
    + intros l1 b a l2 H. apply snoc_log in H as [(l2' & H)|[H ->]]; [now apply (L1 _ _ _ _ H)|]. simpl. now apply (L2 l1).
    + intros l1 b H. apply app_inj_tail in H as [_ H]. inversion H. exists []. now rewrite app_nil_r.
  - destruct (p_final p); auto.
  - pose proof (kinv_which w p C) as K. set (k := which w p) in *.
    destruct (k_pc k) as [todo header| |] eqn:E; auto. destruct (k_aborted k); auto.
    assert (K2 : expected k = k_parent k ++ todo /\ (header = true -> k_child k = []))
      by (destruct K as (_ & K & _); rewrite E in K; exact K).
    apply cinv_set_same; auto; fold k; rewrite ?E; auto. apply kinv_set_pc; auto; rewrite ?E; auto.
    destruct K2 as [K2 _]. now exists todo.
  - destruct (p_final p); auto.
    destruct (awaited (p_out p)) as [[]|]; auto; destruct (awaited (p_err p)) as [[]|]; auto.
    destruct (ended (p_out p) && ended (p_err p)); auto.
Qed.

Lemma cinv_run h pi re es : cinv (run cstep (new_pipes h pi re) es).
Proof. apply run_invariant. - intros; now apply cinv_step. - apply cinv_new. Qed.

(* ---- finish ---- *)

(* What a FOutput answer tells about the streams at that moment and after. *)
Definition ended_all (p : pipes) : Prop := ended (p_out p) = true /\ ended (p_err p) = true.

Definition finv (p : pipes) : Prop :=
  match p_final p with
  | Some (FOutput o e c) =>
      ended_all p /\ o = k_side (p_out p) /\ e = k_side (p_err p) /\ c = p_comb p /\
      (k_aborted (p_out p) = false -> copied_all (p_out p)) /\
      (k_aborted (p_err p) = false -> copied_all (p_err p))
  | Some FPanic => k_aborted (p_out p) = true
  | _ => True
  end /\ k_aborted (p_out p) = k_aborted (p_err p).

Lemma ended_pc k : ended k = true -> exists ok, k_pc k = CEnd ok.
Proof. unfold ended. destruct (k_pc k); try discriminate. intros; now exists ok. Qed.

Lemma aborted_set_pc pc k : k_aborted (set_pc pc k) = k_aborted k. Proof. reflexivity. Qed.

(* Every step but close and finish leaves the flags, or changes one stream
   without touching its flag. *)
Lemma step_shape p ev : ev <> CClose -> ev <> CFinish ->
  cstep p ev = p \/ exists w k c, cstep p ev = set_stream w k c p /\ k_aborted k = k_aborted (which w p).
Proof.
  intros N1 N2. destruct ev as [w a|w|w chunk|w ok|w|w| |w|]; try congruence; simpl.
  - destruct (k_pc (which w p)) as [[|x t] []| |]; try (now left); try (right; eexists _, _, _; split; reflexivity);
    destruct (parent_answer _ _ _) as [|n|]; try (now left); try (right; eexists _, _, _; split; reflexivity);
    destruct (Nat.ltb _ n); try (now left); destruct (Nat.eqb n 0); right; eexists _, _, _; split; reflexivity.
  - destruct (k_pc (which w p)) as [|? [] ? ?|]; try (now left); right; eexists _, _, _; split; reflexivity.
  - destruct (k_pc (which w p)) as [? []| |]; try (now left); right; eexists _, _, _; split; reflexivity.
  - destruct (k_pc (which w p)) as [[|x t] []| |]; try (now left); destruct ok; try (now left); right; eexists _, _, _; split; reflexivity.
  - destruct (p_final p); [now left|]. right; eexists _, _, _; split; reflexivity.
  - destruct (p_final p); [now left|]. right; eexists _, _, _; split; reflexivity.
  - destruct (k_pc (which w p)); try (now left). destruct (k_aborted (which w p)) eqn:E; [|now left].
    right; exists w; eexists _, _; split; [reflexivity|]. simpl. congruence.
Qed.

Lemma aborted_set w k c p : k_aborted k = k_aborted (which w p) ->
  forall w', k_aborted (which w' (set_stream w k c p)) = k_aborted (which w' p).
Proof. intros E w'. destruct w, w'; simpl in *; auto. Qed.

Lemma aborted_same p ev : ev <> CClose -> forall w, k_aborted (which w (cstep p ev)) = k_aborted (which w p).
Proof.
  intros N w'. assert (D : ev = CFinish \/ ev <> CFinish) by (destruct ev; auto; right; discriminate).
  destruct D as [->|D].
  - simpl. destruct (p_final p); auto.
    destruct (awaited (p_out p)) as [[]|]; auto; destruct (awaited (p_err p)) as [[]|]; auto;
    destruct (ended (p_out p) && ended (p_err p)); auto.
  - destruct (step_shape p ev N D) as [->|(w & k & c & -> & E)]; auto. now apply aborted_set.
Qed.

Lemma final_same p ev f : p_final p = Some f -> p_final (cstep p ev) = Some f.
Proof.
  intros F. assert (D : ev = CClose \/ ev = CFinish \/ (ev <> CClose /\ ev <> CFinish))
    by (destruct ev; auto; right; right; split; discriminate).
  destruct D as [->|[->|[D1 D2]]]; try (simpl; rewrite F; auto; fail).
  destruct (step_shape p ev D1 D2) as [->|(w & k & c & -> & E)]; auto.
Qed.

(* once both tasks are gone and finish has answered, nothing changes *)
Lemma over_same p ev f : p_final p = Some f -> ended_all p -> cstep p ev = p.
Proof.
  intros F [E1 E2]. apply ended_pc in E1 as (k1 & E1). apply ended_pc in E2 as (k2 & E2).
  destruct ev as [w a|w|w chunk|w ok|w|w| |w|]; simpl; rewrite ?F; auto; destruct w; simpl; rewrite ?E1, ?E2; auto.
Qed.

Lemma finv_step p ev : finv p -> finv (cstep p ev).
Proof.
  intros H. destruct (p_final p) as [f|] eqn:EF.
  - assert (K : (exists o e c, f = FOutput o e c) \/ (f = FError \/ f = FPanic)) by (destruct f; eauto).
    destruct K as [(o & e & c & ->)|K].
    + rewrite (over_same _ _ _ EF); auto. unfold finv in H. rewrite EF in H. apply H.
    + pose proof (final_same p ev f EF) as F'.
      assert (A : forall w, k_aborted (which w (cstep p ev)) = k_aborted (which w p)).
      { destruct ev; try (apply aborted_same; discriminate). simpl. rewrite EF. auto. }
      unfold finv in *. rewrite F'. rewrite EF in H. pose proof (A true) as A1; pose proof (A false) as A2.
      simpl in A1, A2. rewrite A1, A2. destruct K as [->| ->]; auto.
  - destruct H as [_ HA].
    assert (D : ev = CClose \/ ev = CFinish \/ (ev <> CClose /\ ev <> CFinish))
      by (destruct ev; auto; right; right; split; discriminate).
    destruct D as [->|[->|[D1 D2]]].
    + simpl. rewrite EF. unfold finv. simpl. auto.
    + simpl. rewrite EF. unfold awaited, finv. rewrite <- HA.
      destruct (k_aborted (p_out p)) eqn:EA.
      * destruct (ended (p_out p) && ended (p_err p)) eqn:EE; simpl; rewrite ?EA, <- ?HA; auto.
        apply andb_true_iff in EE. unfold ended_all. repeat split; try tauto; congruence.
      * destruct (k_pc (p_out p)) as [| |[]] eqn:E1; destruct (k_pc (p_err p)) as [| |[]] eqn:E2;
          unfold ended; rewrite ?E1, ?E2; simpl; rewrite ?EF, ?EA, <- ?HA; auto.
        unfold ended_all, ended, copied_all; simpl. rewrite E1, E2. auto 10.
    + unfold finv. pose proof (aborted_same p ev D1 true) as A1. pose proof (aborted_same p ev D1 false) as A2.
      simpl in A1, A2. rewrite A1, A2.
      destruct (step_shape p ev D1 D2) as [->|(w & k & c & -> & E)]; simpl; rewrite EF; auto.
Qed.

Lemma finv_run h pi re es : finv (run cstep (new_pipes h pi re) es).
Proof.
  apply run_invariant; [intros; now apply finv_step|]. unfold finv. simpl. auto.
Qed.

Lemma never_closed h pi re es : ~ In CClose es -> forall w, k_aborted (which w (run cstep (new_pipes h pi re) es)) = false.
Proof.
  induction es as [|e es IH] using rev_ind; intros N; [intros []; reflexivity|].
  rewrite run_app. intros w. simpl. rewrite aborted_same.
  - apply IH. intros H. apply N. apply in_or_app. now left.
  - intros ->. apply N. apply in_or_app. right. now left.
Qed.
