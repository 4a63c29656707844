(* Invariants of the worker's reports on its native runner. *)
From Verif Require Import Base OutputModel OutputSpec.

Section Proofs.
Context {R : Type}.
Variable LK : Prop.   (* restarting the native runner always goes well *)

Definition kf (y : report R * list (message R)) : nat * nat := (p_work (fst y), p_run (fst y)).
Definition heard_of (y : report R * list (message R)) : nat * nat * list (message R) := (kf y, snd y).
Definition ok (y : report R * list (message R)) : Prop := answers (heard_of y) (fst y).

Definition hand (p : pc R) : output :=
  match p with PFirst _ b => b | PMore _ b l => b ++ flat_map snd l | _ => [] end.

Definition incremental (m : message R) : Prop := exists i, m = Incremental i.

Definition calm (s : ostate R) (ys : list (report R * list (message R))) (tail : list (nat * nat * list (message R))) (errs : list (report R)) : Prop :=
  tail = [] /\ errs = [] /\ o_taken s = map kf ys.
Definition crash (s : ostate R) (ys : list (report R * list (message R))) (tail : list (nat * nat * list (message R))) (errs : list (report R)) : Prop :=
  exists w ms q remaining, tail = [(w, o_run s, ms)] /\ errs = map (error_report (o_run s) q) (w :: remaining) /\
    o_taken s = map kf ys ++ [(w, o_run s)] /\ prefix q (o_side s).
Definition unstarted (s : ostate R) (ys : list (report R * list (message R))) (tail : list (nat * nat * list (message R))) (errs : list (report R)) : Prop :=
  (LK -> False) /\ tail = [] /\ errs = [] /\ exists x, o_taken s = map kf ys ++ [x].

Definition shape (s : ostate R) ys tail errs : Prop :=
  match o_pc s with
  | PIdle | PClosed => calm s ys tail errs
  | PStart w => tail = [] /\ errs = [] /\ o_taken s = map kf ys ++ [(w, o_run s)]
  | PFirst w _ => tail = [(w, o_run s, [])] /\ errs = [] /\ o_taken s = map kf ys ++ [(w, o_run s)]
  | PMore w _ l => exists ms, tail = [(w, o_run s, ms)] /\ errs = [] /\ o_taken s = map kf ys ++ [(w, o_run s)] /\
      ms <> [] /\ Forall incremental ms /\ map fst l = flat_map results_in ms
  | PFailed w => exists ms, tail = [(w, o_run s, ms)] /\ errs = [] /\ o_taken s = map kf ys ++ [(w, o_run s)]
  | PDead => calm s ys tail errs \/ crash s ys tail errs \/ unstarted s ys tail errs
  | PEnded =>
      match o_outcome s with
      | Some (OExit _) => calm s ys tail errs
      | Some (OError _) | Some OPanic => calm s ys tail errs \/ crash s ys tail errs \/ unstarted s ys tail errs
      | None => True
      end
  end.

(* nothing panicked or is about to *)
Definition live (s : ostate R) : Prop :=
  match o_outcome s with None => o_finished s = false | Some OPanic => False | Some (OExit f) | Some (OError f) => f = o_prev s ++ o_side s end.

Definition failed (p : pc R) : Prop := match p with PFailed _ => True | _ => False end.

Definition bytes (s : ostate R) (ys : list (report R * list (message R))) (errs : list (report R)) : Prop :=
  exists ts w g lost,
    o_procs s = map s_proc ts ++ [(o_run s, w)] /\ Forall (accounts []) ts /\ o_prev s = flat_map s_left ts /\
    ys = flat_map s_reports ts ++ g /\
    w = flat_map attributed g ++ hand (o_pc s) ++ lost ++ o_side s /\
    Forall (fun y => p_run (fst y) = o_run s) g /\ (errs = [] -> ~ failed (o_pc s) -> lost = []).

Definition inv (NE : Prop) (s : ostate R) : Prop :=
  exists ys tail errs,
    o_sent s = map fst ys ++ errs /\ o_heard s = map heard_of ys ++ tail /\ Forall ok ys /\ shape s ys tail errs /\
    (o_pc s = PEnded <-> o_outcome s <> None) /\ (o_pc s <> PDead -> o_pc s <> PEnded -> o_finished s = false) /\
    (NE -> match o_outcome s with Some OPanic => True | None => o_finished s = false -> bytes s ys errs | _ => live s /\ bytes s ys errs end).

Lemma on_last_app {A} (f : A -> A) l x : on_last f (l ++ [x]) = l ++ [f x].
Proof.
  induction l as [|y l IH]; simpl; auto. destruct (l ++ [x]) eqn:E; [now destruct l|]. now rewrite IH.
Qed.

Lemma inv_init NE run : inv NE (oinit run).
Proof.
  exists [], [], []. cbn. split; auto. split; auto. split; [constructor|]. split; [repeat split|]. split; [split; [discriminate|congruence]|]. split; [auto|].
  intros _ _. exists [], [], [], []. cbn. repeat split; auto.
Qed.

Lemma attach_all_map c (rs : list R) : attach_all c rs = map (attach c) rs.
Proof. destruct rs as [|r [|r' rs]]; reflexivity. Qed.

(* appending output keeps the bytes *)
Lemma bytes_arrive s b ys errs : bytes s ys errs -> bytes (arrive b s) ys errs.
Proof.
  intros (ts & w & g & lost & E1 & E2 & E3 & E4 & E5 & E6 & E7). exists ts, (w ++ b), g, lost. cbn [arrive o_procs o_run o_prev o_side o_pc].
  rewrite E1, on_last_app. cbn [fst snd]. repeat (split; auto). rewrite E5, <- !app_assoc. reflexivity.
Qed.

Lemma crash_arrive s b ys tail errs : crash s ys tail errs -> crash (arrive b s) ys tail errs.
Proof.
  intros (w & ms & q & rem & E1 & E2 & E3 & (c & E4)). exists w, ms, q, rem. cbn. repeat (split; auto). exists (c ++ b). now rewrite E4, app_assoc.
Qed.

(* a completed report keeps everything *)
Lemma complete_inv (NE : Prop) s s' rep ms w before out after ys pcb :
  o_heard s = map heard_of ys ++ [(w, o_run s, pcb)] -> o_sent s = map fst ys -> Forall ok ys ->
  o_taken s = map kf ys ++ [(w, o_run s)] -> o_outcome s = None -> o_finished s = false ->
  rep = {| p_work := w; p_run := o_run s; p_before := before; p_body := Results out; p_after := after |} ->
  ok (rep, ms) -> ms = pcb ++ [List.last ms (All [])] ->
  s' = send [rep] (drain PIdle (heard_more (List.last ms (All [])) (o_heard s)) s) ->
  (NE -> bytes s ys []) -> (NE -> ~ failed (o_pc s)) ->
  (NE -> attributed (rep, ms) = hand (o_pc s) ++ o_side s) ->
  inv NE s'.
Proof.
  intros H1 H2 H3 H4 H5 H6 HR H7 H8 -> HB HF HA. exists (ys ++ [(rep, ms)]), [], [].
  cbn [send drain o_sent o_heard o_pc o_outcome o_finished]. rewrite !map_app, H2, !app_nil_r. split; auto. split; [|split].
  - unfold heard_more. rewrite H1, on_last_app. cbn [fst snd map]. unfold heard_of, kf. cbn [fst snd]. subst rep. cbn [p_work p_run]. now rewrite <- H8.
  - apply Forall_app. auto.
  - split; [unfold shape; cbn; unfold calm; cbn [send drain o_taken]; rewrite map_app, H4; subst rep; auto|].
    rewrite H5. split; [split; [discriminate|congruence]|]. split; [intros _ _; exact H6|]. intros ne _.
    destruct (HB ne) as (ts & w0 & g & lost & E1 & E2 & E3 & E4 & E5 & E6 & E7). rewrite (E7 eq_refl (HF ne)) in *. cbn [app] in E5.
    exists ts, w0, (g ++ [(rep, ms)]), []. cbn [send drain o_procs o_run o_prev o_side o_pc hand app]. repeat (split; auto).
    + now rewrite E4, app_assoc.
    + rewrite E5, flat_map_app. cbn [flat_map]. rewrite (HA ne), !app_nil_r, <- ?app_assoc. reflexivity.
    + apply Forall_app. split; auto. constructor; auto. subst rep. reflexivity.
Qed.

Lemma results_shown (ms : list (message R)) l c : ms <> [] -> Forall incremental ms ->
  forall i, shown (ms ++ [Incremental i]) (l ++ c) = flat_map snd (l ++ c).
Proof. intros H F i. destruct ms as [|m [|m' ms]]; [easy| |]; destruct m; reflexivity. Qed.

Ltac inv_with ys tail errs :=
  exists ys, tail, errs; split; [|split; [|split; [|split; [|split; [|split]]]]];
  cbn [set_pc take restart drain send arrive finish o_sent o_heard o_pc o_outcome o_finished];
  [try congruence|try congruence|auto| |split; solve [congruence|discriminate]|auto|].

Lemma bytes_pc s s' ys (errs errs' : list (report R)) : bytes s ys errs -> o_procs s' = o_procs s -> o_run s' = o_run s -> o_prev s' = o_prev s -> o_side s' = o_side s ->
  hand (o_pc s') = hand (o_pc s) -> (errs' = [] -> ~ failed (o_pc s') -> errs = [] /\ ~ failed (o_pc s)) -> bytes s' ys errs'.
Proof.
  intros (ts & w & g & lost & E1 & E2 & E3 & E4 & E5 & E6 & E7) H1 H2 H3 H4 H5 H6. exists ts, w, g, lost. rewrite H1, H2, H3, H4, H5. repeat (split; [assumption|]). intros a b. destruct (H6 a b). auto.
Qed.

(* the captured output comes to the task's hand *)
Lemma bytes_drain s p h ys : bytes s ys [] -> ~ failed (o_pc s) -> hand p = hand (o_pc s) ++ o_side s -> bytes (drain p h s) ys [].
Proof.
  intros (ts & w & g & lost & E1 & E2 & E3 & E4 & E5 & E6 & E7) N H. rewrite (E7 eq_refl N) in E5. exists ts, w, g, [].
  cbn [drain o_procs o_run o_prev o_side o_pc]. rewrite H, !app_nil_r. repeat (split; [assumption|]). split; auto.
Qed.

Lemma bytes_restart s run ys p (a : bool) : bytes s ys [] -> o_pc s = PIdle -> hand p = [] ->
  bytes {| o_side := []; o_finished := false; o_prev := o_prev s ++ o_side s; o_run := run; o_pc := p;
           o_sent := o_sent s; o_outcome := o_outcome s; o_procs := o_procs s ++ [(run, [])]; o_taken := o_taken s; o_heard := o_heard s |} ys [].
Proof.
  intros (ts & w & g & lost & E1 & E2 & E3 & E4 & E5 & E6 & E7) P H. rewrite P in *. rewrite (E7 eq_refl (fun H => H)) in E5.
  exists (ts ++ [{| s_proc := (o_run s, w); s_reports := g; s_left := o_side s |}]), [], [], []. cbn [o_procs o_run o_prev o_side o_pc].
  rewrite E1, map_app, E3, E4, !flat_map_app, H. cbn [map s_proc flat_map s_left s_reports app]. rewrite !app_nil_r. repeat (split; auto).
  apply Forall_app. split; auto. repeat constructor; auto.
Qed.

Lemma inv_step (NE : Prop) s e : (NE -> e <> ORead (All [])) -> (LK -> forall w run l, e = OTest w run l -> l = LOk) -> inv NE s -> inv NE (ostep s e).
Proof.
  intros HE HL (ys & tail & errs & A1 & A2 & A3 & A4 & A5 & A6 & A7).
  assert (KEEP : inv NE s) by (exists ys, tail, errs; auto 10).
  destruct (o_outcome s) as [oc|] eqn:OC.
  { assert (P : o_pc s = PEnded) by (apply A5; congruence).
    destruct e as [b|w run l| |m| |rem|ok0|ok0]; cbn [ostep]; rewrite ?OC, ?P; auto. }
  assert (NP : o_pc s <> PEnded) by (intros H; apply A5 in H; congruence).
  destruct e as [b|w run l| |m| |rem|ok0|ok0]; cbn [ostep].
  - (* arrive *)
    rewrite OC. destruct (o_finished s) eqn:FI; auto. inv_with ys tail errs.
    + unfold shape in *. cbn [arrive o_pc o_outcome] in *. destruct (o_pc s); auto; [|congruence].
      destruct A4 as [A4|[A4|A4]]; [left; exact A4|right; left; now apply crash_arrive|right; right; exact A4].
    + rewrite OC. intros ne _. apply bytes_arrive. auto.
  - (* a test *)
    destruct (o_pc s) eqn:P; auto. unfold shape in A4. rewrite P in A4. destruct A4 as (T & E & TK). subst tail errs.
    cbn zeta. cbn [take o_run]. assert (FI : o_finished s = false) by (apply A6; discriminate).
    destruct (Nat.eqb run (o_run s)) eqn:EQ.
    + apply Nat.eqb_eq in EQ. subst run. inv_with ys (@nil (nat * nat * list (message R))) (@nil (report R)).
      * unfold shape. cbn. rewrite TK. auto.
      * rewrite OC. intros ne _. eapply (bytes_pc s); eauto; try reflexivity; rewrite P; auto.
    + assert (UN : forall st, l <> LOk -> o_taken st = o_taken s ++ [(w, run)] -> unstarted st ys [] []) by (intros st NL Q; split; [intros lk; now apply NL, (HL lk w run)|]; repeat split; exists (w, run); now rewrite Q, TK).
      destruct l.
      * inv_with ys (@nil (nat * nat * list (message R))) (@nil (report R)); [right; right; apply UN; [discriminate|reflexivity]|].
        rewrite OC. intros ne _. eapply (bytes_pc s); eauto; try reflexivity; rewrite P; auto.
      * inv_with ys (@nil (nat * nat * list (message R))) (@nil (report R)); [right; right; apply UN; [discriminate|reflexivity]|congruence|rewrite OC; discriminate].
      * inv_with ys (@nil (nat * nat * list (message R))) (@nil (report R)); [right; right; apply UN; [discriminate|reflexivity]|congruence|rewrite OC; discriminate].
      * inv_with ys (@nil (nat * nat * list (message R))) (@nil (report R)); [right; right; apply UN; [discriminate|reflexivity]|].
        rewrite OC. intros ne _. destruct (bytes_restart s run ys PDead true) as (ts & w1 & g & lost & B); eauto. exists ts, w1, g, lost. exact B.
      * inv_with ys (@nil (nat * nat * list (message R))) (@nil (report R)); [unfold shape; cbn; now rewrite TK|].
        rewrite OC. intros ne _. destruct (bytes_restart s run ys (PStart w) true) as (ts & w1 & g & lost & B); eauto. exists ts, w1, g, lost. exact B.
  - (* send *)
    destruct (o_pc s) as [|w| | | | | |] eqn:P; auto. unfold shape in A4. rewrite P in A4. destruct A4 as (T & E & TK). subst tail errs.
    inv_with ys [(w, o_run s, @nil (message R))] (@nil (report R)).
    + now rewrite A2, app_nil_r.
    + unfold shape. cbn. auto.
    + intros _ _. apply A6; discriminate.
    + rewrite OC. intros ne FI. apply bytes_drain; auto; rewrite P; auto.
  - (* read *)
    destruct (o_pc s) as [|w0|w before|w before l|w| | |] eqn:P; auto; unfold shape in A4; rewrite P in A4.
    + assert (FI : o_finished s = false) by (apply A6; discriminate).
      destruct A4 as (-> & -> & TK). rewrite app_nil_r in A1. destruct m as [rs|i].
      * eapply (complete_inv NE s _ _ [All rs]); eauto; try reflexivity.
        -- split; [reflexivity|]. split; [reflexivity|]. eexists. split; [reflexivity|]. cbn [snd heard_of flat_map results_in]. rewrite app_nil_r, attach_all_map, map_map, map_id.
           split; auto. intros rs' x y _ I J. apply in_map_iff in I as (? & <- & _). apply in_map_iff in J as (? & <- & _). reflexivity.
        -- intros ne. rewrite P. auto.
        -- intros ne. rewrite P. unfold attributed. cbn [fst snd p_before p_body p_after hand]. rewrite attach_all_map. destruct rs as [|r rs]; [now contradiction (HE ne)|]. cbn. now rewrite app_nil_r.
      * destruct i as [r|[r|]]; cbn [increments].
        -- inv_with ys [(w, o_run s, [@Incremental R (One r)])] (@nil (report R)).
           ++ rewrite app_nil_r. exact A1.
           ++ unfold heard_more. rewrite A2, on_last_app. reflexivity.
           ++ unfold shape. cbn [drain o_pc o_run o_taken]. exists [Incremental (One r)]. split; auto. split; auto. split; auto. split; [discriminate|]. split; [constructor; [eexists; reflexivity|constructor]|reflexivity].
           ++ rewrite OC. intros ne _. apply bytes_drain; auto; rewrite P; auto. cbn. now rewrite app_nil_r.
        -- eapply (complete_inv NE s _ _ [Incremental (Done (Some r))]); eauto; try reflexivity.
           ++ split; [reflexivity|]. split; [reflexivity|]. eexists. split; [reflexivity|]. split; [reflexivity|]. discriminate.
           ++ intros ne. rewrite P. auto.
           ++ intros ne. rewrite P. unfold attributed. cbn. now rewrite !app_nil_r.
        -- eapply (complete_inv NE s _ _ [Incremental (Done None)]); eauto; try reflexivity.
           ++ split; [reflexivity|]. split; [reflexivity|]. eexists. split; [reflexivity|]. split; [reflexivity|]. discriminate.
           ++ intros ne. rewrite P. auto.
           ++ intros ne. rewrite P. unfold attributed. cbn. reflexivity.
    + assert (FI : o_finished s = false) by (apply A6; discriminate).
      destruct A4 as (ms & -> & -> & TK & N & F & M). rewrite app_nil_r in A1. destruct m as [rs|i]; auto.
      destruct i as [r|[r|]]; cbn [increments].
      * inv_with ys [(w, o_run s, ms ++ [@Incremental R (One r)])] (@nil (report R)).
        -- rewrite app_nil_r. exact A1.
        -- unfold heard_more. rewrite A2, on_last_app. reflexivity.
        -- unfold shape. cbn [drain o_pc o_run o_taken]. eexists. split; [reflexivity|]. split; auto. split; auto. split; [now destruct ms|]. split.
           ++ apply Forall_app. split; auto. constructor; [eexists; reflexivity|constructor].
           ++ rewrite map_app, flat_map_app, M. reflexivity.
        -- rewrite OC. intros ne _. apply bytes_drain; auto; rewrite P; auto. cbn [hand]. rewrite flat_map_app. cbn. now rewrite app_nil_r, app_assoc.
      * eapply (complete_inv NE s _ (complete w before (l ++ [attach (o_side s) r]) None s) (ms ++ [Incremental (Done (Some r))])); eauto; try reflexivity.
        -- split; [reflexivity|]. split; [reflexivity|]. eexists. split; [reflexivity|]. cbn [heard_of snd]. rewrite map_app, flat_map_app, M. split; [reflexivity|]. intros rs x y E. destruct ms as [|? [|]]; discriminate.
        -- now rewrite last_last.
        -- now rewrite last_last.
        -- intros ne. rewrite P. auto.
        -- intros ne. rewrite P. unfold attributed, complete. cbn [fst snd p_before p_body p_after]. rewrite results_shown by auto. rewrite flat_map_app. cbn [flat_map attach snd hand]. now rewrite !app_nil_r, <- app_assoc.
      * eapply (complete_inv NE s _ (complete w before l (Some (o_side s)) s) (ms ++ [Incremental (Done None)])); eauto; try reflexivity.
        -- split; [reflexivity|]. split; [reflexivity|]. eexists. split; [reflexivity|]. cbn [heard_of snd]. rewrite flat_map_app, M. cbn. rewrite app_nil_r. split; [reflexivity|]. intros rs x y E. destruct ms as [|? [|]]; discriminate.
        -- now rewrite last_last.
        -- now rewrite last_last.
        -- intros ne. rewrite P. auto.
        -- intros ne. rewrite P. unfold attributed, complete. cbn [fst snd p_before p_body p_after]. rewrite <- (app_nil_r l) at 1. rewrite results_shown by auto. cbn [hand]. now rewrite !app_nil_r, <- app_assoc.
  - (* fail *)
    assert (LOST : forall st, o_finished s = false -> ~ failed (o_pc s) -> errs = [] -> NE -> o_procs st = o_procs s -> o_run st = o_run s -> o_prev st = o_prev s -> o_side st = o_side s -> failed (o_pc st) -> bytes st ys []).
    { intros st FI NF -> ne H1 H2 H3 H4 H5. destruct (A7 ne FI) as (ts & w1 & g & lost & E1 & E2 & E3 & E4 & E5 & E6 & E7).
      exists ts, w1, g, (hand (o_pc s) ++ lost). rewrite H1, H2, H3, H4. repeat (split; [assumption|]). split; [|split; [assumption|]].
      - destruct (o_pc st); try destruct H5. cbn [hand app]. now rewrite E5, <- !app_assoc.
      - intros _ H. now contradiction H. }
    destruct (o_pc s) as [|w0|w before|w before l|w| | |] eqn:P; auto; unfold shape in A4; rewrite P in A4; (assert (FI : o_finished s = false) by (apply A6; discriminate)).
    + destruct A4 as (-> & -> & TK). inv_with ys [(w, o_run s, @nil (message R))] (@nil (report R)); [unfold shape; cbn; eauto|].
      rewrite OC. intros ne _. apply LOST; auto. exact I.
    + destruct A4 as (ms & -> & -> & TK & N & F & M). inv_with ys [(w, o_run s, ms)] (@nil (report R)); [unfold shape; cbn; eauto|].
      rewrite OC. intros ne _. apply LOST; auto. exact I.
  - (* flush *)
    destruct (o_pc s) as [|w0|w before|w before l|w| | |] eqn:P; auto; unfold shape in A4; rewrite P in A4. assert (FI : o_finished s = false) by (apply A6; discriminate).
    destruct A4 as (ms & -> & -> & TK). rewrite app_nil_r in A1. inv_with ys [(w, o_run s, ms)] (map (@error_report R (o_run s) (o_side s)) (w :: rem)).
    + unfold shape. cbn [send set_pc o_pc]. right. left. exists w, ms, (o_side s), rem. cbn. repeat (split; auto). exists []. now rewrite app_nil_r.
    + rewrite OC. intros ne _. eapply (bytes_pc s); eauto; try reflexivity; [rewrite P; reflexivity|discriminate].
  - (* close *)
    destruct (o_pc s) as [|w0|w before|w before l|w| | |] eqn:P; auto; unfold shape in A4; rewrite P in A4. assert (FI : o_finished s = false) by (apply A6; discriminate).
    pose proof A4 as (-> & -> & TK). destruct ok0; inv_with ys (@nil (nat * nat * list (message R))) (@nil (report R)).
    + exact A4.
    + rewrite OC. intros ne _. eapply (bytes_pc s); eauto; try reflexivity; rewrite P; auto.
    + left. exact A4.
    + rewrite OC. intros ne _. eapply (bytes_pc s); eauto; try reflexivity; rewrite P; auto.
  - (* finish *)
    destruct (o_pc s) as [|w0|w before|w before l|w| | |] eqn:P; auto; unfold shape in A4; rewrite P in A4.
    + assert (FI : o_finished s = false) by (apply A6; discriminate). pose proof A4 as (-> & -> & TK).
      destruct ok0; inv_with ys (@nil (nat * nat * list (message R))) (@nil (report R)); try congruence; try (intros _; exact I).
      * exact A4.
      * intros ne. split; [reflexivity|]. eapply (bytes_pc s); eauto; try reflexivity; rewrite P; auto.
      * left. exact A4.
    + assert (PA : inv NE (finish OPanic s)) by (inv_with ys tail errs; [exact A4|congruence|intros _; exact I]).
      destruct (o_finished s) eqn:FI; auto. destruct ok0; auto. inv_with ys tail errs; try congruence.
      * exact A4.
      * intros ne. split; [reflexivity|]. eapply (bytes_pc s); eauto; try reflexivity; rewrite P; auto.
Qed.

Lemma inv_run (NE : Prop) run0 es : (NE -> ~ In (ORead (All [])) es) -> (LK -> forall w run l, In (OTest w run l) es -> l = LOk) -> inv NE (run ostep (oinit run0) es).
Proof.
  intros H HL. assert (G : forall s, inv NE s -> inv NE (run ostep s es)); [|apply G, inv_init].
  induction es as [|e es IH]; intros s I; auto. apply IH.
  - intros ne K. apply (H ne). now right.
  - intros lk w r l K. apply (HL lk w r l). now right.
  - apply inv_step; auto; [intros ne ->; apply (H ne); now left|]. intros lk w r l ->. apply (HL lk w r l). now left.
Qed.
End Proofs.
