(* Proofs about queue processes that follow each other on one store (C83). *)
From Verif Require Import Base JobQueueModel WorkerSetModel ManifestViewModel RunModel RunSpec RunProofs RunInv RunNext
  RunLemmas RunParts RunAnswers ServerModel ServerSpec ServerProofs RestartModel RestartSpec.
From Verif Require WorkerSetSpec WorkerSetProofs.
From Coq Require Import Permutation.

(* ---- one process ---- *)
Section Core.
Context {T M : Type}.
Implicit Types (st : state T M) (r : run_id).

Lemma core_log st ev : exists os, s_log (step st ev) = s_log st ++ os.
Proof.
  destruct ev; unfold step, exclusive;
  repeat first [ exists []; now rewrite app_nil_r
               | eexists; reflexivity
               | match goal with |- context [match ?x with _ => _ end] =>
                   match x with context [match _ with _ => _ end] => fail 1 | _ => destruct x end end
               | match goal with |- context [let '(_, _) := ?x in _] => destruct x end ];
  cbn [s_log say mk add_timer]; rewrite app_nil_r; eexists; reflexivity.
Qed.

(* Only a failure to consult the store is fatal. *)
Lemma fatal_only st ev os q : s_log (step st ev) = s_log st ++ os -> In (OAssigned q FatalError) os ->
  exists k now, ev = EFindRemote k RemoteError now.
Proof.
  assert (N : forall (os0 : list (obs T M)), s_log st ++ os0 = s_log st ++ os -> ~ In (OAssigned q FatalError) os0 -> ~ In (OAssigned q FatalError) os).
  { intros os0 E. apply app_inv_head in E. now subst. }
  assert (N0 : s_log st = s_log st ++ os -> ~ In (OAssigned q FatalError) os).
  { intros E. apply (N []); [now rewrite app_nil_r|auto]. }
  intros E I. 
  destruct ev; unfold step, exclusive in E;
  try (repeat first [ exfalso; revert I; apply N0; exact E
               | exfalso; revert I; eapply N; [exact E|simpl; intuition discriminate]
               | exfalso; revert I; eapply N;
                   [cbn [s_log say mk add_timer] in E; rewrite app_nil_r in E; exact E|simpl; intuition discriminate]
               | match type of E with context [match ?x with _ => _ end] =>
                   match x with context [match _ with _ => _ end] => fail 1 | _ => destruct x eqn:? end end
               | match type of E with context [let '(_, _) := ?x in _] => destruct x eqn:? end ]; fail).
  - destruct a; eauto; exfalso; revert I;
    repeat first [ apply N0; exact E
               | eapply N; [exact E|simpl; intuition discriminate]
               | match type of E with context [match ?x with _ => _ end] =>
                   match x with context [match _ with _ => _ end] => fail 1 | _ => destruct x eqn:? end end ].
  - exfalso. destruct (nth_error (s_reqs st) k) as [[p []| |]|]; try (revert I; apply N0; exact E).
    destruct (get (fp_run p) (s_runs st)) as [s|].
    + destruct (find_lookup now p s) as [s' a] eqn:F. revert I. eapply N; [exact E|]. simpl. intros [H|[]].
      injection H as -> ->. destruct s; cbn [find_lookup] in F; try discriminate F.
      injection F as _ F. destruct (contains_by_tag _ _); discriminate F.
    + revert I. eapply N; [exact E|]. simpl. intuition discriminate.
Qed.

(* Only the store's answer makes a run known. *)
Lemma none_other st ev r : get r (s_runs st) = None -> (forall k a now, ev <> EFindRemote k a now) ->
  get r (s_runs (step st ev)) = None.
Proof.
  intros G N.
  assert (P : forall r0 s s0, get r0 (s_runs st) = Some s0 -> get r (put r0 s (s_runs st)) = None).
  { intros r0 s s0 H. rewrite get_put. destruct (Nat.eqb_spec r0 r); congruence. }
  destruct ev; try (exfalso; eapply N; reflexivity); unfold step, exclusive;
  repeat first [ exact G
               | cbn [s_runs set_run set_req add_req mk say add_timer]; eapply P; eassumption
               | match goal with |- context [match ?x with _ => _ end] =>
                   match x with context [match _ with _ => _ end] => fail 1 | _ => destruct x eqn:? end end
               | match goal with |- context [let '(_, _) := ?x in _] => destruct x eqn:? end ].
Qed.

Lemma none_find st k s now r : get r (s_runs st) = None ->
  (get r (s_runs (step st (EFindRemote k (RemoteFound s) now))) = None \/
   get r (s_runs (step st (EFindRemote k (RemoteFound s) now))) = Some (loaded_run s)) /\
  s_log (step st (EFindRemote k (RemoteFound s) now)) = s_log st.
Proof.
  intros G. simpl. destruct (nth_error (s_reqs st) k) as [[p []| |]|]; simpl; auto.
  destruct (get (fp_run p) (s_runs st)) eqn:Gp; simpl; auto.
  rewrite get_put, app_nil_r. split; auto. destruct (Nat.eqb (fp_run p) r); auto.
Qed.

Lemma none_fail st k now r : get r (s_runs st) = None -> get r (s_runs (step st (EFindRemote k RemoteError now))) = None.
Proof. intros G. simpl. destruct (nth_error (s_reqs st) k) as [[p []| |]|]; simpl; auto. Qed.

Lemma other_find st k a now r p : nth_error (s_reqs st) k = Some (QFind p FRemote) -> fp_run p <> r ->
  get r (s_runs (step st (EFindRemote k a now))) = get r (s_runs st).
Proof.
  intros H N. simpl. rewrite H. destruct a; simpl; auto; destruct (get (fp_run p) (s_runs st)); simpl; auto;
  rewrite get_put; destruct (Nat.eqb_spec (fp_run p) r); congruence.
Qed.

(* What the plan says about who took part. *)
Lemma plan_seen r st : reachable st -> forall k e ts eow p, In (OWork k r e ts eow (Some p)) (history st r) ->
  exists ec m seen b hh old, get r (s_runs st) = Some (Done ec m seen (MPersisted b) hh old) /\
    (forall x, In x (sv_seen (pl_state p)) -> In (en_tag x) (tags seen)).
Proof.
  apply (history_ind r (fun o h => forall k e ts eow p, In (OWork k r e ts eow (Some p)) h ->
    exists ec m seen b hh old, o = Some (Done ec m seen (MPersisted b) hh old) /\
    (forall x, In x (sv_seen (pl_state p)) -> In (en_tag x) (tags seen)))).
  - intros; contradiction.
  - intros st0 os o' HR IH He k e ts eow p Hin.
    apply in_app_iff in Hin as [Hin|Hin].
    + destruct (IH _ _ _ _ _ Hin) as (ec & m & seen & b & hh & old & Hg & H').
      destruct He; try congruence;
        try (match goal with H : get _ (s_runs _) = Some _ |- _ => rewrite Hg in H; injection H; intros; subst end);
        try (do 6 eexists; split; [first [exact Hg|reflexivity]|exact H']; fail);
        cbn [find_lookup add_manifest mark_empty mark_failed try_mark_end mark_cancelled worker_complete init_metadata retry_manifest] in *;
        try discriminate;
        repeat match goal with
               | H : context [if contains_by_tag ?s ?x then _ else _] |- _ => destruct (contains_by_tag s x) eqn:?
               | H : context [if ?b then _ else _] |- _ => is_var b; destruct b
               end;
        repeat match goal with E : (_, _) = (_, _) |- _ => injection E; intros; subst; clear E end;
        do 6 eexists; (split; [reflexivity|]); intros x Hx; rewrite ?in_tags_insert, ?in_tags_insert_if_missing; auto.
    + destruct He; simpl in Hin; repeat (destruct Hin as [Hin|Hin]; try discriminate); try contradiction.
      op_cases; injection Hin; intros; subst; try discriminate.
      do 6 eexists. split; [reflexivity|]. intros y Hy. cbn [pl_state sv_seen] in Hy. unfold tags. rewrite <- map_map. now apply in_map.
Qed.

(* Every worker that was given a place before is among them. *)
Lemma plan_placed r st h1 k e ts eow p h2 t : reachable st -> history st r = h1 ++ OWork k r e ts eow (Some p) :: h2 ->
  was_placed t h1 -> exists x, In x (sv_seen (pl_state p)) /\ en_tag x = t.
Proof.
  intros [es ->]. revert h2. induction es as [|ev es IH] using rev_ind; intros h2 H W.
  - simpl in H. destruct h1; discriminate.
  - rewrite run_app in H. simpl in H. set (st := run step init_state es) in *.
    assert (HR : reachable st) by (exists es; reflexivity).
    destruct (step_effect st ev r) as (os & He & Hh). rewrite Hh in H.
    apply split_snoc in H as [(x & H1 & _)|(l & H1 & H2)].
    + eapply IH; eauto.
    + assert (P := pinv_ok r st HR). destruct He; destruct l as [|? [|? [|]]]; simpl in H2; try discriminate.
      op_cases; try discriminate. rewrite H in P. simpl in P.
      injection H2 as _ _ _ _ <- _. rewrite app_nil_r in H1. subst h1. apply P in W.
      cbn [pl_state sv_seen].
      assert (X : In t (map en_tag (map fst (from_iter (map (fun q => (fst q, match snd q with None => true | Some _ => false end)) active))))).
      { rewrite map_map. change (In t (tags (from_iter (map (fun q => (fst q, match snd q with None => true | Some _ => false end)) active)))).
        rewrite in_tags_from_iter, map_map. exact W. }
      apply in_map_iff in X as (x & X1 & X2). eauto.
Qed.

Lemma plan_one r st k e ts eow p k' e' ts' eow' p' : reachable st -> In (OWork k r e ts eow (Some p)) (history st r) ->
  In (OWork k' r e' ts' eow' (Some p')) (history st r) -> p = p'.
Proof.
  intros HR H H'. assert (C := manifest_inv r st HR).
  assert (C1 : length (filter has_plan (history st r)) <= 1).
  { unfold count in C. destruct (get r (s_runs st)) as [[]|]; lia. }
  assert (X : In (OWork k r e ts eow (Some p)) (filter has_plan (history st r))) by (apply filter_In; auto).
  assert (X' : In (OWork k' r e' ts' eow' (Some p')) (filter has_plan (history st r))) by (apply filter_In; auto).
  destruct (filter has_plan (history st r)) as [|a [|b l]]; simpl in *; [tauto| |lia].
  destruct X as [X|[]], X' as [X'|[]]. subst. now injection X'.
Qed.
End Core.

(* ---- a run that ended, in one process ---- *)
Section Ended.
Context {T M : Type}.
Implicit Types (st : state T M) (r : run_id) (s : saved_state M).

(* The process does not know the run, or has it as it ended; b: its manifest is there. *)
Definition known_as s (b : bool) (o : option (run_state T M)) : Prop :=
  match o with
  | None => True
  | Some (Done ec m seen (MPersisted b') h _) =>
      ec = sv_exit s /\ m = sv_meta s /\ h = sv_hash s /\ (b = true -> b' = true) /\
      forall x, In x (sv_seen s) -> In (en_tag x) (tags seen)
  | _ => False
  end.
Definition not_waiting (b : bool) (o : obs T M) : Prop :=
  match o with ORetry _ _ a => b = true -> a <> RNotYetPersisted | _ => True end.

Lemma known_loaded s b : known_as s b (Some (loaded_run s)).
Proof.
  repeat split; auto. intros x Hx. rewrite in_tags_from_iter, map_map. simpl. now apply in_map.
Qed.

Lemma known_effect st r s b o' os : reachable st -> known_as s b (get r (s_runs st)) ->
  (get r (s_runs st) = None -> o' = None) -> effect st r o' os ->
  known_as s b o' /\ forall o, In o os -> as_ended s o /\ not_waiting b o.
Proof.
  intros HR K N He. destruct (get r (s_runs st)) as [x|] eqn:G.
  - simpl in K. destruct x as [| |ec m seen [b'|] h old|]; try contradiction.
    destruct K as (-> & -> & -> & Hb & HS).
    destruct He; rewrite ?G in *; try discriminate;
      repeat match goal with H : Some _ = Some _ |- _ => injection H; intros; subst; clear H end;
      try (exfalso; eapply unknown_impossible; eauto; congruence);
      cbn [find_lookup add_manifest mark_empty mark_failed try_mark_end mark_cancelled worker_complete init_metadata retry_manifest] in *;
      repeat match goal with
             | H : context [if contains_by_tag ?s ?x then _ else _] |- _ => destruct (contains_by_tag s x) eqn:?
             | H : context [if ?c then _ else _] |- _ => is_var c; destruct c
             end;
      repeat match goal with E : (_, _) = (_, _) |- _ => injection E; intros; subst; clear E end;
      try discriminate;
      (split; [simpl; repeat split; auto; intros y Hy; rewrite ?in_tags_insert, ?in_tags_insert_if_missing; auto|]);
      simpl; intros o HI; repeat match goal with H : _ \/ _ |- _ => destruct H as [<-|H] end; try contradiction; simpl; auto.
    + (* a place *) split; auto. right; right. split; auto. intros y Hy E. apply HS in Hy.
      match goal with H : contains_by_tag _ _ = false |- _ => apply Bool.not_true_iff_false in H; apply H end.
      apply WorkerSetProofs.contains_tags. now rewrite <- E.
    + split; auto. intros _. discriminate.
    + split; auto. intros ->. discriminate (Hb eq_refl).
    + split; eauto.
  - specialize (N eq_refl). subst o'. split; [exact I|].
    remember (@None (run_state T M)) as nn eqn:En. destruct He; try discriminate; try congruence; subst; simpl;
      intros o HI; repeat match goal with H : _ \/ _ |- _ => destruct H as [<-|H] end; try contradiction; simpl; auto.
    + exfalso. eapply unknown_impossible; eauto.
    + split; auto. intros _. discriminate.
    + rewrite En. simpl. auto.
Qed.

(* What the store says when it has s for run r. *)
Definition told_right st r s (c : event T M) : Prop := forall k a now p,
  c = EFindRemote k a now -> nth_error (s_reqs st) k = Some (QFind p FRemote) -> fp_run p = r ->
  a = RemoteFound s \/ a = RemoteError.

Lemma is_find (c : event T M) : (exists k a now, c = EFindRemote k a now) \/ (forall k a now, c <> EFindRemote k a now).
Proof. destruct c; try (right; intros; discriminate). left; eauto. Qed.

Lemma known_step st c s b r : reachable st -> known_as s b (get r (s_runs st)) ->
  (get r (s_runs st) = None -> told_right st r s c) ->
  known_as s b (get r (s_runs (step st c))) /\
  forall os, history (step st c) r = history st r ++ os -> forall o, In o os -> as_ended s o /\ not_waiting b o.
Proof.
  intros HR K TR.
  assert (X : (get r (s_runs st) = None -> get r (s_runs (step st c)) = None) \/
              (get r (s_runs (step st c)) = Some (loaded_run s) /\ s_log (step st c) = s_log st)).
  { destruct (is_find c) as [(k & a & now & ->)|N]; [|left; intros; now apply none_other].
    destruct (get r (s_runs st)) eqn:G; [left; congruence|].
    destruct (nth_error (s_reqs st) k) as [[p []| |]|] eqn:E; try (left; intros; simpl; rewrite E; exact G).
    destruct (Nat.eq_dec (fp_run p) r) as [Er|Er]; [|left; intros; rewrite (other_find _ _ _ _ _ _ E Er); exact G].
    destruct (TR eq_refl k a now p eq_refl E Er) as [->| ->].
    - destruct (none_find st k s now r G) as [[H|H] HL]; auto.
    - left. intros. now apply none_fail. }
  destruct X as [X|[X1 X2]].
  - destruct (step_effect st c r) as (os & He & Hh).
    destruct (known_effect st r s b _ os HR K X He) as [K' A]. split; [exact K'|].
    intros os' H. rewrite Hh in H. apply app_inv_head in H. subst os'. exact A.
  - rewrite X1. split; [apply known_loaded|]. intros os H. unfold history in H. rewrite X2 in H.
    rewrite <- (app_nil_r (filter (about r) (s_log st))) in H at 1. apply app_inv_head in H. subst. simpl; tauto.
Qed.
End Ended.

(* ---- the processes ---- *)
Section Processes.
Context {T M L : Type}.
Implicit Types (st : qstate T M L) (r : run_id).

Lemma fresh_app {A} (l os : list A) : fresh_log l (l ++ os) = os.
Proof. unfold fresh_log. rewrite skipn_app, skipn_all, Nat.sub_diag. reflexivity. Qed.

Lemma core_of (s : sstate T M L) ev : sv_core (sstep s ev) = sv_core s \/
  exists c, sv_core (sstep s ev) = step (sv_core s) c /\
    (ev = SCore c \/ exists r flat meta x, ev = SManifest r flat meta x /\ c = EManifest r flat meta).
Proof.
  destruct ev as [c|r flat meta x|r e line|k ok|r|k ok].
  - destruct c; [..|]; try (right; eexists; split; [|left; reflexivity]; reflexivity). left; reflexivity.
  - right. exists (EManifest r flat meta). cbn [sstep]. destruct (manifest_accepted (sv_core s) r); split; eauto 10.
  - left. simpl. destruct (write_cell (sv_core s) r); reflexivity.
  - left. simpl. destruct (nth_error (sv_writes s) k) as [w|]; [|reflexivity]. unfold write_step.
    destruct (w_pc w), ok; reflexivity.
  - left. simpl. unfold fetch. destruct (read_cell (sv_core s) r); reflexivity.
  - left. simpl. destruct (nth_error (sv_reads s) k) as [rd|]; [|reflexivity]. unfold read_step.
    destruct (rd_pc rd), ok; try destruct (Z.eqb _ _); reflexivity.
Qed.

Lemma core_reachable (s : sstate T M L) ev : reachable (sv_core s) -> reachable (sv_core (sstep s ev)).
Proof. destruct (core_of s ev) as [->|(c & -> & _)]; auto using reachable_step. Qed.

(* What a step of the server adds to the log of its runs. *)
Lemma core_logs (s : sstate T M L) ev : exists os, s_log (sv_core (sstep s ev)) = s_log (sv_core s) ++ os.
Proof. destruct (core_of s ev) as [->|(c & -> & _)]; [exists []; now rewrite app_nil_r|apply core_log]. Qed.

(* ---- what holds in every process ---- *)
Record sound st : Prop := {
  so_server : exists f g es, q_server st = run sstep (sinit f g) es;
  so_core : reachable (sv_core (q_server st));
  so_jobs : forall x, In x (q_jobs st) -> exists k e ts eow,
    In (OWork k (j_run x) e ts eow (Some (j_plan x))) (history (sv_core (q_server st)) (j_run x))
}.

Lemma in_jobs_of x (os : list (obs T M)) : In x (jobs_of os) ->
  exists k e ts eow, In (OWork k (j_run x) e ts eow (Some (j_plan x))) os.
Proof.
  unfold jobs_of. rewrite in_flat_map. intros (o & Ho & Hx). destruct o; try contradiction.
  destruct p as [p|]; [|contradiction]. destruct Hx as [<-|[]]. simpl. eauto.
Qed.

Lemma hist_grows (s : sstate T M L) ev r : exists os, history (sv_core (sstep s ev)) r = history (sv_core s) r ++ os.
Proof. destruct (core_logs s ev) as [os H]. exists (filter (about r) os). unfold history. now rewrite H, filter_app. Qed.

Lemma in_hist (c : state T M) r o : In o (s_log c) -> obs_run o = Some r -> In o (history c r).
Proof. intros H E. apply filter_In. split; auto. unfold about. rewrite E. apply Nat.eqb_refl. Qed.

Lemma sound_serve st ev : sound st -> sound (serve st ev).
Proof.
  intros [(f & g & es & HS) HC HJ]. constructor; simpl.
  - exists f, g, (es ++ [ev]). rewrite HS, run_app. reflexivity.
  - now apply core_reachable.
  - intros x Hx. destruct (core_logs (q_server st) ev) as [os E]. rewrite E, fresh_app in Hx.
    apply in_app_iff in Hx as [Hx|Hx].
    + destruct (HJ x Hx) as (k & e & ts & eow & H). exists k, e, ts, eow.
      destruct (hist_grows (q_server st) ev (j_run x)) as [os' ->]. apply in_app_iff; auto.
    + apply in_jobs_of in Hx as (k & e & ts & eow & H). exists k, e, ts, eow.
      apply in_hist; [rewrite E; apply in_app_iff; auto|reflexivity].
Qed.

Lemma in_upd {A} j (x y : A) l : In y (upd j x l) -> y = x \/ In y l.
Proof.
  revert j. induction l as [|a l IH]; intros [|j]; simpl; auto.
  - intros [<-|H]; auto.
  - intros [<-|H]; auto. apply IH in H. intuition.
Qed.

Lemma in_set_job j (x : job T M) pc l y : nth_error l j = Some x ->
  In y (upd j {| j_run := j_run x; j_plan := j_plan x; j_pc := pc |} l) ->
  exists z, In z l /\ j_run z = j_run y /\ j_plan z = j_plan y.
Proof.
  intros H Hy. apply in_upd in Hy as [->|Hy]; [|eauto]. exists x. simpl. repeat split. eapply nth_error_In; eauto.
Qed.

Lemma sound_step st ev : sound st -> sound (qstep st ev).
Proof.
  intros S. destruct ev as [ev|k ok now|j ok|j o|j ok|i o|same first]; simpl.
  - destruct ev as [c| | | | |]; try (apply sound_serve; exact S). destruct c; try (apply sound_serve; exact S); exact S.
  - destruct (nth_error (s_reqs (sv_core (q_server st))) k) as [[p []| |]|]; try exact S. now apply sound_serve.
  - destruct (nth_error (q_jobs st) j) as [x|] eqn:E; [|exact S]. destruct (j_pc x); [|exact S].
    destruct S as [H1 H2 H3]. constructor; simpl; auto. intros y Hy. destruct (in_set_job _ _ _ _ _ E Hy) as (z & Hz & <- & <-). auto.
  - destruct (nth_error (q_jobs st) j) as [x|] eqn:E; [|exact S]. destruct (j_pc x) as [|[] s]; try exact S.
    destruct S as [(f & g & es & H1) H2 H3]. destruct o; constructor; simpl; auto; try (do 3 eexists; exact H1);
      try (intros y Hy; destruct (in_set_job _ _ _ _ _ E Hy) as (z & Hz & <- & <-); auto; fail).
    + exists f, g, (es ++ [SCore (EPersisted (j_run x))]). rewrite run_app, <- H1. reflexivity.
    + apply (core_reachable (q_server st) (SCore (EPersisted (j_run x)))). exact H2.
    + intros y Hy; destruct (in_set_job _ _ _ _ _ E Hy) as (z & Hz & <- & <-).
      destruct (H3 z Hz) as (k & e & ts & eow & H). exists k, e, ts, eow.
      destruct (hist_grows (q_server st) (SCore (EPersisted (j_run x))) (j_run z)) as [os' Hg].
      simpl in Hg. rewrite Hg. apply in_app_iff; auto.
  - destruct (nth_error (q_jobs st) j) as [x|] eqn:E; [|exact S]. destruct (j_pc x) as [|m []]; try exact S.
    destruct S as [H1 H2 H3]. constructor; simpl; auto. intros y Hy. destruct (in_set_job _ _ _ _ _ E Hy) as (z & Hz & <- & <-). auto.
  - destruct S as [H1 H2 H3]. destruct (nth_error (q_loads st) i) as [[r e]|]; [|now constructor].
    destruct (q_disk st r); [now constructor|]. destruct (q_manifests st r), o; now constructor.
  - constructor; simpl.
    + do 2 eexists. exists []. reflexivity.
    + apply reachable_init.
    + tauto.
Qed.

Lemma sound_run st es : sound st -> sound (run qstep st es).
Proof. revert st. induction es as [|ev es IH]; intros st H; [exact H|]. simpl. apply IH. now apply sound_step. Qed.

Lemma sound_init : sound (@qinit T M L).
Proof. constructor; simpl; [do 2 eexists; exists []; reflexivity|apply reachable_init|tauto]. Qed.

Lemma qreach_sound st : qreachable st -> sound st.
Proof. intros [es ->]. apply sound_run, sound_init. Qed.

(* ---- the log ---- *)
Lemma qlog_step st ev : exists os, q_log (qstep st ev) = q_log st ++ os.
Proof.
  assert (S : exists os, q_log st = q_log st ++ os) by (exists []; now rewrite app_nil_r).
  destruct ev as [ev|k ok now|j ok|j o|j ok|i o|same first]; simpl.
  - destruct ev as [c| | | | |]; try (eexists; reflexivity). destruct c; try (eexists; reflexivity); exact S.
  - destruct (nth_error (s_reqs (sv_core (q_server st))) k) as [[p []| |]|]; try exact S. eexists; reflexivity.
  - destruct (nth_error (q_jobs st) j) as [x|]; [|exact S]. destruct (j_pc x); [eexists; reflexivity|exact S].
  - destruct (nth_error (q_jobs st) j) as [x|]; [|exact S]. destruct (j_pc x) as [|[] s]; try exact S. destruct o; eexists; reflexivity.
  - destruct (nth_error (q_jobs st) j) as [x|]; [|exact S]. destruct (j_pc x) as [|m []]; try exact S. eexists; reflexivity.
  - destruct (nth_error (q_loads st) i) as [[r e]|]; [|exact S].
    destruct (q_disk st r); [eexists; reflexivity|]. destruct (q_manifests st r), o; eexists; reflexivity.
  - eexists; reflexivity.
Qed.

Lemma qlog_run st es : exists os, q_log (run qstep st es) = q_log st ++ os.
Proof.
  revert st. induction es as [|ev es IH]; intros st; [exists []; now rewrite app_nil_r|].
  simpl. destruct (IH (qstep st ev)) as [os H]. destruct (qlog_step st ev) as [os' H'].
  exists (os' ++ os). unfold run in *. now rewrite H, H', app_assoc.
Qed.

(* ---- a run whose state was stored ---- *)
Definition known st r (s : saved_state M) (b : bool) : Prop :=
  q_states st r = Some s /\ known_as s b (get r (s_runs (sv_core (q_server st)))) /\
  forall x, In x (q_jobs st) -> j_run x = r -> pl_state (j_plan x) = s.

(* What a step makes be seen of run r. *)
Definition seen_ended s b r (os : list (qobs T M L)) : Prop :=
  forall o, In (QRun o) os -> about r o = true -> as_ended s o /\ not_waiting b o.

Lemma seen_none s b r os : (forall o, ~ In (QRun o) os) -> seen_ended s b r os.
Proof. intros H o Ho. exfalso. eapply H; eauto. Qed.

Lemma known_core (v : sstate T M L) ev s b r : reachable (sv_core v) -> known_as s b (get r (s_runs (sv_core v))) ->
  (get r (s_runs (sv_core v)) = None -> forall c, ev = SCore c -> told_right (sv_core v) r s c) ->
  known_as s b (get r (s_runs (sv_core (sstep v ev)))) /\
  forall os, s_log (sv_core (sstep v ev)) = s_log (sv_core v) ++ os ->
    forall o, In o os -> about r o = true -> as_ended s o /\ not_waiting b o.
Proof.
  intros HR K TR. destruct (core_of v ev) as [E|(c & E & HE)]; rewrite E.
  - split; [exact K|]. intros os H. rewrite <- (app_nil_r (s_log (sv_core v))) in H at 1. apply app_inv_head in H. subst. simpl; tauto.
  - destruct (known_step (sv_core v) c s b r HR K) as [K' A].
    { intros G. destruct HE as [->|(r0 & flat & meta & x & _ & ->)]; [now apply TR|]. intros k a now p. discriminate. }
    split; [exact K'|]. intros os H o Ho Hr. apply (A (filter (about r) os)).
    + unfold history. now rewrite H, filter_app.
    + now apply filter_In.
Qed.

Lemma known_serve st ev s b r : sound st -> known st r s b ->
  (forall c, ev = SCore c -> told_right (sv_core (q_server st)) r s c) ->
  known (serve st ev) r s b /\
  forall os, q_log (serve st ev) = q_log st ++ os -> seen_ended s b r os.
Proof.
  intros S (K1 & K2 & K3) TR.
  destruct (known_core (q_server st) ev s b r (so_core _ S) K2 (fun _ => TR)) as [K' A].
  destruct (core_logs (q_server st) ev) as [os E]. specialize (A os E).
  unfold known, serve. cbn [q_server q_jobs q_loads q_disk q_manifests q_states q_log]. rewrite E, fresh_app. split.
  - split; [exact K1|]. split; [exact K'|]. intros x Hx Hr. apply in_app_iff in Hx as [Hx|Hx]; [auto|].
    apply in_jobs_of in Hx as (k & e & ts & eow & H). destruct (A _ H) as [H1 _].
    + unfold about. simpl. rewrite Hr. apply Nat.eqb_refl.
    + simpl in H1. destruct H1; discriminate.
  - intros os' H. apply app_inv_head in H. subst os'. intros o Ho. apply in_app_iff in Ho as [Ho|Ho].
    + apply in_map_iff in Ho as (o' & Eo & Ho). injection Eo as ->. auto.
    + apply in_map_iff in Ho as (o' & Eo & Ho). discriminate.
Qed.

Ltac same_log H := apply app_inv_head in H; subst; apply seen_none; simpl; intuition discriminate.

Lemma known_jobs st st' r s b : known st r s b -> q_states st' r = Some s ->
  known_as s b (get r (s_runs (sv_core (q_server st')))) ->
  (forall y, In y (q_jobs st') -> exists z, In z (q_jobs st) /\ j_run z = j_run y /\ j_plan z = j_plan y) -> known st' r s b.
Proof.
  intros (K1 & K2 & K3) H1 H2 H3. split; [exact H1|]. split; [exact H2|].
  intros y Hy Hr. destruct (H3 y Hy) as (z & Hz & E1 & <-). apply K3; congruence.
Qed.

Lemma known_qstep st ev s b r : sound st -> known st r s b ->
  known (qstep st ev) r s b /\
  forall os, q_log (qstep st ev) = q_log st ++ os -> seen_ended s b r os.
Proof.
  intros S K.
  assert (Same : known st r s b /\ forall os, q_log st = q_log st ++ os -> seen_ended s b r os).
  { split; [exact K|]. intros os H. rewrite <- (app_nil_r (q_log st)) in H at 1. same_log H. }
  assert (Serve : forall ev, (forall k a now, ev <> SCore (EFindRemote k a now)) -> known (serve st ev) r s b /\
    forall os, q_log (serve st ev) = q_log st ++ os -> seen_ended s b r os).
  { intros ev0 N. apply known_serve; auto. intros c -> k a now p ->. exfalso. eapply N; reflexivity. }
  destruct ev as [ev|k ok now|j ok|j o|j ok|i o|same first]; cbn [qstep].
  - destruct ev as [c| | | | |]; try (apply Serve; intros; discriminate).
    destruct c; try (apply Serve; intros; discriminate); exact Same.
  - destruct (nth_error (s_reqs (sv_core (q_server st))) k) as [[p []| |]|] eqn:E; try exact Same.
    apply known_serve; auto. intros c Ec k0 a0 now0 p0 -> E0 Er. injection Ec as -> <- ->. rewrite E in E0. injection E0 as ->.
    destruct ok; auto. left. unfold consult. rewrite Er. destruct K as [-> _]. reflexivity.
  - destruct (nth_error (q_jobs st) j) as [x|] eqn:E; [|exact Same]. destruct (j_pc x) eqn:Ep; [|exact Same]. split.
    + apply (known_jobs _ _ _ _ _ K); simpl; try apply K. intros y Hy. exact (in_set_job _ _ _ _ _ E Hy).
    + intros os H. simpl in H. same_log H.
  - destruct (nth_error (q_jobs st) j) as [x|] eqn:E; [|exact Same]. destruct (j_pc x) as [|[] s0] eqn:Ep; try exact Same.
    destruct o; split; try (intros os H; simpl in H; same_log H);
      (apply (known_jobs _ _ _ _ _ K); [apply K| |intros y Hy; exact (in_set_job _ _ _ _ _ E Hy)]); try apply K.
    destruct (known_core (q_server st) (SCore (EPersisted (j_run x))) s b r (so_core _ S)) as [K' _]; auto; [apply K|].
    intros _ c Ec k a now p ->. discriminate.
  - destruct (nth_error (q_jobs st) j) as [x|] eqn:E; [|exact Same]. destruct (j_pc x) as [|m []] eqn:Ep; try exact Same. split.
    + apply (known_jobs _ _ _ _ _ K); simpl; try apply K; [|intros y Hy; exact (in_set_job _ _ _ _ _ E Hy)].
      destruct ok; [|apply K]. unfold fset. destruct (Nat.eqb_spec r (j_run x)) as [Er|]; [|apply K].
      f_equal. apply K; auto. eapply nth_error_In; eauto.
    + intros os H. simpl in H. same_log H.
  - destruct (nth_error (q_loads st) i) as [[r0 e]|]; [|exact Same].
    assert (X : forall disk a, let st' := {| q_server := q_server st; q_jobs := q_jobs st; q_loads := remove_at i (q_loads st);
       q_disk := disk; q_manifests := q_manifests st; q_states := q_states st; q_log := q_log st ++ [QManifest r0 e a] |} in
       known st' r s b /\ forall os, q_log st' = q_log st ++ os -> seen_ended s b r os).
    { intros disk a. split; [exact K|]. intros os H. simpl in H. same_log H. }
    destruct (q_disk st r0); [apply X|]. destruct (q_manifests st r0), o; apply X.
  - split; [|intros os H; simpl in H; same_log H]. repeat split; simpl; try tauto. apply K.
Qed.

(* The state of a run is stored at its end. *)
Lemma kept_known st j x s0 : sound st -> nth_error (q_jobs st) j = Some x -> j_pc x = JTasks s0 true ->
  known (qstep st (QStore j true)) (j_run x) (pl_state (j_plan x)) false.
Proof.
  intros S E Ep. cbn [qstep]. rewrite E, Ep. assert (Hx : In x (q_jobs st)) by (eapply nth_error_In; eauto).
  destruct (so_jobs _ S x Hx) as (k & e & ts & eow & H).
  destruct (plan_inv _ _ (so_core _ S) _ _ _ _ _ H) as (ec & m & seen & mp & hh & c & js & G & _ & H1 & H2 & H3).
  destruct (plan_seen _ _ (so_core _ S) _ _ _ _ _ H) as (ec' & m' & seen' & b & hh' & old & G' & HS).
  rewrite G in G'. injection G' as -> -> -> -> -> <-.
  split; [|split]; simpl.
  - unfold fset. now rewrite Nat.eqb_refl.
  - rewrite G. repeat split; auto. discriminate.
  - intros y Hy Hr. destruct (in_set_job _ _ _ _ _ E Hy) as (z & Hz & E1 & <-).
    destruct (so_jobs _ S z Hz) as (k' & e' & ts' & eow' & H'). rewrite E1, Hr in H'.
    f_equal. symmetry. eapply plan_one; [apply (so_core _ S)|exact H|exact H'].
Qed.

Lemma state_kept_step st ev r p os : q_log (qstep st ev) = q_log st ++ os -> In (QStateKept r p true) os ->
  exists j x m, ev = QStore j true /\ nth_error (q_jobs st) j = Some x /\ j_pc x = JTasks m true /\ j_run x = r /\ j_plan x = p.
Proof.
  intros H I.
  assert (N : forall l, q_log st ++ l = q_log st ++ os -> ~ In (QStateKept r p true) l -> False).
  { intros l E Hn. apply app_inv_head in E. subst. auto. }
  assert (N0 : q_log st = q_log st ++ os -> False) by (intros E; apply (N []); [now rewrite app_nil_r|simpl; tauto]).
  assert (NS : forall (a : list (obs T M)) (c : list (sobs L)), ~ In (QStateKept r p true) (map QRun a ++ map QRes c)).
  { intros a c Hi. apply in_app_iff in Hi as [Hi|Hi]; apply in_map_iff in Hi as (? & ? & _); discriminate. }
  destruct ev as [ev|k ok now|j ok|j o|j ok|i o|same first]; cbn [qstep] in H.
  - exfalso. destruct ev as [c| | | | |]; [destruct c|..]; try (eapply N0; exact H); (eapply N; [exact H|apply NS]).
  - exfalso. destruct (nth_error (s_reqs (sv_core (q_server st))) k) as [[q []| |]|]; try (eapply N0; exact H). eapply N; [exact H|apply NS].
  - exfalso. destruct (nth_error (q_jobs st) j) as [x|]; [|eapply N0; exact H]. destruct (j_pc x); [|eapply N0; exact H].
    eapply N; [exact H|simpl; tauto].
  - exfalso. destruct (nth_error (q_jobs st) j) as [x|]; [|eapply N0; exact H]. destruct (j_pc x) as [|[] s]; try (eapply N0; exact H).
    destruct o; (eapply N; [exact H|simpl; intuition discriminate]).
  - destruct (nth_error (q_jobs st) j) as [x|] eqn:E; [|exfalso; eapply N0; exact H]. destruct (j_pc x) as [|m []] eqn:Ep; try (exfalso; eapply N0; exact H).
    simpl in H. apply app_inv_head in H. subst os. destruct I as [I|[]]. injection I as <- <- ->. eauto 10.
  - exfalso. destruct (nth_error (q_loads st) i) as [[r0 e]|]; [|eapply N0; exact H].
    destruct (q_disk st r0); [|destruct (q_manifests st r0), o]; (eapply N; [exact H|simpl; intuition discriminate]).
  - exfalso. eapply N; [exact H|simpl; intuition discriminate].
Qed.

Lemma run_snoc st es ev : run qstep st (es ++ [ev]) = qstep (run qstep st es) ev :> qstate T M L.
Proof. now rewrite run_app. Qed.

Lemma state_kept_known st r p : qreachable st -> state_kept st r p -> known st r (pl_state p) false.
Proof.
  intros [es ->]. induction es as [|ev es IH] using rev_ind; intros H.
  - unfold state_kept in H. simpl in H. intuition discriminate.
  - rewrite run_snoc in *. set (st := run qstep qinit es) in *.
    assert (S : sound st) by (apply sound_run, sound_init).
    destruct (qlog_step st ev) as [os E]. unfold state_kept in H. rewrite E in H.
    apply in_app_iff in H as [H|H].
    + apply known_qstep; auto.
    + destruct (state_kept_step _ _ _ _ _ E H) as (j & x & m & -> & Hj & Hp & <- & <-). eapply kept_known; eauto.
Qed.

Lemma known_run es : forall st r s b, sound st -> known st r s b ->
  known (run qstep st es) r s b /\ forall os, q_log (run qstep st es) = q_log st ++ os -> seen_ended s b r os.
Proof.
  induction es as [|ev es IH]; intros st r s b S K.
  - split; [exact K|]. intros os H. simpl in H. rewrite <- (app_nil_r (q_log st)) in H at 1. same_log H.
  - destruct (known_qstep st ev s b r S K) as [K' A]. destruct (IH (qstep st ev) r s b (sound_step _ _ S) K') as [K'' A'].
    split; [exact K''|]. intros os H. destruct (qlog_step st ev) as [o1 E1]. destruct (qlog_run (qstep st ev) es) as [o2 E2].
    change (run qstep st (ev :: es)) with (run qstep (qstep st ev) es) in H. rewrite E2, E1, <- app_assoc in H. apply app_inv_head in H. subst os.
    intros o Ho. apply in_app_iff in Ho as [Ho|Ho]; [eapply A; eauto|eapply A'; eauto].
Qed.

(* ---- a run whose manifest was stored as well ---- *)
Definition mknown st r (v : mview) : Prop :=
  q_manifests st r = Some v /\ (q_disk st r = None \/ q_disk st r = Some v) /\
  forall x, In x (q_jobs st) -> j_run x = r -> pl_view (j_plan x) = v.

Lemma fset_eq {B} (f : run_id -> B) r b : fset f r b r = b.
Proof. unfold fset. now rewrite Nat.eqb_refl. Qed.
Lemma fset_if {B} (f : run_id -> B) r r' b : fset f r b r' = if Nat.eqb r' r then b else f r'.
Proof. reflexivity. Qed.

Definition loaded_right v r (ev : qevent T M L) (os : list (qobs T M L)) : Prop := forall e a,
  In (QManifest r e a) os -> a = part v (en_tag e) \/ (a = LFailed /\ exists i o, ev = QLoad i o /\ o <> FOk).

Lemma loaded_none v r ev os : (forall e a, ~ In (QManifest r e a) os) -> loaded_right v r ev os.
Proof. intros H e a I. exfalso. eapply H; eauto. Qed.

Ltac no_load H := apply app_inv_head in H; subst; apply loaded_none; simpl; intuition discriminate.

(* The stores of manifests, as far as run r is concerned, with jobs that all have its view. *)
Lemma mstores st ev r v : q_manifests st r = Some v -> q_disk st r = None \/ q_disk st r = Some v ->
  (forall x, In x (q_jobs st) -> j_run x = r -> pl_view (j_plan x) = v) ->
  (q_manifests (qstep st ev) r = Some v /\ (q_disk (qstep st ev) r = None \/ q_disk (qstep st ev) r = Some v)) /\
  forall os, q_log (qstep st ev) = q_log st ++ os -> loaded_right v r ev os.
Proof.
  intros H1 H2 H3.
  assert (Same : (q_manifests st r = Some v /\ (q_disk st r = None \/ q_disk st r = Some v)) /\
                 forall os, q_log st = q_log st ++ os -> loaded_right v r ev os).
  { split; auto. intros os H. rewrite <- (app_nil_r (q_log st)) in H at 1. no_load H. }
  assert (Serve : forall sev os, q_log (serve st sev) = q_log st ++ os -> loaded_right v r ev os).
  { intros sev os H. cbn [serve q_log] in H. apply app_inv_head in H. subst os. apply loaded_none. intros e a I.
    apply in_app_iff in I as [I|I]; apply in_map_iff in I as (? & ? & _); discriminate. }
  destruct ev as [ev|k ok now|j ok|j o|j ok|i o|same first]; cbn [qstep].
  - destruct ev as [c| | | | |]; [destruct c|..]; try exact Same; (split; [split; [exact H1|exact H2]|apply Serve]).
  - destruct (nth_error (s_reqs (sv_core (q_server st))) k) as [[p []| |]|]; try exact Same. split; [split; [exact H1|exact H2]|apply Serve].
  - destruct (nth_error (q_jobs st) j) as [x|] eqn:E; [|exact Same]. destruct (j_pc x); [|exact Same].
    split; [auto|]. intros os H. simpl in H. no_load H.
  - destruct (nth_error (q_jobs st) j) as [x|] eqn:E; [|exact Same]. destruct (j_pc x) as [|[] s0]; try exact Same.
    assert (V : j_run x = r -> pl_view (j_plan x) = v) by (apply H3; eapply nth_error_In; eauto).
    destruct o; (split; [|intros os H; simpl in H; no_load H]); simpl; rewrite ?fset_if;
      destruct (Nat.eqb_spec r (j_run x)); auto; rewrite V; auto.
  - destruct (nth_error (q_jobs st) j) as [x|] eqn:E; [|exact Same]. destruct (j_pc x) as [|m []]; try exact Same.
    split; [auto|]. intros os H. simpl in H. no_load H.
  - destruct (nth_error (q_loads st) i) as [[r0 e]|]; [|exact Same].
    destruct (Nat.eq_dec r0 r) as [->|N].
    + rewrite H1. destruct H2 as [H2|H2]; rewrite H2.
      * destruct o; simpl; rewrite ?fset_eq; (split; [auto|]); intros os H; apply app_inv_head in H; subst os;
          intros e0 a [I|[]]; injection I as <- <-; auto; right; split; auto; do 2 eexists; (split; [reflexivity|discriminate]).
      * simpl. split; [auto|]. intros os H; apply app_inv_head in H; subst os. intros e0 a [I|[]]; injection I as <- <-; auto.
    + assert (X : forall disk a (os : list (qobs T M L)), disk r = q_disk st r -> 
        ((q_manifests st r = Some v /\ (disk r = None \/ disk r = Some v)) /\
         forall os, q_log st ++ [QManifest r0 e a] = q_log st ++ os -> loaded_right v r (QLoad i o) os)).
      { intros disk a _ Hd. rewrite Hd. split; auto. intros os H. apply app_inv_head in H. subst os. apply loaded_none.
        intros e0 a0 [I|[]]. injection I as -> _ _. congruence. }
      destruct (q_disk st r0); [apply (X _ _ [] eq_refl)|].
      destruct (q_manifests st r0), o; try (apply (X _ _ [] eq_refl)); apply (X _ _ []); cbn [q_disk]; unfold fset;
        destruct (Nat.eqb_spec r r0); congruence.
  - split; [|intros os H; simpl in H; no_load H]. simpl. destruct same; auto.
Qed.

Lemma mknown_qstep st ev s b v r : sound st -> known st r s b -> mknown st r v ->
  mknown (qstep st ev) r v /\ forall os, q_log (qstep st ev) = q_log st ++ os -> loaded_right v r ev os.
Proof.
  intros S K (H1 & H2 & H3). destruct (mstores st ev r v H1 H2 H3) as [[A1 A2] A3].
  split; [|exact A3]. split; [exact A1|]. split; [exact A2|].
  (* no job of the run comes up *)
  assert (Serve : forall sev, known (serve st sev) r s b /\ (forall os, q_log (serve st sev) = q_log st ++ os -> seen_ended s b r os) ->
    forall x, In x (q_jobs (serve st sev)) -> j_run x = r -> pl_view (j_plan x) = v).
  { intros sev [_ A] x Hx Hr. cbn [serve q_jobs] in Hx. apply in_app_iff in Hx as [Hx|Hx]; [auto|]. exfalso.
    apply in_jobs_of in Hx as (k & e & ts & eow & H).
    destruct (A _ eq_refl (OWork k (j_run x) e ts eow (Some (j_plan x)))) as [A' _].
    - apply in_app_iff. left. now apply in_map.
    - unfold about. simpl. rewrite Hr. apply Nat.eqb_refl.
    - simpl in A'. destruct A'; discriminate. }
  assert (KS := known_qstep st ev s b r S K).
  destruct ev as [ev|k ok now|j ok|j o|j ok|i o|same first]; cbn [qstep] in *.
  - destruct ev as [c| | | | |]; [destruct c|..]; try exact H3; apply Serve; exact KS.
  - destruct (nth_error (s_reqs (sv_core (q_server st))) k) as [[p []| |]|]; try exact H3. apply Serve; exact KS.
  - destruct (nth_error (q_jobs st) j) as [x|] eqn:E; [|exact H3]. destruct (j_pc x); [|exact H3].
    intros y Hy Hr. destruct (in_set_job _ _ _ _ _ E Hy) as (z & Hz & E1 & <-). apply H3; congruence.
  - destruct (nth_error (q_jobs st) j) as [x|] eqn:E; [|exact H3]. destruct (j_pc x) as [|[] s0]; try exact H3.
    destruct o; intros y Hy Hr; destruct (in_set_job _ _ _ _ _ E Hy) as (z & Hz & E1 & <-); apply H3; congruence.
  - destruct (nth_error (q_jobs st) j) as [x|] eqn:E; [|exact H3]. destruct (j_pc x) as [|m []]; try exact H3.
    intros y Hy Hr. destruct (in_set_job _ _ _ _ _ E Hy) as (z & Hz & E1 & <-). apply H3; congruence.
  - destruct (nth_error (q_loads st) i) as [[r0 e]|]; [|exact H3]. destruct (q_disk st r0); [exact H3|].
    destruct (q_manifests st r0), o; exact H3.
  - simpl. tauto.
Qed.

Lemma manifest_kept_step st ev r p os : q_log (qstep st ev) = q_log st ++ os -> In (QManifestKept r p true) os ->
  exists j x m, ev = QDump j DOk /\ nth_error (q_jobs st) j = Some x /\ j_pc x = JTasks true m /\ j_run x = r /\ j_plan x = p.
Proof.
  intros H I.
  assert (N : forall l, q_log st ++ l = q_log st ++ os -> ~ In (QManifestKept r p true) l -> False).
  { intros l E Hn. apply app_inv_head in E. subst. auto. }
  assert (N0 : q_log st = q_log st ++ os -> False) by (intros E; apply (N []); [now rewrite app_nil_r|simpl; tauto]).
  assert (NS : forall (a : list (obs T M)) (c : list (sobs L)), ~ In (QManifestKept r p true) (map QRun a ++ map QRes c)).
  { intros a c Hi. apply in_app_iff in Hi as [Hi|Hi]; apply in_map_iff in Hi as (? & ? & _); discriminate. }
  destruct ev as [ev|k ok now|j ok|j o|j ok|i o|same first]; cbn [qstep] in H.
  - exfalso. destruct ev as [c| | | | |]; [destruct c|..]; try (eapply N0; exact H); (eapply N; [exact H|apply NS]).
  - exfalso. destruct (nth_error (s_reqs (sv_core (q_server st))) k) as [[q []| |]|]; try (eapply N0; exact H). eapply N; [exact H|apply NS].
  - exfalso. destruct (nth_error (q_jobs st) j) as [x|]; [|eapply N0; exact H]. destruct (j_pc x); [|eapply N0; exact H].
    eapply N; [exact H|simpl; tauto].
  - destruct (nth_error (q_jobs st) j) as [x|] eqn:E; [|exfalso; eapply N0; exact H]. destruct (j_pc x) as [|[] s] eqn:Ep; try (exfalso; eapply N0; exact H).
    destruct o; simpl in H; apply app_inv_head in H; subst os; destruct I as [I|[]]; try discriminate. injection I as <- <-. eauto 10.
  - exfalso. destruct (nth_error (q_jobs st) j) as [x|]; [|eapply N0; exact H]. destruct (j_pc x) as [|m []]; try (eapply N0; exact H).
    eapply N; [exact H|simpl; intuition discriminate].
  - exfalso. destruct (nth_error (q_loads st) i) as [[r0 e]|]; [|eapply N0; exact H].
    destruct (q_disk st r0); [|destruct (q_manifests st r0), o]; (eapply N; [exact H|simpl; intuition discriminate]).
  - exfalso. eapply N; [exact H|simpl; intuition discriminate].
Qed.

Lemma started_step st ev os : q_log (qstep st ev) = q_log st ++ os -> In QStarted os -> os = [QStarted] /\ exists b f, ev = QRestart b f.
Proof.
  intros H I.
  assert (N : forall l, q_log st ++ l = q_log st ++ os -> ~ In QStarted l -> False).
  { intros l E Hn. apply app_inv_head in E. subst. auto. }
  assert (N0 : q_log st = q_log st ++ os -> False) by (intros E; apply (N []); [now rewrite app_nil_r|simpl; tauto]).
  assert (NS : forall (a : list (obs T M)) (c : list (sobs L)), ~ In QStarted (map QRun a ++ map QRes c)).
  { intros a c Hi. apply in_app_iff in Hi as [Hi|Hi]; apply in_map_iff in Hi as (? & ? & _); discriminate. }
  destruct ev as [ev|k ok now|j ok|j o|j ok|i o|same first]; cbn [qstep] in H.
  - exfalso. destruct ev as [c| | | | |]; [destruct c|..]; try (eapply N0; exact H); (eapply N; [exact H|apply NS]).
  - exfalso. destruct (nth_error (s_reqs (sv_core (q_server st))) k) as [[q []| |]|]; try (eapply N0; exact H). eapply N; [exact H|apply NS].
  - exfalso. destruct (nth_error (q_jobs st) j) as [x|]; [|eapply N0; exact H]. destruct (j_pc x); [|eapply N0; exact H].
    eapply N; [exact H|simpl; tauto].
  - exfalso. destruct (nth_error (q_jobs st) j) as [x|] eqn:E; [|eapply N0; exact H]. destruct (j_pc x) as [|[] s] eqn:Ep; try (eapply N0; exact H).
    destruct o; (eapply N; [exact H|simpl; intuition discriminate]).
  - exfalso. destruct (nth_error (q_jobs st) j) as [x|]; [|eapply N0; exact H]. destruct (j_pc x) as [|m []]; try (eapply N0; exact H).
    eapply N; [exact H|simpl; intuition discriminate].
  - exfalso. destruct (nth_error (q_loads st) i) as [[r0 e]|]; [|eapply N0; exact H].
    destruct (q_disk st r0); [|destruct (q_manifests st r0), o]; (eapply N; [exact H|simpl; intuition discriminate]).
  - simpl in H. apply app_inv_head in H. subst. split; eauto.
Qed.

(* The history of a run in the process goes on while the process does. *)
Lemma hist_keeps st ev r o : (forall b f, ev <> QRestart b f) -> In o (history (sv_core (q_server st)) r) ->
  In o (history (sv_core (q_server (qstep st ev))) r).
Proof.
  intros N H.
  assert (Sv : forall sev, In o (history (sv_core (sstep (q_server st) sev)) r)).
  { intros sev. destruct (hist_grows (q_server st) sev r) as [os ->]. apply in_app_iff; auto. }
  destruct ev as [ev|k ok now|j ok|j x|j ok|i x|same first]; cbn [qstep].
  - destruct ev as [c| | | | |]; [destruct c|..]; try exact H; apply Sv.
  - destruct (nth_error (s_reqs (sv_core (q_server st))) k) as [[q []| |]|]; try exact H. apply Sv.
  - destruct (nth_error (q_jobs st) j) as [y|]; [|exact H]. destruct (j_pc y); exact H.
  - destruct (nth_error (q_jobs st) j) as [y|] eqn:E; [|exact H]. destruct (j_pc y) as [|[] s]; try exact H. destruct x; try exact H. apply Sv.
  - destruct (nth_error (q_jobs st) j) as [y|]; [|exact H]. destruct (j_pc y) as [|m []]; exact H.
  - destruct (nth_error (q_loads st) i) as [[r0 e]|]; [|exact H].
    destruct (q_disk st r0); [|destruct (q_manifests st r0), x]; exact H.
  - exfalso. eapply N; reflexivity.
Qed.

(* A run that is over in the process stays as it was. *)
Lemma known_live st ev s b r : sound st -> get r (s_runs (sv_core (q_server st))) <> None -> (forall b f, ev <> QRestart b f) ->
  known_as s b (get r (s_runs (sv_core (q_server st)))) ->
  get r (s_runs (sv_core (q_server (qstep st ev)))) <> None /\ known_as s b (get r (s_runs (sv_core (q_server (qstep st ev))))).
Proof.
  intros S G N K.
  assert (Sv : forall sev, get r (s_runs (sv_core (sstep (q_server st) sev))) <> None /\
                           known_as s b (get r (s_runs (sv_core (sstep (q_server st) sev))))).
  { intros sev. split.
    - destruct (core_of (q_server st) sev) as [->|(c & -> & _)]; auto. now apply get_stays.
    - apply known_core; auto; [apply (so_core _ S)|]. intros G'. contradiction. }
  destruct ev as [ev|k ok now|j ok|j x|j ok|i x|same first]; cbn [qstep].
  - destruct ev as [c| | | | |]; [destruct c|..]; try (split; assumption); apply Sv.
  - destruct (nth_error (s_reqs (sv_core (q_server st))) k) as [[q []| |]|]; try (split; assumption). apply Sv.
  - destruct (nth_error (q_jobs st) j) as [y|]; [|split; assumption]. destruct (j_pc y); split; assumption.
  - destruct (nth_error (q_jobs st) j) as [y|] eqn:E; [|split; assumption]. destruct (j_pc y) as [|[] s0]; try (split; assumption).
    destruct x; try (split; assumption). apply (Sv (SCore (EPersisted (j_run y)))).
  - destruct (nth_error (q_jobs st) j) as [y|]; [|split; assumption]. destruct (j_pc y) as [|m []]; split; assumption.
  - destruct (nth_error (q_loads st) i) as [[r0 e]|]; [|split; assumption].
    destruct (q_disk st r0); [|destruct (q_manifests st r0), x]; split; assumption.
  - exfalso. eapply N; reflexivity.
Qed.

(* In the process that stored the manifest of a run. *)
Definition live st r (p : plan T M) : Prop :=
  (exists k e ts eow, In (OWork k r e ts eow (Some p)) (history (sv_core (q_server st)) r)) /\
  get r (s_runs (sv_core (q_server st))) <> None /\
  known_as (pl_state p) true (get r (s_runs (sv_core (q_server st)))) /\
  q_manifests st r = Some (pl_view p) /\ (q_disk st r = None \/ q_disk st r = Some (pl_view p)).

Lemma live_jobs st r p x : sound st -> live st r p -> In x (q_jobs st) -> j_run x = r -> pl_view (j_plan x) = pl_view p.
Proof.
  intros S ((k & e & ts & eow & H) & _) Hx Hr. destruct (so_jobs _ S x Hx) as (k' & e' & ts' & eow' & H'). rewrite Hr in H'.
  f_equal. symmetry. eapply plan_one; [apply (so_core _ S)|exact H|exact H'].
Qed.

Lemma live_step st ev r p : sound st -> live st r p -> (forall b f, ev <> QRestart b f) -> live (qstep st ev) r p.
Proof.
  intros S HL N. assert (J := fun x => live_jobs st r p x S HL).
  destruct HL as ((k & e & ts & eow & H) & G & K & HM & HD).
  destruct (mstores st ev r (pl_view p) HM HD J) as [[A1 A2] _].
  destruct (known_live st ev (pl_state p) true r S G N K) as [B1 B2].
  split; [|auto]. exists k, e, ts, eow. now apply hist_keeps.
Qed.

Lemma live_starts st j x s0 : sound st -> nth_error (q_jobs st) j = Some x -> j_pc x = JTasks true s0 ->
  live (qstep st (QDump j DOk)) (j_run x) (j_plan x).
Proof.
  intros S E Ep. assert (Hx : In x (q_jobs st)) by (eapply nth_error_In; eauto).
  destruct (so_jobs _ S x Hx) as (k & e & ts & eow & H).
  destruct (plan_inv _ _ (so_core _ S) _ _ _ _ _ H) as (ec & m & seen & mp & hh & c & js & G & _ & H1 & H2 & H3).
  destruct (plan_seen _ _ (so_core _ S) _ _ _ _ _ H) as (ec' & m' & seen' & b & hh' & old & G' & HS).
  rewrite G in G'. injection G' as -> -> -> -> -> <-.
  split; [|split; [|split; [|split]]].
  - exists k, e, ts, eow. apply hist_keeps; [discriminate|exact H].
  - cbn [qstep]. rewrite E, Ep. simpl. rewrite G. simpl. rewrite get_put, Nat.eqb_refl. discriminate.
  - cbn [qstep]. rewrite E, Ep. simpl. rewrite G. simpl. rewrite get_put, Nat.eqb_refl. repeat split; auto.
  - cbn [qstep]. rewrite E, Ep. simpl. apply fset_eq.
  - cbn [qstep]. rewrite E, Ep. simpl. right. apply fset_eq.
Qed.

Lemma manifest_kept_live st l1 l2 r p : qreachable st -> q_log st = l1 ++ l2 -> one_life l2 ->
  In (QManifestKept r p true) l2 -> live st r p.
Proof.
  intros [es ->]. revert l2. induction es as [|ev es IH] using rev_ind; intros l2 H O I.
  - exfalso. assert (X : In (QManifestKept r p true) (q_log (run qstep (@qinit T M L) []))) by (rewrite H; apply in_app_iff; auto).
    simpl in X. intuition discriminate.
  - rewrite run_snoc in *. set (st := run qstep qinit es) in *.
    assert (S : sound st) by (apply sound_run, sound_init).
    destruct (qlog_step st ev) as [os E]. rewrite E in H.
    destruct (app_eq_app _ _ _ _ H) as (l & [[H1 H2]|[H1 H2]]).
    + (* l2 = l ++ os *)
      assert (NS : forall b f, ev <> QRestart b f).
      { intros b f ->. simpl in E. apply app_inv_head in E. apply O. rewrite H2, <- E. apply in_app_iff. simpl; auto. }
      rewrite H2 in I. apply in_app_iff in I as [I|I].
      * apply live_step; auto. apply (IH l); auto. intros X. apply O. rewrite H2. apply in_app_iff; auto.
      * destruct (manifest_kept_step _ _ _ _ _ E I) as (j & x & m & -> & Hj & Hp & <- & <-). eapply live_starts; eauto.
    + (* l2 is a part of os *)
      assert (I' : In (QManifestKept r p true) os) by (rewrite H2; apply in_app_iff; auto).
      destruct (manifest_kept_step _ _ _ _ _ E I') as (j & x & m & -> & Hj & Hp & <- & <-). eapply live_starts; eauto.
Qed.

Lemma kept_mknown st r p : qreachable st -> kept st r p -> known st r (pl_state p) true /\ mknown st r (pl_view p).
Proof.
  intros [es ->]. induction es as [|ev es IH] using rev_ind; intros (l1 & l2 & l3 & H & O & I1 & I2).
  - exfalso. assert (X : In (QManifestKept r p true) (q_log (run qstep (@qinit T M L) []))) by (rewrite H; rewrite !in_app_iff; auto).
    simpl in X. intuition discriminate.
  - assert (HR : qreachable (run qstep (@qinit T M L) (es ++ [ev]))) by (eexists; reflexivity).
    assert (SK : known (run qstep (@qinit T M L) (es ++ [ev])) r (pl_state p) false).
    { apply state_kept_known; auto. unfold state_kept. rewrite H, !in_app_iff. auto. }
    assert (S' := qreach_sound _ HR).
    assert (Live : live (run qstep (@qinit T M L) (es ++ [ev])) r p ->
       known (run qstep qinit (es ++ [ev])) r (pl_state p) true /\ mknown (run qstep qinit (es ++ [ev])) r (pl_view p)).
    { intros HL. split.
      - destruct SK as (K1 & K2 & K3). split; [exact K1|]. split; [apply HL|exact K3].
      - split; [apply HL|]. split; [apply HL|]. intros x. now apply live_jobs. }
    rewrite run_snoc in *. set (st := run qstep qinit es) in *.
    assert (S : sound st) by (apply sound_run, sound_init).
    destruct (qlog_step st ev) as [os E]. rewrite E, app_assoc in H.
    destruct (app_eq_app _ _ _ _ H) as (l & [[H1 H2]|[H1 H2]]).
    + (* it was so before *)
      destruct IH as [K MK]. { exists l1, l2, l. rewrite app_assoc. auto. }
      split; [now apply known_qstep|]. eapply mknown_qstep; eauto.
    + (* it is so since this step *)
      destruct l as [|o l].
      * (* nothing of it is new *)
        destruct IH as [K MK]. { exists l1, l2, []. rewrite !app_nil_r in *. auto. }
        split; [now apply known_qstep|]. eapply mknown_qstep; eauto.
      * apply Live. symmetry in H1. destruct (app_eq_app _ _ _ _ H1) as (l' & [[H3 H4]|[H3 H4]]).
        -- (* all since the last start of a process *)
           apply (manifest_kept_live _ l1 (l' ++ os)); auto.
           ++ now rewrite E, H3, app_assoc.
           ++ intros X. apply O. rewrite H4. apply in_app_iff in X as [X|X]; apply in_app_iff; [auto|right].
              destruct (started_step _ _ _ E X) as [-> _]. injection H2 as <- _. left. reflexivity.
           ++ rewrite H4 in I2. rewrite H2, app_assoc. apply in_app_iff. auto.
        -- assert (I' : In (QManifestKept r p true) os) by (rewrite H2, H4, !in_app_iff; auto).
           destruct (manifest_kept_step _ _ _ _ _ E I') as (j & x & m & -> & Hj & Hp & <- & <-). eapply live_starts; eauto.
Qed.

Lemma mknown_run es : forall st r s b v, sound st -> known st r s b -> mknown st r v ->
  forall os, q_log (run qstep st es) = q_log st ++ os -> forall e a, In (QManifest r e a) os ->
    a = part v (en_tag e) \/ (a = LFailed /\ exists i o, In (QLoad i o) es /\ o <> FOk).
Proof.
  induction es as [|ev es IH]; intros st r s b v S K MK os H e a I.
  - simpl in H. rewrite <- (app_nil_r (q_log st)) in H at 1. apply app_inv_head in H. subst. destruct I.
  - destruct (mknown_qstep st ev s b v r S K MK) as [MK' A].
    destruct (qlog_step st ev) as [o1 E1]. destruct (qlog_run (qstep st ev) es) as [o2 E2].
    change (run qstep st (ev :: es)) with (run qstep (qstep st ev) es) in H. rewrite E2, E1, <- app_assoc in H.
    apply app_inv_head in H. subst os. apply in_app_iff in I as [I|I].
    + destruct (A _ E1 _ _ I) as [->|(-> & i & o & -> & N)]; [auto|]. right. split; auto. exists i, o. simpl; auto.
    + destruct (known_qstep st ev s b r S K) as [K' _].
      destruct (IH _ _ _ _ _ (sound_step _ _ S) K' MK' _ E2 _ _ I) as [->|(-> & i & o & Hi & N)]; [auto|].
      right. split; auto. exists i, o. simpl; auto.
Qed.

(* ---- only a store that cannot be consulted is fatal ---- *)
Lemma fatal_serve st sev os q : q_log (serve st sev) = q_log st ++ os -> In (QRun (OAssigned q FatalError)) os ->
  exists k now, sev = SCore (EFindRemote k RemoteError now).
Proof.
  intros H I. cbn [serve q_log] in H. apply app_inv_head in H. subst os. apply in_app_iff in I as [I|I].
  - apply in_map_iff in I as (o & E & I). injection E as ->.
    destruct (core_logs (q_server st) sev) as [os E]. rewrite E, fresh_app in I.
    destruct (core_of (q_server st) sev) as [E'|(c & E' & Hc)].
    + rewrite E' in E. rewrite <- (app_nil_r (s_log _)) in E at 1. apply app_inv_head in E. subst. destruct I.
    + rewrite E' in E. destruct (fatal_only _ _ _ _ E I) as (k & now & ->).
      destruct Hc as [->|(? & ? & ? & ? & _ & X)]; [eauto|discriminate].
  - apply in_map_iff in I as (? & ? & _). discriminate.
Qed.

Lemma fatal_step st ev os q : q_log (qstep st ev) = q_log st ++ os -> In (QRun (OAssigned q FatalError)) os ->
  exists k now, ev = QConsult k false now.
Proof.
  intros H I.
  assert (N : forall l, q_log st ++ l = q_log st ++ os -> ~ In (QRun (OAssigned q FatalError)) l -> False).
  { intros l E Hn. apply app_inv_head in E. subst. auto. }
  assert (N0 : q_log st = q_log st ++ os -> False) by (intros E; apply (N []); [now rewrite app_nil_r|simpl; tauto]).
  destruct ev as [ev|k ok now|j ok|j o|j ok|i o|same first]; cbn [qstep] in H.
  - exfalso. destruct ev as [c| | | | |]; [destruct c|..]; try (eapply N0; exact H);
      destruct (fatal_serve _ _ _ _ H I) as (? & ? & ?); discriminate.
  - destruct (nth_error (s_reqs (sv_core (q_server st))) k) as [[p []| |]|]; try (exfalso; eapply N0; exact H).
    destruct (fatal_serve _ _ _ _ H I) as (k' & now' & E). destruct ok; [|eauto].
    unfold consult in E. destruct (q_states st (fp_run p)); discriminate.
  - exfalso. destruct (nth_error (q_jobs st) j) as [x|]; [|eapply N0; exact H]. destruct (j_pc x); [|eapply N0; exact H].
    eapply N; [exact H|simpl; tauto].
  - exfalso. destruct (nth_error (q_jobs st) j) as [x|] eqn:E; [|eapply N0; exact H]. destruct (j_pc x) as [|[] s] eqn:Ep; try (eapply N0; exact H).
    destruct o; (eapply N; [exact H|simpl; intuition discriminate]).
  - exfalso. destruct (nth_error (q_jobs st) j) as [x|]; [|eapply N0; exact H]. destruct (j_pc x) as [|m []]; try (eapply N0; exact H).
    eapply N; [exact H|simpl; intuition discriminate].
  - exfalso. destruct (nth_error (q_loads st) i) as [[r0 e]|]; [|eapply N0; exact H].
    destruct (q_disk st r0); [|destruct (q_manifests st r0), o]; (eapply N; [exact H|simpl; intuition discriminate]).
  - exfalso. eapply N; [exact H|simpl; intuition discriminate].
Qed.

Lemma fatal_run es : forall st os q, q_log (run qstep st es) = q_log st ++ os -> In (QRun (OAssigned q FatalError)) os ->
  exists k now, In (@QConsult T M L k false now) es.
Proof.
  induction es as [|ev es IH]; intros st os q H I.
  - simpl in H. rewrite <- (app_nil_r (q_log st)) in H at 1. apply app_inv_head in H. subst. destruct I.
  - destruct (qlog_step st ev) as [o1 E1]. destruct (qlog_run (qstep st ev) es) as [o2 E2].
    change (run qstep st (ev :: es)) with (run qstep (qstep st ev) es) in H. rewrite E2, E1, <- app_assoc in H.
    apply app_inv_head in H. subst os. apply in_app_iff in I as [I|I].
    + destruct (fatal_step _ _ _ _ E1 I) as (k & now & ->). exists k, now. simpl; auto.
    + destruct (IH _ _ _ E2 I) as (k & now & Hk). exists k, now. simpl; auto.
Qed.

Lemma kept_by_job st ev r p ok os : q_log (qstep st ev) = q_log st ++ os ->
  In (QStateKept r p ok) os \/ In (QManifestKept r p ok) os ->
  exists j x, nth_error (q_jobs st) j = Some x /\ j_run x = r /\ j_plan x = p.
Proof.
  intros H I.
  assert (N : forall l, q_log st ++ l = q_log st ++ os -> ~ (In (QStateKept r p ok) l \/ In (QManifestKept r p ok) l) -> False).
  { intros l E Hn. apply app_inv_head in E. subst. auto. }
  assert (N0 : q_log st = q_log st ++ os -> False) by (intros E; apply (N []); [now rewrite app_nil_r|simpl; tauto]).
  assert (NS : forall (a : list (obs T M)) (c : list (sobs L)), ~ (In (QStateKept r p ok) (map QRun a ++ map QRes c) \/
     In (QManifestKept r p ok) (map QRun a ++ map QRes c))).
  { intros a c [Hi|Hi]; apply in_app_iff in Hi as [Hi|Hi]; apply in_map_iff in Hi as (? & ? & _); discriminate. }
  destruct ev as [ev|k ok0 now|j ok0|j o|j ok0|i o|same first]; cbn [qstep] in H.
  - exfalso. destruct ev as [c| | | | |]; [destruct c|..]; try (eapply N0; exact H); (eapply N; [exact H|apply NS]).
  - exfalso. destruct (nth_error (s_reqs (sv_core (q_server st))) k) as [[q []| |]|]; try (eapply N0; exact H). eapply N; [exact H|apply NS].
  - exfalso. destruct (nth_error (q_jobs st) j) as [x|]; [|eapply N0; exact H]. destruct (j_pc x); [|eapply N0; exact H].
    eapply N; [exact H|simpl; tauto].
  - destruct (nth_error (q_jobs st) j) as [x|] eqn:E; [|exfalso; eapply N0; exact H]. destruct (j_pc x) as [|[] s]; try (exfalso; eapply N0; exact H).
    destruct o; simpl in H; apply app_inv_head in H; subst os; destruct I as [[I|[]]|[I|[]]]; try discriminate; injection I as <- <-; eauto.
  - destruct (nth_error (q_jobs st) j) as [x|] eqn:E; [|exfalso; eapply N0; exact H]. destruct (j_pc x) as [|m []]; try (exfalso; eapply N0; exact H).
    simpl in H; apply app_inv_head in H; subst os; destruct I as [[I|[]]|[I|[]]]; try discriminate; injection I as <- <-; eauto.
  - exfalso. destruct (nth_error (q_loads st) i) as [[r0 e]|]; [|eapply N0; exact H].
    destruct (q_disk st r0); [|destruct (q_manifests st r0), o]; (eapply N; [exact H|simpl; intuition discriminate]).
  - exfalso. eapply N; [exact H|simpl; intuition discriminate].
Qed.

(* ---- the log of the current process ---- *)
Definition current st : Prop := exists l1 l2, q_log st = l1 ++ QStarted :: l2 /\ one_life l2 /\ s_log (sv_core (q_server st)) = runs_seen l2.

Lemma runs_seen_app (a b : list (qobs T M L)) : runs_seen (a ++ b) = runs_seen a ++ runs_seen b.
Proof. unfold runs_seen. apply flat_map_app. Qed.
Lemma runs_seen_run (a : list (obs T M)) : runs_seen (map (@QRun T M L) a) = a.
Proof. induction a; simpl; congruence. Qed.
Lemma runs_seen_res (a : list (sobs L)) : runs_seen (map (@QRes T M L) a) = [].
Proof. induction a; simpl; auto. Qed.

Lemma current_step st ev : current st -> current (qstep st ev).
Proof.
  intros (l1 & l2 & H & O & E).
  assert (Same : forall srv jobs loads disk ms ss os, sv_core srv = sv_core (q_server st) \/
     s_log (sv_core srv) = s_log (sv_core (q_server st)) -> one_life os -> runs_seen os = [] ->
     current {| q_server := srv; q_jobs := jobs; q_loads := loads; q_disk := disk; q_manifests := ms; q_states := ss;
                q_log := q_log st ++ os |}).
  { intros srv jobs loads disk ms ss os Hs Ho Hr. exists l1, (l2 ++ os). cbn [q_log q_server].
    split; [now rewrite H, <- app_assoc|]. split; [intros X; apply in_app_iff in X as [X|X]; [now apply O|now apply Ho]|].
    rewrite runs_seen_app, Hr, app_nil_r, <- E. now destruct Hs as [->| ->]. }
  assert (Id : current st) by (exists l1, l2; auto).
  assert (Sv : forall sev, current (serve st sev)).
  { intros sev. exists l1, (l2 ++ map QRun (fresh_log (s_log (sv_core (q_server st))) (s_log (sv_core (sstep (q_server st) sev)))) ++
        map QRes (fresh_log (sv_log (q_server st)) (sv_log (sstep (q_server st) sev)))). cbn [serve q_log q_server].
    split; [now rewrite H, <- app_assoc|]. split.
    - intros X. apply in_app_iff in X as [X|X]; [now apply O|].
      apply in_app_iff in X as [X|X]; apply in_map_iff in X as (? & ? & _); discriminate.
    - rewrite !runs_seen_app, runs_seen_run, runs_seen_res, app_nil_r, <- E.
      destruct (core_logs (q_server st) sev) as [os ->]. now rewrite fresh_app. }
  destruct ev as [ev|k ok now|j ok|j o|j ok|i o|same first]; cbn [qstep].
  - destruct ev as [c| | | | |]; [destruct c|..]; try exact Id; apply Sv.
  - destruct (nth_error (s_reqs (sv_core (q_server st))) k) as [[p []| |]|]; try exact Id. apply Sv.
  - destruct (nth_error (q_jobs st) j) as [x|]; [|exact Id]. destruct (j_pc x); [|exact Id].
    apply Same; auto. intros [].
  - destruct (nth_error (q_jobs st) j) as [x|] eqn:Ej; [|exact Id]. destruct (j_pc x) as [|[] s] eqn:Ep; try exact Id.
    destruct o; (apply Same; [|intros [X|[]]; discriminate|reflexivity]); auto.
    right. simpl. destruct (get (j_run x) (s_runs (sv_core (q_server st)))) as [[]|]; simpl; rewrite ?app_nil_r; try reflexivity.
    match goal with |- context [match ?x with _ => _ end] => destruct x end; simpl; rewrite ?app_nil_r; reflexivity.
  - destruct (nth_error (q_jobs st) j) as [x|]; [|exact Id]. destruct (j_pc x) as [|m []]; try exact Id.
    apply Same; auto. intros [X|[]]; discriminate.
  - destruct (nth_error (q_loads st) i) as [[r0 e]|]; [|exact Id].
    destruct (q_disk st r0); [|destruct (q_manifests st r0), o]; (apply Same; auto; intros [X|[]]; discriminate).
  - exists (q_log st), []. simpl. split; [reflexivity|]. split; [intros []|reflexivity].
Qed.

Lemma current_run st : qreachable st -> current st.
Proof.
  intros [es ->]. induction es as [|ev es IH] using rev_ind.
  - exists [], []. simpl. split; [reflexivity|]. split; [intros []|reflexivity].
  - rewrite run_snoc. now apply current_step.
Qed.

Lemma last_one {A} (a : A) l1 l2 l1' l2' : l1 ++ a :: l2 = l1' ++ a :: l2' -> ~ In a l2 -> ~ In a l2' -> l2 = l2'.
Proof.
  intros H N N'. destruct (app_eq_app _ _ _ _ H) as ([|b l] & [[H1 H2]|[H1 H2]]); simpl in *; try congruence.
  - injection H2 as -> ->. exfalso. apply N'. apply in_app_iff; simpl; auto.
  - injection H2 as -> ->. exfalso. apply N. apply in_app_iff; simpl; auto.
Qed.

Lemma current_log st l1 life : qreachable st -> q_log st = l1 ++ QStarted :: life -> one_life life ->
  s_log (sv_core (q_server st)) = runs_seen life.
Proof.
  intros HR H O. destruct (current_run st HR) as (l1' & l2 & H' & O' & ->). rewrite H in H'.
  f_equal. symmetry. eapply last_one; eauto.
Qed.

Lemma in_runs_seen (o : obs T M) (l : list (qobs T M L)) : In o (runs_seen l) <-> In (QRun o) l.
Proof.
  unfold runs_seen. rewrite in_flat_map. split.
  - intros (x & Hx & Ho). destruct x; simpl in Ho; try tauto. destruct Ho as [->|[]]. exact Hx.
  - intros H. exists (QRun o). simpl; auto.
Qed.

Lemma placed_took_part st l1 h1 k r e ts eow p h2 q kd d : qreachable st ->
  q_log st = l1 ++ QStarted :: h1 ++ QRun (OWork k r e ts eow (Some p)) :: h2 -> one_life (h1 ++ h2) ->
  In (QRun (OAssigned q (AssignedRun kd d))) h1 -> fp_run q = r -> took_part p (en_tag (fp_entity q)).
Proof.
  intros HR H O I Hr.
  assert (E := current_log st l1 _ HR H). rewrite runs_seen_app in E.
  change (runs_seen (QRun (OWork k r e ts eow (Some p)) :: h2)) with (OWork k r e ts eow (Some p) :: runs_seen h2) in E.
  eapply (plan_placed r _ (filter (about r) (runs_seen h1)) k e ts eow p (filter (about r) (runs_seen h2))).
  - apply (so_core _ (qreach_sound _ HR)).
  - unfold history. rewrite E.
    + rewrite filter_app. simpl. unfold about at 2. simpl. now rewrite Nat.eqb_refl.
    + intros X. apply O. apply in_app_iff. apply in_app_iff in X as [X|[X|X]]; auto. discriminate.
  - exists q, kd, d. split; [|reflexivity]. apply filter_In. split; [now apply in_runs_seen|].
    unfold about. simpl. rewrite Hr. apply Nat.eqb_refl.
Qed.

(* What is stored is what the answer with the plan said. *)
Lemma kept_has_plan st l1 life r p : qreachable st -> q_log st = l1 ++ QStarted :: life -> one_life life ->
  (exists ok, In (QStateKept r p ok) life \/ In (QManifestKept r p ok) life) ->
  exists k e ts eow, In (QRun (OWork k r e ts eow (Some p))) life.
Proof.
  intros [es ->]. revert life. induction es as [|ev es IH] using rev_ind; intros life H O (ok & I).
  - exfalso. simpl in H. destruct l1 as [|a [|]]; try discriminate. injection H as <-. simpl in I. tauto.
  - rewrite run_snoc in H. set (st := run qstep qinit es) in *.
    assert (HR : qreachable st) by (exists es; reflexivity). assert (S := qreach_sound _ HR).
    destruct (qlog_step st ev) as [os E].
    rewrite E in H. destruct (app_eq_app _ _ _ _ H) as (l & [[H1 H2]|[H1 H2]]).
    + destruct l as [|a l].
      * (* a new process *)
        simpl in H2. assert (X : In QStarted os) by (rewrite <- H2; simpl; auto).
        destruct (started_step _ _ _ E X) as [-> _]. injection H2 as ->. simpl in I. tauto.
      * simpl in H2. injection H2 as <- ->.
        assert (O' : one_life l) by (intros X; apply O, in_app_iff; auto).
        assert (Old : (exists ok, In (QStateKept r p ok) l \/ In (QManifestKept r p ok) l) ->
          exists k e ts eow, In (QRun (OWork k r e ts eow (Some p))) (l ++ os)).
        { intros X. destruct (IH l H1 O' X) as (k & e & ts & eow & Y). exists k, e, ts, eow. apply in_app_iff; auto. }
        rewrite !in_app_iff in I.
        assert (New : (exists j x, nth_error (q_jobs st) j = Some x /\ j_run x = r /\ j_plan x = p) ->
          exists k e ts eow, In (QRun (OWork k r e ts eow (Some p))) (l ++ os)).
        { intros (j & x & Hj & <- & <-). destruct (so_jobs _ S x) as (k & e & ts & eow & Hh); [eapply nth_error_In; eauto|].
          apply filter_In in Hh as [Hh _]. rewrite (current_log st l1 l HR H1 O') in Hh. apply in_runs_seen in Hh.
          exists k, e, ts, eow. apply in_app_iff; auto. }
        destruct I as [[I|I]|[I|I]]; [apply Old; eauto| |apply Old; eauto|];
          apply New; eapply kept_by_job; eauto.
    + exfalso. destruct (started_step _ _ _ E) as [-> _]; [rewrite H2; apply in_app_iff; simpl; auto|].
      destruct l as [|? [|]]; try discriminate. simpl in H2. injection H2 as <-. simpl in I. tauto.
Qed.

(* ---- results ---- *)
Definition backed st r : Prop := forall ls, sv_remote (q_server st) r = Some ls -> exists more, sv_file (q_server st) r = ls ++ more.

Lemma remote_step (s : sstate T M L) ev r : sv_remote (sstep s ev) r = sv_remote s r \/ 
  sv_remote (sstep s ev) r = Some (sv_file s r) /\ sv_file (sstep s ev) r = sv_file s r.
Proof.
  destruct ev as [c|r0 flat meta x|r0 e line|k ok|r0|k ok].
  - destruct c; left; reflexivity.
  - left. cbn [sstep]. destruct (manifest_accepted (sv_core s) r0); reflexivity.
  - left. simpl. destruct (write_cell (sv_core s) r0); reflexivity.
  - simpl. destruct (nth_error (sv_writes s) k) as [w|]; [|auto]. unfold write_step.
    destruct (w_pc w), ok; simpl; auto. unfold fset. destruct (Nat.eqb_spec r (w_run w)) as [->|]; auto.
  - left. simpl. unfold fetch. destruct (read_cell (sv_core s) r0); reflexivity.
  - left. simpl. destruct (nth_error (sv_reads s) k) as [rd|]; [|reflexivity]. unfold read_step.
    destruct (rd_pc rd), ok; try destruct (Z.eqb _ _); reflexivity.
Qed.

Lemma stream_step (s : sstate T M L) ev os k r ls : sv_log (sstep s ev) = sv_log s ++ os -> In (SAnswer k r (AStream ls)) os ->
  ls = sv_file s r.
Proof.
  intros H I.
  assert (N : forall l, sv_log s ++ l = sv_log s ++ os -> ~ In (SAnswer k r (AStream ls)) l -> ls = sv_file s r).
  { intros l E Hn. apply app_inv_head in E. subst. tauto. }
  assert (N0 : sv_log s = sv_log s ++ os -> ls = sv_file s r) by (intros E; apply (N []); [now rewrite app_nil_r|simpl; tauto]).
  destruct ev as [c|r0 flat meta x|r0 e line|k0 ok|r0|k0 ok].
  - destruct c; try (apply N0; exact H); eapply N; try exact H; simpl; tauto.
  - cbn [sstep] in H. destruct (manifest_accepted (sv_core s) r0); eapply N; try exact H; simpl; intuition discriminate.
  - simpl in H. destruct (write_cell (sv_core s) r0); eapply N; try exact H; simpl; intuition discriminate.
  - simpl in H. destruct (nth_error (sv_writes s) k0) as [w|]; [|now apply N0]. unfold write_step in H.
    destruct (w_pc w), ok; try (apply N0; exact H); (eapply N; [exact H|]); try destruct (w_from w); simpl; intuition discriminate.
  - simpl in H. unfold fetch in H. destruct (read_cell (sv_core s) r0); (eapply N; [exact H|]); simpl; intuition discriminate.
  - simpl in H. destruct (nth_error (sv_reads s) k0) as [rd|]; [|now apply N0]. unfold read_step in H.
    destruct (rd_pc rd), ok; try destruct (Z.eqb _ _); try (apply N0; exact H); try (eapply N; [exact H|]; simpl; intuition discriminate).
    simpl in H. apply app_inv_head in H. subst os. destruct I as [I|[]]. injection I as _ <- <-. reflexivity.
Qed.

Definition extends (ls : list L) (o : option (list L)) : Prop := exists more, o = Some (ls ++ more).

Lemma backed_step st ev r : loads_well r ev -> backed st r ->
  backed (qstep st ev) r /\
  (forall ls, sv_remote (q_server st) r = Some ls -> extends ls (sv_remote (q_server (qstep st ev)) r) /\
   forall os k a, q_log (qstep st ev) = q_log st ++ os -> In (QRes (SAnswer k r (AStream a))) os -> exists more, a = ls ++ more).
Proof.
  intros W B.
  assert (Id : forall os, (forall k a, ~ In (QRes (SAnswer k r (AStream a))) os) ->
     forall ls, sv_remote (q_server st) r = Some ls -> extends ls (sv_remote (q_server st) r) /\
     forall os' k a, q_log st ++ os = q_log st ++ os' -> In (QRes (SAnswer k r (AStream a))) os' -> exists more, a = ls ++ more).
  { intros os N ls H. split; [exists []; now rewrite app_nil_r|]. intros os' k a E I. apply app_inv_head in E. subst. exfalso. eapply N; eauto. }
  assert (Id0 : backed st r /\ forall ls, sv_remote (q_server st) r = Some ls -> extends ls (sv_remote (q_server st) r) /\
     forall os' k a, q_log st = q_log st ++ os' -> In (QRes (SAnswer k r (AStream a))) os' -> exists more, a = ls ++ more).
  { split; auto. intros ls H. destruct (Id [] (fun _ _ X => X) ls H) as [A1 A2]. split; auto. intros os' k a E.
    apply A2. now rewrite app_nil_r. }
  assert (Bs : forall sev ls, sv_remote (sstep (q_server st) sev) r = Some ls -> exists more, sv_file (sstep (q_server st) sev) r = ls ++ more).
  { intros sev ls H. destruct (remote_step (q_server st) sev r) as [E|[E E']]; rewrite E in H.
    - destruct (B ls H) as [m Hm]. destruct (file_grows (q_server st) sev r) as [m' ->]. rewrite Hm, <- app_assoc. eauto.
    - injection H as <-. rewrite E'. exists []. now rewrite app_nil_r. }
  assert (Ex : forall sev ls, sv_remote (q_server st) r = Some ls -> extends ls (sv_remote (sstep (q_server st) sev) r)).
  { intros sev ls H. destruct (remote_step (q_server st) sev r) as [E|[E E']]; rewrite E.
    - rewrite H. exists []. now rewrite app_nil_r.
    - destruct (B ls H) as [m ->]. now exists m. }
  assert (Sv : forall sev, backed (serve st sev) r /\
    (forall ls, sv_remote (q_server st) r = Some ls -> extends ls (sv_remote (q_server (serve st sev)) r) /\
     forall os k a, q_log (serve st sev) = q_log st ++ os -> In (QRes (SAnswer k r (AStream a))) os -> exists more, a = ls ++ more)).
  { intros sev. split; [exact (Bs sev)|]. intros ls H. split; [now apply Ex|].
    intros os k a E I. cbn [serve q_log] in E. apply app_inv_head in E. subst os. apply in_app_iff in I as [I|I].
    - apply in_map_iff in I as (? & ? & _). discriminate.
    - apply in_map_iff in I as (o & Eo & I). injection Eo as ->.
      destruct (log_grows (q_server st) sev) as [os E]. rewrite E, fresh_app in I. rewrite (stream_step _ _ _ _ _ _ E I). now apply B. }
  destruct ev as [ev|k ok now|j ok|j o|j ok|i o|same first]; cbn [qstep].
  - destruct ev as [c| | | | |]; [destruct c|..]; try exact Id0; apply Sv.
  - destruct (nth_error (s_reqs (sv_core (q_server st))) k) as [[p []| |]|]; try exact Id0. apply Sv.
  - destruct (nth_error (q_jobs st) j) as [x|]; [|exact Id0]. destruct (j_pc x); [|exact Id0].
    split; [exact B|]. apply Id. simpl; tauto.
  - destruct (nth_error (q_jobs st) j) as [x|] eqn:Ej; [|exact Id0]. destruct (j_pc x) as [|[] s] eqn:Ep; try exact Id0.
    destruct o; try (split; [exact B|]; apply Id; simpl; intuition discriminate).
  - destruct (nth_error (q_jobs st) j) as [x|]; [|exact Id0]. destruct (j_pc x) as [|m []]; try exact Id0.
    split; [exact B|]. apply Id. simpl; intuition discriminate.
  - destruct (nth_error (q_loads st) i) as [[r0 e]|]; [|exact Id0].
    destruct (q_disk st r0); [|destruct (q_manifests st r0), o]; (split; [exact B|]; apply Id; simpl; intuition discriminate).
  - cbn [loads_well] in W. split.
    + intros ls H. simpl in *. unfold first_file. rewrite W, H. exists []. now rewrite app_nil_r.
    + cbn [q_server sv_remote sinit q_log]. apply Id. simpl; intuition discriminate.
Qed.

Lemma backed_run es : forall st r, Forall (loads_well r) es -> backed st r ->
  backed (run qstep st es) r /\
  forall ls, sv_remote (q_server st) r = Some ls -> extends ls (sv_remote (q_server (run qstep st es)) r) /\
  forall os k a, q_log (run qstep st es) = q_log st ++ os -> In (QRes (SAnswer k r (AStream a))) os -> exists more, a = ls ++ more.
Proof.
  induction es as [|ev es IH]; intros st r W B.
  - split; [exact B|]. intros ls H. split; [exists []; now rewrite app_nil_r|]. intros os k a E I.
    simpl in E. rewrite <- (app_nil_r (q_log st)) in E at 1. apply app_inv_head in E. subst. destruct I.
  - inversion W as [|? ? W1 W2]; subst. destruct (backed_step st ev r W1 B) as [B1 A1].
    change (run qstep st (ev :: es)) with (run qstep (qstep st ev) es).
    destruct (IH (qstep st ev) r W2 B1) as [B2 A2]. split; [exact B2|]. intros ls H.
    destruct (A1 ls H) as [[m1 E1] A1']. destruct (A2 _ E1) as [[m2 E2] A2'].
    split; [exists (m1 ++ m2); now rewrite E2, <- app_assoc|]. intros os k a E I.
    destruct (qlog_step st ev) as [o1 L1]. destruct (qlog_run (qstep st ev) es) as [o2 L2].
    rewrite L2, L1, <- app_assoc in E. apply app_inv_head in E. subst os. apply in_app_iff in I as [I|I].
    + eapply A1'; eauto.
    + destruct (A2' _ _ _ L2 I) as [m ->]. rewrite <- app_assoc. eauto.
Qed.

(* ---- a run whose state was not stored ---- *)
Lemma state_step st ev r s : q_states (qstep st ev) r = Some s -> q_states st r = Some s \/
  exists p, In (QStateKept r p true) (q_log (qstep st ev)) /\ pl_state p = s.
Proof.
  destruct ev as [ev|k ok now|j ok|j o|j ok|i o|same first]; cbn [qstep].
  - destruct ev as [c| | | | |]; [destruct c|..]; auto.
  - destruct (nth_error (s_reqs (sv_core (q_server st))) k) as [[p []| |]|]; auto.
  - destruct (nth_error (q_jobs st) j) as [x|]; [|auto]. destruct (j_pc x); auto.
  - destruct (nth_error (q_jobs st) j) as [x|] eqn:Ej; [|auto]. destruct (j_pc x) as [|[] s0] eqn:Ep; auto. destruct o; auto.
  - destruct (nth_error (q_jobs st) j) as [x|]; [|auto]. destruct (j_pc x) as [|m []]; auto.
    simpl. destruct ok; auto. unfold fset. destruct (Nat.eqb_spec r (j_run x)) as [->|]; auto.
    intros H. injection H as <-. right. exists (j_plan x). split; [apply in_app_iff; simpl; auto|reflexivity].
  - destruct (nth_error (q_loads st) i) as [[r0 e]|]; [|auto].
    destruct (q_disk st r0); [|destruct (q_manifests st r0), o]; auto.
  - auto.
Qed.

Lemma state_was_kept st r s : qreachable st -> q_states st r = Some s -> exists p, state_kept st r p /\ pl_state p = s.
Proof.
  intros [es ->]. induction es as [|ev es IH] using rev_ind; [discriminate|]. rewrite run_snoc. intros H.
  apply state_step in H as [H|H]; [|exact H]. destruct (IH H) as (p & Hp & E). exists p. split; [|exact E].
  unfold state_kept in *. destruct (qlog_step (run qstep qinit es) ev) as [os ->]. apply in_app_iff; auto.
Qed.

Lemma state_kept_in st r p : state_kept st r p -> In (QStateKept r p true) (q_log st).
Proof. exact (fun H => H). Qed.

(* ---- the loads ---- *)
Lemma remove_at_perm {A} i : forall (l : list A) x, nth_error l i = Some x -> Permutation l (x :: remove_at i l).
Proof.
  induction i as [|i IH]; intros [|a l] x H; simpl in *; try discriminate.
  - injection H as ->. reflexivity.
  - rewrite (IH l x H) at 1. apply perm_swap.
Qed.

Definition loads st : Prop := exists l1 l2, q_log st = l1 ++ QStarted :: l2 /\ one_life l2 /\
  Permutation (to_be_loaded l2) (answered l2 ++ q_loads st).

Lemma loads_runs (os : list (obs T M)) (c : list (sobs L)) : to_be_loaded (map QRun os ++ map QRes c) = loads_of os /\
  answered (map (@QRun T M L) os ++ map QRes c) = [].
Proof.
  assert (C : to_be_loaded (map (@QRes T M L) c) = [] /\ answered (map (@QRes T M L) c) = []) by (induction c; simpl; auto).
  destruct C as [C1 C2]. unfold to_be_loaded, answered in *. rewrite !flat_map_app, C1, C2, !app_nil_r.
  induction os as [|o os [I1 I2]]; simpl; [auto|]. rewrite I1, I2. auto.
Qed.

Lemma loads_step st ev : loads st -> loads (qstep st ev).
Proof.
  intros (l1 & l2 & H & O & P).
  assert (Add : forall st' os, q_log st' = q_log st ++ os -> one_life os ->
    Permutation (to_be_loaded l2 ++ to_be_loaded os) (answered l2 ++ answered os ++ q_loads st') -> loads st').
  { intros st' os E Oo PP. exists l1, (l2 ++ os). split; [now rewrite E, H, <- app_assoc|]. split.
    - intros X. apply in_app_iff in X as [X|X]; [now apply O|now apply Oo].
    - unfold to_be_loaded, answered in *. rewrite !flat_map_app, <- app_assoc. exact PP. }
  assert (Id : loads st) by (exists l1, l2; auto).
  assert (Same : forall st' os, q_log st' = q_log st ++ os -> one_life os -> to_be_loaded os = [] -> answered os = [] ->
    q_loads st' = q_loads st -> loads st').
  { intros st' os E Oo E1 E2 E3. apply (Add st' os); auto. rewrite E1, E2, E3, app_nil_r. exact P. }
  assert (Sv : forall sev, loads (serve st sev)).
  { intros sev. eapply Add; [reflexivity| |].
    - intros X. apply in_app_iff in X as [X|X]; apply in_map_iff in X as (? & ? & _); discriminate.
    - match goal with |- context [map QRun ?a ++ map QRes ?c] => destruct (loads_runs a c) as [-> ->] end.
      cbn [serve q_loads]. rewrite P, <- app_assoc. reflexivity. }
  destruct ev as [ev|k ok now|j ok|j o|j ok|i o|same first]; cbn [qstep].
  - destruct ev as [c| | | | |]; [destruct c|..]; try exact Id; apply Sv.
  - destruct (nth_error (s_reqs (sv_core (q_server st))) k) as [[p []| |]|]; try exact Id. apply Sv.
  - destruct (nth_error (q_jobs st) j) as [x|]; [|exact Id]. destruct (j_pc x); [|exact Id].
    eapply Same; try reflexivity. intros [].
  - destruct (nth_error (q_jobs st) j) as [x|] eqn:Ej; [|exact Id]. destruct (j_pc x) as [|[] s] eqn:Ep; try exact Id.
    destruct o; (eapply Same; try reflexivity; intros [X|[]]; discriminate).
  - destruct (nth_error (q_jobs st) j) as [x|]; [|exact Id]. destruct (j_pc x) as [|m []]; try exact Id.
    eapply Same; try reflexivity. intros [X|[]]; discriminate.
  - destruct (nth_error (q_loads st) i) as [[r0 e]|] eqn:E; [|exact Id].
    assert (PL : forall disk a, loads {| q_server := q_server st; q_jobs := q_jobs st; q_loads := remove_at i (q_loads st);
              q_disk := disk; q_manifests := q_manifests st; q_states := q_states st; q_log := q_log st ++ [QManifest r0 e a] |}).
    { intros disk a. eapply Add; [reflexivity|intros [X|[]]; discriminate|]. simpl. rewrite app_nil_r, P.
      apply Permutation_app_head. now apply remove_at_perm. }
    destruct (q_disk st r0); [|destruct (q_manifests st r0), o]; apply PL.
  - exists (q_log st), []. simpl. split; [reflexivity|]. split; [intros []|reflexivity].
Qed.

Lemma loads_log st l1 life : qreachable st -> q_log st = l1 ++ QStarted :: life -> one_life life ->
  Permutation (to_be_loaded life) (answered life ++ q_loads st).
Proof.
  intros [es ->] H O.
  assert (X : loads (run qstep (@qinit T M L) es)).
  { clear H. induction es as [|ev es IH] using rev_ind; [|rewrite run_snoc; now apply loads_step].
    exists [], []. simpl. split; [reflexivity|]. split; [intros []|reflexivity]. }
  destruct X as (l1' & l2 & H' & O' & P). rewrite H in H'. rewrite (last_one _ _ _ _ _ H' O O'). exact P.
Qed.
End Processes.
