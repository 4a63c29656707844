From Verif Require Import Base JobQueueModel WorkerSetModel RunModel RunSpec RunProofs RunInv RunNext RunLemmas GivenSpec.

Section Proofs.
Context {T M : Type}.
Implicit Types (st : state T M) (r : run_id) (s : run_state T M).

Definition kept (ts : list (worker_test T)) (m : option M) (o : option (run_state T M)) : Prop :=
  match o with
  | None | Some (Waiting _ _ _ _) => False
  | Some (HasWork q m' _ _ _) => Some m' = m /\ map fst (cf_queue (fst q)) = ts
  | Some (Done _ m' _ _ _ old) => m' = m /\ forall q, old = Some q -> map fst (cf_queue (fst q)) = ts
  | Some (Cancelled _ old) => forall q, old = Some q -> map fst (cf_queue (fst q)) = ts
  end.
Definition unset (o : option (run_state T M)) : Prop := match o with None | Some (Waiting _ _ _ _) => True | _ => False end.

Lemma slice_incl {A} (l : list A) a b : incl (slice l a b) l.
Proof.
  unfold slice. intros x H. assert (X : forall n (k : list A), In x (firstn n k) -> In x k).
  { intros n k. revert n. induction k as [|y k IH]; intros [|n]; cbn; try tauto. intros [->|I]; eauto. }
  apply X in H. revert l H. induction a as [|a IH]; intros [|y l]; cbn; try tauto. intros H. right. auto.
Qed.
Lemma bundle_incl (c : config (worker_test T)) t : incl (bundle c t) (map fst (cf_queue c)).
Proof. unfold bundle. destruct (th_pc t); try (intros x []). apply incl_map, slice_incl. Qed.
Lemma partition_incl (c : config (worker_test T)) js who : incl (partition_for c js who) (map fst (cf_queue c)).
Proof.
  unfold partition_for. intros x H. apply in_map_iff in H as ((o & p) & <- & H). apply filter_In in H as [H _]. apply in_combine_r in H. now apply in_map.
Qed.

Lemma kept_step ts m st r o' os : reachable st -> kept ts m (get r (s_runs st)) -> effect st r o' os ->
  kept ts m o' /\ Forall (gives_from ts m) os.
Proof.
  intros HR K He. destruct (reachable_inv _ HR) as [_ _ I].
  assert (PEND : forall k e j ws, nth_error (s_reqs st) k = Some (QNext r e (NEnd j ws)) -> incl ws ts).
  { intros k e j ws H. destruct (n_thr _ I _ _ _ _ j H eq_refl) as (c & js & t & Hq & _ & _ & Hb & _).
    unfold qa in Hq. rewrite <- Hb. intros x Hx. apply bundle_incl in Hx.
    destruct (get r (s_runs st)) as [[| | |]|]; cbn in *; try discriminate; try contradiction.
    - injection Hq as ->. destruct K as [_ <-]. exact Hx.
    - destruct K as [_ K]. rewrite <- (K _ Hq). exact Hx.
    - rewrite <- (K _ Hq). exact Hx. }
  assert (NIL : incl (@nil (worker_test T)) ts) by (intros x []).
  destruct He; try (match goal with H : get _ (s_runs _) = _ |- _ => rewrite H in K end); try contradiction; auto;
    try (op_cases; cbn in *; (split; [tauto|]); repeat constructor; cbn; auto; tauto);
    try (split; [exact K|repeat constructor; cbn; auto]; fail).
  - split; [exact K|]. repeat constructor. destruct K as [_ <-]. apply bundle_incl.
  - pose proof (PEND _ _ _ _ H1) as P. destruct s as [| [c js] ? ? ? ?| |]; cbn [try_mark_end] in H2; injection H2 as <- <- <-; (split; [|repeat constructor; auto]).
    + exact K.
    + destruct K as [K1 K2]. split; [exact K1|]. intros q E. injection E as <-. exact K2.
    + destruct K as [K1 K2]. exact K2.
    + destruct K as [K1 K2]. exact K1.
    + exact K.
    + exact K.
  - destruct s as [| [c js] ? ? ? ?|? ? ? [[]|] ? ?|]; cbn [retry_manifest] in H0; injection H0 as <- <-; (split; [exact K|repeat constructor]); cbn; auto.
    destruct K as [_ <-]. apply partition_incl.
  - destruct s as [| [c js] ? ? ? ?|? ? ? ? ? ?|]; cbn [mark_cancelled cancel_help queue_of] in H1; unfold cancel_help in H1; injection H1 as <- <-; (split; [|repeat constructor]);
      try contradiction; cbn in *; auto; intros q E; injection E as <-; tauto.
  - split; [|repeat constructor]. destruct s as [| [c js] ? ? ? ?|? ? ? ? ? ?|]; cbn in *; try contradiction; try tauto.
    intros q E. injection E as <-. tauto.
Qed.

(* before there is a manifest *)
Lemma unset_step st r o' os : reachable st -> unset (get r (s_runs st)) -> effect st r o' os -> Forall gives_nothing os.
Proof.
  intros HR U He. destruct (reachable_inv _ HR) as [_ _ I].
  destruct He; try (match goal with H : get _ (s_runs _) = Some _ |- _ => rewrite H in U end); try contradiction;
    try (repeat constructor; cbn; auto; fail).
  - op_cases; try contradiction; repeat constructor.
  - exfalso. destruct (n_thr _ I _ _ _ _ j H1 eq_refl) as (c & js & t & Hq & _).
    unfold qa in Hq. rewrite H in Hq. destruct s; cbn in *; try contradiction. discriminate.
  - op_cases; try contradiction; repeat constructor.
Qed.
Lemma unset_before st r o' os : effect st r o' os -> unset o' -> unset (get r (s_runs st)).
Proof.
  intros He. destruct He; try (match goal with H : get _ (s_runs _) = _ |- _ => rewrite H end); cbn; auto; try tauto;
    try (destruct s; cbn in *; try tauto; fail); try (op_cases; cbn; tauto).
Qed.
Lemma unset_nothing r st : reachable st -> unset (get r (s_runs st)) -> Forall gives_nothing (history st r).
Proof.
  apply (history_ind r (fun o h => unset o -> Forall gives_nothing h)); [constructor|].
  intros st0 os o' HR IH He U. pose proof (unset_before _ _ _ _ He U) as U0. apply Forall_app. split; [auto|]. exact (unset_step _ _ _ _ HR U0 He).
Qed.

Lemma nothing_from ts m (o : obs T M) : gives_nothing o -> gives_from ts m o.
Proof.
  destruct o; cbn; auto; try (destruct a; cbn; auto; try tauto; intros ->; intros x []).
  intros [-> ->]. split; [intros x []|exact Logic.I].
Qed.

Lemma kept_run ts m r es : forall st, reachable st -> kept ts m (get r (s_runs st)) -> Forall (gives_from ts m) (history st r) ->
  kept ts m (get r (s_runs (run step st es))) /\ Forall (gives_from ts m) (history (run step st es) r).
Proof.
  induction es as [|ev es IH]; intros st HR K F; [auto|]. cbn [run fold_left].
  destruct (step_effect st ev r) as (os & He & Eh). destruct (kept_step ts m st r _ os HR K He) as [K' F'].
  apply IH; [apply (reachable_run st [ev] HR)|exact K'|]. rewrite Eh. apply Forall_app. auto.
Qed.

Lemma taken_kept st r flat meta : taken st r flat meta ->
  unset (get r (s_runs st)) /\ kept (tests_from flat) (setup_from flat meta) (get r (s_runs (step st (EManifest r flat meta)))) /\
  history (step st (EManifest r flat meta)) r = history st r ++ [OManifest r (length flat) true].
Proof.
  unfold taken. intros Tk.
  assert (H : history (step st (EManifest r flat meta)) r = history st r ++ [OManifest r (length flat) true]).
  { unfold history. rewrite Tk, filter_app. cbn. unfold about at 2. cbn. now rewrite Nat.eqb_refl. }
  split; [|split; [|exact H]]; clear H; revert Tk; unfold step, exclusive;
    (destruct (get r (s_runs st)) as [s|] eqn:Eg; [|simpl; intros H; apply app_inv_head in H; discriminate]);
    (destruct (busy st r); [intros H; exfalso; apply (f_equal (@length _)) in H; rewrite app_length in H; simpl in H; lia|]).
  - destruct flat as [|x flat]; destruct s; cbn [add_manifest mark_empty]; intros H; try exact Logic.I; simpl in H; apply app_inv_head in H; discriminate.
  - destruct flat as [|x flat]; destruct s; cbn [add_manifest mark_empty]; intros H; try (simpl in H; apply app_inv_head in H; discriminate);
      unfold set_run; cbn [mk s_runs]; rewrite get_put, Nat.eqb_refl; cbn [kept cf_queue fst].
    + split; [reflexivity|]. discriminate.
    + split; [reflexivity|]. rewrite map_map. reflexivity.
Qed.

(* a run that never got a manifest *)
Definition ended_without (o : option (run_state T M)) : Prop := exists c, o = Some (Cancelled c None).
Lemma ended_without_step st r o' os : reachable st -> ended_without (get r (s_runs st)) -> effect st r o' os ->
  ended_without o' /\ Forall gives_nothing os.
Proof.
  intros HR [c U] He. destruct (reachable_inv _ HR) as [_ _ I].
  assert (PEND : forall k e j ws, nth_error (s_reqs st) k = Some (QNext r e (NEnd j ws)) -> False).
  { intros k e j ws H. destruct (n_thr _ I _ _ _ _ j H eq_refl) as (c' & js & t & Hq & _). unfold qa in Hq. rewrite U in Hq. discriminate. }
  destruct He; try (match goal with H : get _ (s_runs _) = Some _ |- _ => rewrite U in H; injection H; intros; subst end);
    try congruence; try (exfalso; eauto; fail);
    try (split; [eexists; eauto; fail|repeat constructor; cbn; auto]; fail);
    try (cbn in *; repeat match goal with E : (_, _) = (_, _) |- _ => injection E; intros; subst; clear E end; (split; [eexists; eauto|repeat constructor; cbn; auto]); fail).
  cbn in H1. unfold cancel_help in H1. cbn in H1. injection H1 as <- <-. split; [eexists; reflexivity|repeat constructor].
Qed.

Lemma becomes st ev r : unset (get r (s_runs st)) ->
  let o' := get r (s_runs (step st ev)) in
  unset o' \/ (exists flat meta, ev = EManifest r flat meta /\ taken st r flat meta) \/
  (exists k sv now p, ev = EFindRemote k (RemoteFound sv) now /\ nth_error (s_reqs st) k = Some (QFind p FRemote) /\ fp_run p = r /\ o' = Some (loaded_run sv)) \/
  ended_without o'.
Proof.
  intros U. cbv zeta.
  assert (PUT : forall r0 s' d os, get r (s_runs (set_run st r0 s' d os)) = if Nat.eqb r0 r then Some s' else get r (s_runs st)).
  { intros. unfold set_run. cbn [mk s_runs]. apply get_put. }
  destruct ev; unfold step, exclusive.
  - destruct (Nat.eqb (fp_batch p) 0); auto.
  - destruct (nth_error (s_reqs st) k) as [[p [] |? ? ?|? ? ?]|] eqn:Eq; auto.
    destruct a as [sv| | |].
    + destruct (get (fp_run p) (s_runs st)) eqn:Eg; [auto|]. cbn [set_req s_runs]. rewrite PUT.
      destruct (Nat.eqb_spec (fp_run p) r) as [E|E]; [|auto]. right; right; left. exists k, sv, now, p. auto.
    + destruct (get (fp_run p) (s_runs st)) eqn:Eg; [auto|]. cbn [add_timer set_req s_runs]. rewrite PUT. destruct (Nat.eqb_spec (fp_run p) r); cbn; auto.
    + destruct (get (fp_run p) (s_runs st)) eqn:Eg; [auto|]. cbn [add_timer set_req s_runs]. rewrite PUT. destruct (Nat.eqb_spec (fp_run p) r); cbn; auto.
    + auto.
  - destruct (nth_error (s_reqs st) k) as [[p [] |? ? ?|? ? ?]|] eqn:Eq; auto.
    destruct (get (fp_run p) (s_runs st)) as [s|] eqn:Eg; [|auto].
    destruct (find_lookup now p s) as [s' a] eqn:Ef. cbn [set_req s_runs]. rewrite PUT. destruct (Nat.eqb_spec (fp_run p) r) as [E|E]; [|auto].
    subst r. rewrite Eg in U. destruct s; cbn in *; try contradiction. injection Ef as <- <-. cbn; auto.
  - destruct (get r0 (s_runs st)) as [s|] eqn:Eg; [|auto]. destruct (busy st r0) eqn:Eb; [auto|].
    destruct (Nat.eq_dec r0 r) as [->|E].
    + right; left. exists flat, meta. split; [reflexivity|]. rewrite Eg in U. unfold taken, step, exclusive. rewrite Eg, Eb.
      destruct flat, s; cbn in *; try contradiction; reflexivity.
    + destruct flat as [|x flat]; [destruct (mark_empty s) as [[s' d] ok]|destruct (add_manifest (x :: flat) meta s) as [s' ok]]; rewrite PUT;
        apply Nat.eqb_neq in E; rewrite E; auto.
  - destruct (get r0 (s_runs st)) as [s|] eqn:Eg; [|auto]. destruct (busy st r0) eqn:Eb; [auto|].
    destruct (mark_failed s) as [s' d] eqn:Ef. rewrite PUT. destruct (Nat.eqb_spec r0 r) as [->|E]; [|auto].
    rewrite Eg in U. destruct s; cbn in *; try contradiction. injection Ef as <- <-. right; right; right. eexists; reflexivity.
  - destruct (get r0 (s_runs st)) as [s|] eqn:Eg; [|auto]. destruct (init_metadata e s) as [s' a] eqn:Ef. rewrite PUT. destruct (Nat.eqb_spec r0 r) as [->|E]; [|auto].
    rewrite Eg in U. destruct s; cbn in *; try contradiction. injection Ef as <- <-. cbn; auto.
  - destruct (get r0 (s_runs st)) as [[| [c js] ? ? ? ?| |]|] eqn:Eg; auto; cbn [add_req s_runs]; rewrite ?PUT; try (destruct (Nat.eqb_spec r0 r) as [->|E]; [|auto]; rewrite Eg in U; contradiction).
  - destruct (nth_error (s_reqs st) k) as [[|r0 e [j| |]|]|]; auto. destruct (get r0 (s_runs st)) as [[| [c js] ? ? ? ?| |]|] eqn:Eg; auto.
    rewrite PUT. destruct (Nat.eqb_spec r0 r) as [->|E]; [|auto]. rewrite Eg in U; contradiction.
  - destruct (nth_error (s_reqs st) k) as [[|r0 e [j|j ts|]|]|]; auto.
    + destruct (get r0 (s_runs st)) as [[| [c js] ? ? ? ?| |]|] eqn:Eg; auto. destruct (nth_error (st_threads js) j) as [t|]; auto. destruct (status_of c t) as [[]|]; auto.
    + destruct (get r0 (s_runs st)) as [s|] eqn:Eg; [|auto]. destruct (busy st r0); [auto|]. destruct (try_mark_end s) as [[s' d] p] eqn:Ef. cbn [set_req s_runs]. rewrite PUT.
      destruct (Nat.eqb_spec r0 r) as [->|E]; [|auto]. rewrite Eg in U. destruct s; cbn in *; try contradiction. injection Ef as <- <- <-. cbn; auto.
  - destruct (get r0 (s_runs st)) as [s|] eqn:Eg; [|auto]. destruct (retry_manifest e s) as [s' a] eqn:Ef. rewrite PUT. destruct (Nat.eqb_spec r0 r) as [->|E]; [|auto].
    rewrite Eg in U. destruct s; cbn in *; try contradiction. injection Ef as <- <-. cbn; auto.
  - destruct (get r0 (s_runs st)) as [s|] eqn:Eg; [|auto]. rewrite PUT. destruct (Nat.eqb_spec r0 r) as [->|E]; [|auto]. rewrite Eg in U. destruct s; cbn in *; try contradiction. auto.
  - destruct (get r0 (s_runs st)) as [s|] eqn:Eg; [|auto]. destruct (busy st r0); [auto|]. destruct (mark_cancelled e CRUser s) as [s' d] eqn:Ef. rewrite PUT.
    destruct (Nat.eqb_spec r0 r) as [->|E]; [|auto]. rewrite Eg in U. destruct s; cbn in *; try contradiction. unfold cancel_help in Ef. cbn in Ef. injection Ef as <- <-. right; right; right. eexists; reflexivity.
  - destruct (get r0 (s_runs st)) as [[| |? ? ? [b|] ? ?|]|] eqn:Eg; auto. rewrite PUT. destruct (Nat.eqb_spec r0 r) as [->|E]; [|auto]. rewrite Eg in U; contradiction.
  - destruct (nth_error (s_timers st) i) as [[r0 last]|]; [|auto]. destruct (get r0 (s_runs st)) as [s|]; [|auto]. destruct (query_progress last s); auto.
  - destruct (nth_error (s_reqs st) k) as [[| |r0 last []]|]; auto. destruct (get r0 (s_runs st)) as [s|] eqn:Eg; [|auto]. destruct (busy st r0); [auto|].
    cbv zeta. destruct (is_cancel (query_progress last s)) eqn:Ec; [|destruct (query_progress last s); auto].
    unfold cancel_help. unfold set_run. cbn [mk s_runs set_req]. rewrite get_put. destruct (Nat.eqb_spec r0 r) as [->|E]; [|auto].
    rewrite Eg in U. destruct s; cbn in *; try contradiction. right; right; right. eexists; reflexivity.
  - auto.
  - auto.
Qed.

Lemma run_snoc (es : list (event T M)) ev st : run step st (es ++ [ev]) = step (run step st es) ev.
Proof. unfold run. now rewrite fold_left_app. Qed.

Lemma from_the_manifest es1 es2 r flat meta :
  let st : state T M := run step init_state es1 in
  taken st r flat meta -> forall o, In o (history (run step init_state (es1 ++ EManifest r flat meta :: es2)) r) ->
  gives_from (tests_from flat) (setup_from flat meta) o.
Proof.
  cbv zeta. set (st := run step init_state es1). intros Tk o. replace (run step init_state (es1 ++ EManifest r flat meta :: es2)) with (run step (step st (EManifest r flat meta)) es2)
    by (unfold st, run; now rewrite fold_left_app).
  assert (HR : reachable st) by (exists es1; reflexivity).
  destruct (taken_kept _ _ _ _ Tk) as (U & K & E).
  apply Forall_forall, (kept_run (tests_from flat) (setup_from flat meta) r es2); [exact (reachable_run st [EManifest r flat meta] HR)|exact K|].
  rewrite E. apply Forall_app. split; [|repeat constructor].
  eapply Forall_impl; [|exact (unset_nothing r st HR U)]. intros a. apply nothing_from.
Qed.

Lemma from_where es r :
  let st : state T M := run step init_state es in
  (unset (get r (s_runs st)) \/ ended_without (get r (s_runs st))) /\ Forall gives_nothing (history st r) \/
  (exists es1 flat meta es2, es = es1 ++ EManifest r flat meta :: es2 /\ taken (run step init_state es1) r flat meta) \/
  (exists es1 k sv now es2 p, es = es1 ++ EFindRemote k (RemoteFound sv) now :: es2 /\
     nth_error (s_reqs (run step init_state es1)) k = Some (QFind p FRemote) /\ fp_run p = r /\
     kept [] (sv_meta sv) (get r (s_runs st)) /\ Forall (gives_from [] (sv_meta sv)) (history st r)).
Proof.
  induction es as [|ev es IH] using rev_ind.
  - left. split; [left; exact Logic.I|constructor].
  - cbv zeta in *. rewrite run_snoc. set (st := run step init_state es) in *.
    assert (HR : reachable st) by (exists es; reflexivity).
    destruct (step_effect st ev r) as (os & He & Eh).
    destruct IH as [[[U|U] F]|[(es1 & flat & meta & es2 & -> & Tk)|(es1 & k & sv & now & es2 & p & -> & Hk & Hr & K & F)]].
    + destruct (becomes st ev r U) as [U'|[(flat & meta & -> & Tk)|[(k & sv & now & p & -> & Hk & Hr & Ho)|U']]].
      * left. split; [auto|]. rewrite Eh. apply Forall_app. split; [exact F|exact (unset_step _ _ _ _ HR U He)].
      * right; left. exists es, flat, meta, []. auto.
      * right; right. exists es, k, sv, now, [], p. repeat split; auto.
        { rewrite Ho. cbn. split; [reflexivity|discriminate]. }
        rewrite Eh. apply Forall_app. split; (eapply Forall_impl; [intros a; apply nothing_from|]); [exact F|exact (unset_step _ _ _ _ HR U He)].
      * left. split; [auto|]. rewrite Eh. apply Forall_app. split; [exact F|exact (unset_step _ _ _ _ HR U He)].
    + destruct (ended_without_step _ _ _ _ HR U He) as [U' F']. left. split; [auto|]. rewrite Eh. apply Forall_app; auto.
    + right; left. exists es1, flat, meta, (es2 ++ [ev]). split; [now rewrite <- app_assoc|exact Tk].
    + right; right. exists es1, k, sv, now, (es2 ++ [ev]), p. destruct (kept_step _ _ _ _ _ _ HR K He) as [K' F'].
      repeat split; auto; [now rewrite <- app_assoc|]. rewrite Eh. apply Forall_app; auto.
Qed.

Lemma count_told (h : list (obs T M)) : count told_to_generate h = 1 -> exists f d, In (OAssigned f (AssignedRun (Fresh true) d)) h.
Proof.
  induction h as [|o h IH]; [discriminate|]. unfold count in *. cbn [filter]. destruct (told_to_generate o) eqn:E.
  - intros _. destruct o; cbn in E; try discriminate. destruct a as [|[[]|] d| | |]; try discriminate. exists p, d. now left.
  - intros H. destruct (IH H) as (f & d & Hin). exists f, d. now right.
Qed.
Lemma plan_told r st : reachable st -> forall k e ts eow p, In (OWork k r e ts eow (Some p)) (history st r) ->
  exists f d, In (OAssigned f (AssignedRun (Fresh true) d)) (history st r).
Proof.
  apply (history_ind r (fun o h => forall k e ts eow p, In (OWork k r e ts eow (Some p)) h -> exists f d, In (OAssigned f (AssignedRun (Fresh true) d)) h)).
  - intros; contradiction.
  - intros st0 os o' HR IH He k e ts eow p Hin. apply in_app_iff in Hin as [Hin|Hin].
    + destruct (IH _ _ _ _ _ Hin) as (f & d & H). exists f, d. apply in_app_iff; auto.
    + assert (C : count told_to_generate (history st0 r) = 1).
      { pose proof (gen_inv r st0 HR) as G. destruct He; cbn in Hin; repeat (destruct Hin as [Hin|Hin]; try discriminate); try contradiction.
        injection Hin; intros; subst. rewrite H in G. destruct s; cbn in *; try discriminate. tauto. }
      destruct (count_told _ C) as (f & d & H). exists f, d. apply in_app_iff; auto.
Qed.
End Proofs.
