(* When a worker is told to have its tests loaded (C83). *)
From Verif Require Import Base JobQueueModel WorkerSetModel ManifestViewModel RunModel RunSpec RunProofs RunInv RunLemmas RunParts
  ServerModel ServerSpec RestartModel RestartSpec RestartProofs.

Section Core.
Context {T M : Type}.
Implicit Types (st : state T M) (r : run_id).

(* The run is known as one whose manifest can be loaded. *)
Definition loadable (o : option (run_state T M)) : Prop :=
  match o with Some (Done _ _ _ (MPersisted true) _ _) => True | _ => False end.

Ltac opc :=
  cbn [find_lookup add_manifest mark_empty mark_failed try_mark_end mark_cancelled worker_complete init_metadata retry_manifest
       cancel_help fresh_run] in *;
  repeat match goal with
         | H : context [if ?b then _ else _] |- _ => destruct b
         end;
  unfold cancel_help in *;
  repeat match goal with E : (_, _) = (_, _) |- _ => injection E; intros; subst; clear E end;
  cbn [loadable] in *; auto; try tauto.

(* It becomes one only when the manifest was persisted, or the run is loaded from the store. *)
Lemma becomes_loadable st c r : loadable (get r (s_runs (step st c))) ->
  loadable (get r (s_runs st)) \/ c = EPersisted r \/
  exists k s now p, c = EFindRemote k (RemoteFound s) now /\ nth_error (s_reqs st) k = Some (QFind p FRemote) /\ fp_run p = r.
Proof.
  destruct c as [p|k a now|k now|r0 flat meta|r0|r0 e|r0 e|k|k|r0 e|r0 e now|r0 e|r0|i|k|r0|]; cbn [step].
  - destruct (Nat.eqb (fp_batch p) 0); auto.
  - destruct (nth_error (s_reqs st) k) as [[p []| |]|] eqn:E; auto.
    destruct a as [s| | |]; try (destruct (get (fp_run p) (s_runs st)) eqn:G); cbn; auto;
      rewrite get_put; (destruct (Nat.eqb_spec (fp_run p) r) as [Er|]; [|auto]); cbn; try tauto; intros _; right; right; eauto 10.
  - destruct (nth_error (s_reqs st) k) as [[p []| |]|] eqn:E; auto.
    destruct (get (fp_run p) (s_runs st)) as [s|] eqn:G; auto. destruct (find_lookup now p s) as [s' a] eqn:F. cbn. rewrite get_put.
    destruct (Nat.eqb_spec (fp_run p) r) as [<-|]; [|auto]. rewrite G. destruct s; opc.
  - unfold exclusive. destruct (get r0 (s_runs st)) as [s|] eqn:G; auto. destruct (busy st r0); auto.
    destruct flat as [|x flat].
    + destruct (mark_empty s) as [[s' d] ok] eqn:F. cbn. rewrite get_put. destruct (Nat.eqb_spec r0 r) as [<-|]; [|auto]. rewrite G. destruct s; opc.
    + destruct (add_manifest (x :: flat) meta s) as [s' ok] eqn:F. cbn. rewrite get_put. destruct (Nat.eqb_spec r0 r) as [<-|]; [|auto]. rewrite G. destruct s; opc.
  - unfold exclusive. destruct (get r0 (s_runs st)) as [s|] eqn:G; auto. destruct (busy st r0); auto.
    destruct (mark_failed s) as [s' d] eqn:F. cbn. rewrite get_put. destruct (Nat.eqb_spec r0 r) as [<-|]; [|auto]. rewrite G. destruct s; opc.
  - destruct (get r0 (s_runs st)) as [s|] eqn:G; auto. destruct (init_metadata e s) as [s' a] eqn:F. cbn. rewrite get_put.
    destruct (Nat.eqb_spec r0 r) as [<-|]; [|auto]. rewrite G. destruct s as [| |? ? ? []|]; opc.
  - destruct (get r0 (s_runs st)) as [[| [? ?] ? ? ? ?|? ? ? [[]|] ? ?|]|] eqn:G; cbn; auto; rewrite get_put; (destruct (Nat.eqb_spec r0 r) as [<-|]; [|auto]); cbn; rewrite ?G; cbn; auto.
  - destruct (nth_error (s_reqs st) k) as [[|r0 e [j| | ]|]|]; auto. destruct (get r0 (s_runs st)) as [[| [? ?] ? ? ? ?| |]|] eqn:G; cbn; auto.
    rewrite get_put; (destruct (Nat.eqb_spec r0 r) as [<-|]; [|auto]); cbn. tauto.
  - destruct (nth_error (s_reqs st) k) as [[|r0 e [j|j ts| ]|]|]; auto.
    + destruct (get r0 (s_runs st)) as [[| [? ?] ? ? ? ?| |]|] eqn:G; cbn; auto.
      destruct (nth_error _ j) as [t|]; cbn; auto. destruct (status_of _ t) as [[]|]; cbn; auto.
    + unfold exclusive. destruct (get r0 (s_runs st)) as [s|] eqn:G; auto. destruct (busy st r0); auto.
      destruct (try_mark_end s) as [[s' d] pl] eqn:F. cbn. rewrite get_put. destruct (Nat.eqb_spec r0 r) as [<-|]; [|auto].
      rewrite G. destruct s as [|[? ?]| |]; opc.
  - destruct (get r0 (s_runs st)) as [s|] eqn:G; auto. destruct (retry_manifest e s) as [s' a] eqn:F. cbn. rewrite get_put.
    destruct (Nat.eqb_spec r0 r) as [<-|]; [|auto]. rewrite G. destruct s as [|[? ?]|? ? ? [[]|]|]; opc.
  - destruct (get r0 (s_runs st)) as [s|] eqn:G; auto. cbn. rewrite get_put. destruct (Nat.eqb_spec r0 r) as [<-|]; [|auto]. rewrite G. destruct s; opc.
  - unfold exclusive. destruct (get r0 (s_runs st)) as [s|] eqn:G; auto. destruct (busy st r0); auto.
    destruct (mark_cancelled e CRUser s) as [s' d] eqn:F. cbn. rewrite get_put. destruct (Nat.eqb_spec r0 r) as [<-|]; [|auto]. rewrite G. destruct s; opc.
  - destruct (get r0 (s_runs st)) as [[| |? ? ? [b|] ? ?|]|] eqn:G; cbn; auto. rewrite get_put. destruct (Nat.eqb_spec r0 r) as [<-|]; auto.
  - destruct (nth_error (s_timers st) i) as [[r0 last]|]; auto. destruct (get r0 (s_runs st)) as [s|]; cbn; auto. destruct (query_progress last s); cbn; auto.
  - cbn. destruct (nth_error (s_reqs st) k) as [[| |r0 last []]|]; auto. unfold exclusive.
    destruct (get r0 (s_runs st)) as [s|] eqn:G; auto. destruct (busy st r0); auto.
    destruct (query_progress last s); cbn; auto; rewrite get_put; (destruct (Nat.eqb_spec r0 r) as [<-|]; [|auto]); cbn; tauto.
  - auto.
  - auto.
Qed.

(* Only of such a run it is said. *)
Lemma told_loadable st c r e os : s_log (step st c) = s_log st ++ os -> In (ORetry r e RFetchFromPersistence) os ->
  loadable (get r (s_runs st)).
Proof.
  intros H I. assert (X : In (ORetry r e RFetchFromPersistence) (filter (about r) os)).
  { apply filter_In. split; [exact I|]. unfold about. cbn. apply Nat.eqb_refl. }
  destruct (step_effect st c r) as (os' & He & Hh). unfold history in Hh. rewrite H, filter_app in Hh. apply app_inv_head in Hh.
  rewrite Hh in X. clear - He X.
  destruct He; cbn in X; repeat (destruct X as [X|X]; try discriminate); try contradiction.
  injection X as -> ->. match goal with G : get _ _ = Some ?s |- _ => rewrite G; destruct s as [|[? ?]|? ? ? [[]|]|]; cbn in *; try discriminate; auto end.
Qed.
End Core.

Section Props.
Context {T M L : Type}.
Implicit Types (st : qstate T M L) (r : run_id) (l : list (qobs T M L)).

(* A process persisted the manifest of the run, or stored how it ended. *)
Definition stored r l : Prop := exists p, In (QManifestKept r p true) l \/ In (QStateKept r p true) l.

Lemma stored_more r l l' : stored r l -> stored r (l ++ l').
Proof. intros (p & [H|H]); exists p; [left|right]; apply in_app_iff; auto. Qed.

Definition told_in_time st : Prop :=
  (forall r, loadable (get r (s_runs (sv_core (q_server st)))) -> stored r (q_log st)) /\
  forall l1 r e l2, q_log st = l1 ++ QRun (ORetry r e RFetchFromPersistence) :: l2 -> stored r l1.

Lemma in_time_quiet st st' os : told_in_time st -> q_log st' = q_log st ++ os ->
  (forall r, loadable (get r (s_runs (sv_core (q_server st')))) -> loadable (get r (s_runs (sv_core (q_server st)))) \/ stored r os) ->
  (forall r e, ~ In (QRun (ORetry r e RFetchFromPersistence)) os) -> told_in_time st'.
Proof.
  intros [A B] E Q N. split.
  - intros r H. rewrite E. destruct (Q r H) as [X|(p & X)].
    + apply stored_more, A, X.
    + exists p. rewrite !in_app_iff. tauto.
  - intros l1 r e l2 H. rewrite E in H. apply app_eq_app in H as (x & [[H1 H2]|[H1 H2]]).
    + destruct x as [|y x]; [|cbn in H2; injection H2 as <- H2; eapply B; eauto].
      cbn in H2. exfalso. apply (N r e). rewrite <- H2. left. reflexivity.
    + exfalso. apply (N r e). rewrite H2. apply in_app_iff. right. left. reflexivity.
Qed.

Lemma in_time_serve st ev : told_in_time st -> sound st ->
  (forall k a now, ev = SCore (EFindRemote k a now) -> forall p, nth_error (s_reqs (sv_core (q_server st))) k = Some (QFind p FRemote) ->
     (exists s, a = RemoteFound s) -> stored (fp_run p) (q_log st)) ->
  (forall r, ev <> SCore (EPersisted r)) -> told_in_time (serve st ev).
Proof.
  intros [A B] S Q NP. destruct (core_logs (q_server st) ev) as [os E].
  assert (X : forall r, loadable (get r (s_runs (sv_core (sstep (q_server st) ev)))) -> stored r (q_log st)).
  { intros r H. destruct (core_of (q_server st) ev) as [Ec|(c & Ec & HE)]; rewrite Ec in H; [auto|].
    apply becomes_loadable in H as [H|[->|(k & s & now & p & -> & H1 & H2)]]; auto.
    - destruct HE as [->|(? & ? & ? & ? & _ & F)]; [exfalso; eapply NP; reflexivity|discriminate].
    - destruct HE as [->|(? & ? & ? & ? & _ & F)]; [|discriminate]. subst r. eapply Q; eauto. }
  assert (Y : forall r e, In (ORetry r e RFetchFromPersistence) os -> stored r (q_log st)).
  { intros r e I. destruct (core_of (q_server st) ev) as [Ec|(c & Ec & HE)]; rewrite Ec in E.
    - rewrite <- (app_nil_r (s_log _)) in E at 1. apply app_inv_head in E. subst os. destruct I.
    - apply A. eapply told_loadable; eauto. }
  unfold serve. split; cbn [q_server q_log].
  - intros r H. apply stored_more, X, H.
  - rewrite E, fresh_app. intros l1 r e l2 H. apply app_eq_app in H as (x & [[H1 H2]|[H1 H2]]).
    + destruct x as [|y x]; [|cbn in H2; injection H2 as <- H2; eapply B; eauto].
      rewrite app_nil_r in H1. rewrite <- H1. cbn [app] in H2. apply (Y r e).
      assert (I : In (QRun (ORetry r e RFetchFromPersistence)) (map QRun os ++ map (@QRes T M L) (fresh_log (sv_log (q_server st)) (sv_log (sstep (q_server st) ev)))))
        by (rewrite <- H2; left; reflexivity).
      apply in_app_iff in I as [I|I]; apply in_map_iff in I as (o & Eo & I); [injection Eo as ->; exact I|discriminate].
    + rewrite H1. apply stored_more, (Y r e).
      assert (I : In (QRun (ORetry r e RFetchFromPersistence)) (map QRun os ++ map (@QRes T M L) (fresh_log (sv_log (q_server st)) (sv_log (sstep (q_server st) ev)))))
        by (rewrite H2; apply in_app_iff; right; left; reflexivity).
      apply in_app_iff in I as [I|I]; apply in_map_iff in I as (o & Eo & I); [injection Eo as ->; exact I|discriminate].
Qed.

Lemma in_time_step st ev : qreachable st -> told_in_time st -> told_in_time (qstep st ev).
Proof.
  intros HR I. assert (S := qreach_sound _ HR).
  destruct ev as [ev|k ok now|j ok|j o|j ok|i o|same first]; cbn [qstep].
  - destruct ev as [c| | | | |]; try (apply in_time_serve; [exact I|exact S|discriminate|discriminate]).
    destruct c; try exact I; (apply in_time_serve; [exact I|exact S|discriminate|discriminate]).
  - destruct (nth_error (s_reqs (sv_core (q_server st))) k) as [[p []| |]|] eqn:E; try exact I.
    apply in_time_serve; [exact I|exact S| |discriminate].
    intros k0 a now0 H p0 H0 [s Hs]. injection H as <- <- _. rewrite E in H0. injection H0 as <-.
    destruct ok; [|discriminate]. unfold consult in Hs. destruct (q_states st (fp_run p)) as [s0|] eqn:G; [|discriminate].
    destruct (state_was_kept _ _ _ HR G) as (q & Hq & _). exists q. right. exact Hq.
  - destruct (nth_error (q_jobs st) j) as [x|]; [|exact I]. destruct (j_pc x); [|exact I].
    eapply in_time_quiet; [exact I|reflexivity|cbn; auto|cbn; auto].
  - destruct (nth_error (q_jobs st) j) as [x|]; [|exact I]. destruct (j_pc x) as [|[] s]; try exact I.
    destruct o; (eapply in_time_quiet; [exact I|reflexivity| |cbn; intuition discriminate]); cbn [set_job q_server sstep sv_core]; auto.
    intros r H. change (loadable (get r (s_runs (step (sv_core (q_server st)) (EPersisted (j_run x)))))) in H. apply becomes_loadable in H as [H|[H|(k & s0 & now & p & H & _)]]; [auto| |discriminate].
    injection H as <-. right. exists (j_plan x). left. left. reflexivity.
  - destruct (nth_error (q_jobs st) j) as [x|]; [|exact I]. destruct (j_pc x) as [|m []]; try exact I.
    eapply in_time_quiet; [exact I|reflexivity|cbn; auto|cbn; intuition discriminate].
  - destruct (nth_error (q_loads st) i) as [[r e]|]; [|exact I].
    destruct (q_disk st r); [|destruct (q_manifests st r), o]; (eapply in_time_quiet; [exact I|reflexivity|cbn; auto|cbn; intuition discriminate]).
  - eapply in_time_quiet; [exact I|reflexivity| |cbn; intuition discriminate]. cbn. tauto.
Qed.

(* A worker that asks for the tests it had is told to have them loaded only after some process has persisted the manifest of
   the run, or has stored how the run ended. *)
Theorem C83_loading_is_not_told_too_early st l1 r e l2 : qreachable st ->
  q_log st = l1 ++ QRun (ORetry r e RFetchFromPersistence) :: l2 -> stored r l1.
Proof.
  intros [es ->]. revert l1 r e l2. apply (fun H : told_in_time (run qstep qinit es) => proj2 H).
  induction es as [|ev es IH] using rev_ind.
  - split; cbn; [tauto|]. intros l1 r e l2 H. destruct l1 as [|? [|]]; discriminate.
  - rewrite run_app. cbn [run fold_left]. apply in_time_step; [exists es; reflexivity|exact IH].
Qed.
End Props.

Section Examples.
Let w1 : entity := {| en_id := 1; en_tag := TRunner 0 1 |}.
Let for_run (e : entity) : find_params := {| fp_run := 0; fp_entity := e; fp_batch := 1; fp_strategy := ByTest; fp_hash := 0 |}.
Let sv (es : list (sevent nat unit nat)) : list (qevent nat unit nat) := map QServer es.
Let ask e k := sv (SCore (ENext 0 e) :: repeat (SCore (EQueueStep k)) 6 ++ [SCore (ENextFinish k); SCore (ENextFinish k)]).
Let opening : list (qevent nat unit nat) :=
  sv [SCore (EFind (for_run w1))] ++ [QConsult 0 true 0] ++ sv [SManifest 0 [(7, 0); (8, 1)] tt 100] ++ ask w1 1 ++ ask w1 2 ++ [QAnswered 0 true].
Let asks : list (qevent nat unit nat) := sv [SCore (ERetryManifest 0 w1)].

(* Asked for before the manifest is persisted, the tests are not there yet; afterwards they are. *)
Example C83_not_too_early_example : let st := run qstep qinit (opening ++ asks ++ [QDump 0 DOk] ++ asks) in
  exists l1 p, q_log st = l1 ++ [QRun (ORetry 0 w1 RNotYetPersisted); QManifestKept 0 p true; QRun (ORetry 0 w1 RFetchFromPersistence)].
Proof.
  set (st := run _ _ _). vm_compute in st. subst st. do 2 eexists.
  match goal with |- q_log ?st = _ => let l := eval cbn [q_log] in (q_log st) in change (q_log st) with l end.
  match goal with |- ?l = _ => instantiate (2 := firstn (length l - 3) l) end. reflexivity.
Qed.
End Examples.

Print Assumptions C83_loading_is_not_told_too_early.
