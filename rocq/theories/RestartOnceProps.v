(* How often a run is stored, and which tests stay at hand (C83). *)
From Verif Require Import Base JobQueueModel WorkerSetModel ManifestViewModel RunModel RunSpec
  ServerModel ServerSpec RestartModel RestartSpec RestartProofs.
From Coq Require Import Permutation.

Section Props.
Context {T M L : Type}.
Implicit Types (st : qstate T M L) (r : run_id) (l : list (qobs T M L)).

(* The plans to store a run that were made in l, and the tasks of storing a manifest and of
   storing how a run ended that came to an end in l, well or not. *)
Definition plans_made l : list (run_id * plan T M) :=
  flat_map (fun x => match x with QRun (OWork _ r _ _ _ (Some p)) => [(r, p)] | _ => [] end) l.
Definition manifests_done l : list (run_id * plan T M) := flat_map (fun x => match x with QManifestKept r p _ => [(r, p)] | _ => [] end) l.
Definition states_done l : list (run_id * plan T M) := flat_map (fun x => match x with QStateKept r p _ => [(r, p)] | _ => [] end) l.

Definition of_job (x : job T M) : run_id * plan T M := (j_run x, j_plan x).
Definition m_due (x : job T M) : list (run_id * plan T M) := match j_pc x with JAnswer | JTasks true _ => [of_job x] | _ => [] end.
Definition s_due (x : job T M) : list (run_id * plan T M) := match j_pc x with JAnswer | JTasks _ true => [of_job x] | _ => [] end.

Lemma upd_removed {A} j (x y : A) : forall l : list A, nth_error l j = Some x -> nth_error (upd j y l) j = Some y /\ remove_at j (upd j y l) = remove_at j l.
Proof. induction j as [|j IH]; intros [|a l] H; simpl in *; try discriminate; auto. destruct (IH l H) as [H1 H2]. now rewrite H1, H2. Qed.

Lemma due_upd {B} (f : job T M -> list B) js j x y : nth_error js j = Some x ->
  exists rest, Permutation (flat_map f js) (f x ++ rest) /\ Permutation (flat_map f (upd j y js)) (f y ++ rest).
Proof.
  intros H. exists (flat_map f (remove_at j js)). destruct (upd_removed j x y js H) as [H1 H2]. split.
  - rewrite (Permutation_flat_map f (remove_at_perm j js x H)). reflexivity.
  - rewrite (Permutation_flat_map f (remove_at_perm j _ y H1)). cbn [flat_map]. now rewrite H2.
Qed.

Definition once st : Prop := exists l1 l2 gm gs, q_log st = l1 ++ QStarted :: l2 /\ one_life l2 /\
  Permutation (plans_made l2) (manifests_done l2 ++ flat_map m_due (q_jobs st) ++ gm) /\
  Permutation (plans_made l2) (states_done l2 ++ flat_map s_due (q_jobs st) ++ gs).

Lemma once_runs (os : list (obs T M)) (c : list (sobs L)) :
  let l := map (@QRun T M L) os ++ map QRes c in
  plans_made l = map of_job (jobs_of os) /\ manifests_done l = [] /\ states_done l = [] /\
  flat_map m_due (jobs_of os) = map of_job (jobs_of os) /\ flat_map s_due (jobs_of os) = map of_job (jobs_of os).
Proof.
  assert (C : plans_made (map (@QRes T M L) c) = [] /\ manifests_done (map (@QRes T M L) c) = [] /\ states_done (map (@QRes T M L) c) = [])
    by (induction c; simpl; auto).
  destruct C as (C1 & C2 & C3). unfold plans_made, manifests_done, states_done in *. cbv zeta. rewrite !flat_map_app, C1, C2, C3, !app_nil_r.
  induction os as [|o os (I1 & I2 & I3 & I4 & I5)]; simpl; auto. unfold jobs_of in *. cbn [flat_map]. rewrite !flat_map_app, map_app, I1, I2, I3, I4, I5.
  destruct o; try (simpl; auto 10; fail). match goal with |- context [match ?o with Some _ => _ | None => _ end] => destruct o end; simpl; auto 10.
Qed.

Lemma once_step st ev : once st -> once (qstep st ev).
Proof.
  intros (l1 & l2 & gm & gs & H & O & PM & PS).
  assert (Id : once st) by (exists l1, l2, gm, gs; auto).
  assert (Add : forall st' os, q_log st' = q_log st ++ os -> one_life os ->
    (exists g, Permutation (plans_made os ++ flat_map m_due (q_jobs st)) (manifests_done os ++ flat_map m_due (q_jobs st') ++ g)) ->
    (exists g, Permutation (plans_made os ++ flat_map s_due (q_jobs st)) (states_done os ++ flat_map s_due (q_jobs st') ++ g)) -> once st').
  { intros st' os E Oo (g & GM) (g' & GS). exists l1, (l2 ++ os), (g ++ gm), (g' ++ gs). split; [now rewrite E, H, <- app_assoc|]. split; [|split].
    - intros X. apply in_app_iff in X as [X|X]; [now apply O|now apply Oo].
    - unfold plans_made, manifests_done in *. rewrite !flat_map_app, PM, <- !app_assoc. apply Permutation_app_head.
      rewrite app_assoc. rewrite (Permutation_app_comm (_ ++ gm)), app_assoc, GM, <- !app_assoc. reflexivity.
    - unfold plans_made, states_done in *. rewrite !flat_map_app, PS, <- !app_assoc. apply Permutation_app_head.
      rewrite app_assoc. rewrite (Permutation_app_comm (_ ++ gs)), app_assoc, GS, <- !app_assoc. reflexivity. }
  assert (Sv : forall sev, once (serve st sev)).
  { intros sev. eapply Add; [reflexivity| | |].
    - intros X. apply in_app_iff in X as [X|X]; apply in_map_iff in X as (? & ? & _); discriminate.
    - exists []. match goal with |- context [map QRun ?a ++ map QRes ?c] => destruct (once_runs a c) as (-> & -> & _ & Q & _) end.
      cbn [serve q_jobs app]. rewrite flat_map_app, Q, app_nil_r. apply Permutation_app_comm.
    - exists []. match goal with |- context [map QRun ?a ++ map QRes ?c] => destruct (once_runs a c) as (-> & _ & -> & _ & Q) end.
      cbn [serve q_jobs app]. rewrite flat_map_app, Q, app_nil_r. apply Permutation_app_comm. }
  assert (Job : forall j x pc srv disk ms ss os, nth_error (q_jobs st) j = Some x -> one_life os -> plans_made os = [] ->
    (exists g, Permutation (m_due x) (manifests_done os ++ m_due {| j_run := j_run x; j_plan := j_plan x; j_pc := pc |} ++ g)) ->
    (exists g, Permutation (s_due x) (states_done os ++ s_due {| j_run := j_run x; j_plan := j_plan x; j_pc := pc |} ++ g)) ->
    once (set_job st j x pc srv disk ms ss os)).
  { intros j x pc srv disk ms ss os Hj Oo EP (g & GM) (g' & GS). eapply Add; [reflexivity|exact Oo| |]; cbn [set_job q_jobs]; rewrite EP; cbn [app].
    - destruct (due_upd m_due _ _ _ {| j_run := j_run x; j_plan := j_plan x; j_pc := pc |} Hj) as (rest & R1 & R2). exists g.
      rewrite R1, R2, GM, <- !app_assoc. do 2 apply Permutation_app_head. apply Permutation_app_comm.
    - destruct (due_upd s_due _ _ _ {| j_run := j_run x; j_plan := j_plan x; j_pc := pc |} Hj) as (rest & R1 & R2). exists g'.
      rewrite R1, R2, GS, <- !app_assoc. do 2 apply Permutation_app_head. apply Permutation_app_comm. }
  destruct ev as [ev|k ok now|j ok|j o|j ok|i o|same first]; cbn [qstep].
  - destruct ev as [c| | | | |]; [destruct c|..]; try exact Id; apply Sv.
  - destruct (nth_error (s_reqs (sv_core (q_server st))) k) as [[p []| |]|]; try exact Id. apply Sv.
  - destruct (nth_error (q_jobs st) j) as [x|] eqn:Ej; [|exact Id]. destruct (j_pc x) eqn:Ep; [|exact Id].
    apply Job; auto; [intros []| |]; unfold m_due, s_due, of_job; rewrite Ep; cbn; destruct ok; cbn; eexists; [instantiate (1 := [])| |instantiate (1 := [])|]; reflexivity.
  - destruct (nth_error (q_jobs st) j) as [x|] eqn:Ej; [|exact Id]. destruct (j_pc x) as [|[] s] eqn:Ep; try exact Id.
    destruct o; (apply Job; auto; [intros [X|[]]; discriminate| |]; exists []; unfold m_due, s_due, of_job; rewrite Ep; cbn; destruct s; reflexivity).
  - destruct (nth_error (q_jobs st) j) as [x|] eqn:Ej; [|exact Id]. destruct (j_pc x) as [|m []] eqn:Ep; try exact Id.
    apply Job; auto; [intros [X|[]]; discriminate| |]; exists []; unfold m_due, s_due, of_job; rewrite Ep; cbn; destruct m; reflexivity.
  - destruct (nth_error (q_loads st) i) as [[r0 e]|] eqn:E; [|exact Id].
    assert (PL : forall disk a, once {| q_server := q_server st; q_jobs := q_jobs st; q_loads := remove_at i (q_loads st);
              q_disk := disk; q_manifests := q_manifests st; q_states := q_states st; q_log := q_log st ++ [QManifest r0 e a] |}).
    { intros disk a. eapply Add; [reflexivity|intros [X|[]]; discriminate| |]; exists []; cbn; rewrite app_nil_r; reflexivity. }
    destruct (q_disk st r0); [|destruct (q_manifests st r0), o]; apply PL.
  - exists (q_log st), [], [], []. cbn. split; [reflexivity|]. split; [intros []|]. split; reflexivity.
Qed.

(* In the life of a process the manifest of a run is stored at most once for each plan that was
   made to store the run, and so is how it ended. *)
Theorem C83_stored_at_most_once st l1 life : qreachable st -> q_log st = l1 ++ QStarted :: life -> one_life life ->
  (exists rest, Permutation (plans_made life) (manifests_done life ++ rest)) /\
  (exists rest, Permutation (plans_made life) (states_done life ++ rest)).
Proof.
  intros [es ->] H O.
  assert (X : once (run qstep (@qinit T M L) es)).
  { clear H. induction es as [|ev es IH] using rev_ind; [|rewrite run_snoc; now apply once_step].
    exists [], [], [], []. cbn. split; [reflexivity|]. split; [intros []|]. split; reflexivity. }
  destruct X as (l1' & l2 & gm & gs & H' & O' & PM & PS). rewrite H in H'. rewrite (last_one _ _ _ _ _ H' O O'). split; eauto.
Qed.

(* ---- what stays at hand ---- *)

(* The tests of run r were loaded well, or stored. *)
Definition got r (x : qobs T M L) : Prop :=
  (exists e ts, x = QManifest r e (LTests ts)) \/ (exists p, x = QManifestKept r p true).
(* No task of storing the manifest of r failed in l. *)
Definition no_failed_dump r l : Prop := forall p, ~ In (QManifestKept r p false) l.

Lemma part_not_failed (v : mview (T := T)) t : part v t <> LFailed.
Proof. unfold part. destruct (view_partition _ _); discriminate. Qed.

(* A manifest that is on the disk stays there and can be read. *)
Lemma disk_step st ev r os : q_log (qstep st ev) = q_log st ++ os ->
  (q_disk st r <> None -> one_life os -> no_failed_dump r os ->
     q_disk (qstep st ev) r <> None /\ forall e a, In (QManifest r e a) os -> a <> LFailed) /\
  (forall x, In x os -> got r x -> os = [x] /\ q_disk (qstep st ev) r <> None).
Proof.
  intros E.
  assert (Quiet : forall os', q_log (qstep st ev) = q_log st ++ os' -> q_disk (qstep st ev) = q_disk st -> (forall x, In x os' -> ~ got r x) ->
     (forall e a, In (QManifest r e a) os' -> a <> LFailed) ->
     (q_disk st r <> None -> one_life os -> no_failed_dump r os -> q_disk (qstep st ev) r <> None /\ forall e a, In (QManifest r e a) os -> a <> LFailed) /\
     (forall x, In x os -> got r x -> os = [x] /\ q_disk (qstep st ev) r <> None)).
  { intros os' E' D N F. rewrite E in E'. apply app_inv_head in E'. subst os'. rewrite D. split; [auto|]. intros x I G. exfalso. eapply N; eauto. }
  assert (None_ : q_log (qstep st ev) = q_log st -> q_disk (qstep st ev) = q_disk st ->
     (q_disk st r <> None -> one_life os -> no_failed_dump r os -> q_disk (qstep st ev) r <> None /\ forall e a, In (QManifest r e a) os -> a <> LFailed) /\
     (forall x, In x os -> got r x -> os = [x] /\ q_disk (qstep st ev) r <> None)).
  { intros E' D. apply (Quiet []); [now rewrite app_nil_r|exact D|intros ? []|intros ? ? []]. }
  assert (Sv : forall sev, qstep st ev = serve st sev ->
     (q_disk st r <> None -> one_life os -> no_failed_dump r os -> q_disk (qstep st ev) r <> None /\ forall e a, In (QManifest r e a) os -> a <> LFailed) /\
     (forall x, In x os -> got r x -> os = [x] /\ q_disk (qstep st ev) r <> None)).
  { intros sev Q. eapply Quiet; [rewrite Q; reflexivity|rewrite Q; reflexivity| |].
    - intros x I [(e & ts & ->)|(p & ->)]; apply in_app_iff in I as [I|I]; apply in_map_iff in I as (? & ? & _); discriminate.
    - intros e a I. apply in_app_iff in I as [I|I]; apply in_map_iff in I as (? & ? & _); discriminate. }
  destruct ev as [ev|k ok now|j ok|j o|j ok|i o|same first]; cbn [qstep] in *.
  - destruct ev as [c| | | | |]; [destruct c|..]; try (now apply None_); eapply Sv; reflexivity.
  - destruct (nth_error (s_reqs (sv_core (q_server st))) k) as [[p []| |]|]; try (now apply None_). eapply Sv; reflexivity.
  - destruct (nth_error (q_jobs st) j) as [x|]; [|now apply None_]. destruct (j_pc x); [|now apply None_].
    apply (Quiet []); [reflexivity|reflexivity|intros ? []|intros ? ? []].
  - destruct (nth_error (q_jobs st) j) as [x|]; [|now apply None_]. destruct (j_pc x) as [|[] s]; try (now apply None_).
    destruct o; cbn [set_job q_log q_disk] in *; apply app_inv_head in E; subst os; (split;
      [intros D OL N; split; [|intros e a [X|[]]; discriminate]; rewrite fset_if; destruct (Nat.eqb_spec r (j_run x)) as [->|]; try discriminate; auto
      |intros y [<-|[]] [(e & ts & X)|(p & X)]; [discriminate|injection X as X1 X2; subst; split; auto; rewrite ?fset_eq; discriminate || discriminate]]).
    exfalso. apply (N (j_plan x)). left. reflexivity.
  - destruct (nth_error (q_jobs st) j) as [x|]; [|now apply None_]. destruct (j_pc x) as [|m []]; try (now apply None_).
    eapply Quiet; [reflexivity|reflexivity|intros y [<-|[]] [(e & ts & X)|(p & X)]; discriminate|intros e a [X|[]]; discriminate].
  - destruct (nth_error (q_loads st) i) as [[r0 e0]|] eqn:El; [|now apply None_].
    assert (G : forall disk a, q_log st ++ os = q_log st ++ [QManifest r0 e0 a] ->
       (disk r = q_disk st r \/ (disk r <> None /\ q_disk st r = None)) -> (r0 = r -> a <> LFailed \/ q_disk st r = None) -> (r0 = r -> a <> LFailed -> disk r <> None) ->
       (q_disk st r <> None -> one_life os -> no_failed_dump r os -> disk r <> None /\ forall e a, In (QManifest r e a) os -> a <> LFailed) /\
       (forall x, In x os -> got r x -> os = [x] /\ disk r <> None)).
    { intros disk a E1 D F K. apply app_inv_head in E1. subst os. split.
      - intros D0 _ _. split; [destruct D as [->|[_ D]]; [auto|congruence]|]. intros e a' [X|[]]. injection X as <- <- <-. destruct (F eq_refl); congruence.
      - intros y [<-|[]] [(e & ts & X)|(p & X)]; [|discriminate]. injection X as -> -> ->. split; auto. apply K; auto. discriminate. }
    assert (FS : forall v : mview, q_disk st r0 = None ->
       fset (q_disk st) r0 (Some v) r = q_disk st r \/ (fset (q_disk st) r0 (Some v) r <> None /\ q_disk st r = None)).
    { intros v D0. rewrite fset_if. destruct (Nat.eqb_spec r r0) as [->|]; [right; split; [discriminate|exact D0]|left; reflexivity]. }
    clear Quiet None_ Sv. destruct (q_disk st r0) as [v|] eqn:D0; [|destruct (q_manifests st r0) as [v|], o]; cbn [q_log q_disk] in *; symmetry in E; (eapply G; [exact E|..]);
      try (left; reflexivity); try (apply FS; reflexivity); try (intros <-; left; apply part_not_failed); try (intros <-; right; exact D0);
      intros <- NF; rewrite ?fset_eq; try discriminate; congruence.
  - cbn [q_log q_disk] in *. apply app_inv_head in E. subst os. split; [intros _ O; exfalso; apply O; left; reflexivity|].
    intros y [<-|[]] [(e & ts & X)|(p & X)]; discriminate.
Qed.

(* Once a process has stored the tests of a run, or has loaded them, it can give them to every
   worker that is told to have them loaded, whether the store answers or not, unless it fails to
   store them once more. *)
Theorem C83_tests_at_hand_stay_at_hand st l1 x l2 r e a : qreachable st -> q_log st = l1 ++ x :: l2 -> got r x ->
  one_life l2 -> no_failed_dump r l2 -> In (QManifest r e a) l2 -> a <> LFailed.
Proof.
  intros [es ->] H G O N I.
  cut (forall l1 x l2, q_log (run qstep (@qinit T M L) es) = l1 ++ x :: l2 -> got r x -> one_life l2 -> no_failed_dump r l2 ->
       q_disk (run qstep (@qinit T M L) es) r <> None /\ forall e a, In (QManifest r e a) l2 -> a <> LFailed).
  { intros K. exact (proj2 (K _ _ _ H G O N) e a I). }
  clear - es. induction es as [|ev es IH] using rev_ind; intros l1 x l2 H G O N.
  - destruct l1 as [|? [|]]; try discriminate. cbn in H. injection H as <- <-. destruct G as [(? & ? & ?)|(? & ?)]; discriminate.
  - rewrite run_snoc in *. destruct (qlog_step (run qstep qinit es) ev) as [os E]. destruct (disk_step _ _ r _ E) as [K1 K2].
    rewrite E in H. apply app_eq_app in H as (m & [[H1 H2]|[H1 H2]]).
    + destruct m as [|y m].
      * cbn in H2. subst os. destruct (K2 x (or_introl eq_refl) G) as [K3 K4]. injection K3 as ->. split; [exact K4|intros ? ? []].
      * cbn in H2. injection H2 as <- ->. destruct (IH _ _ _ H1 G) as [I1 I2].
        -- intros X. apply O. apply in_app_iff. auto.
        -- intros p X. apply (N p). apply in_app_iff. auto.
        -- destruct (K1 I1) as [K3 K4]; [intros X; apply O; apply in_app_iff; auto|intros p X; apply (N p); apply in_app_iff; auto|].
           split; auto. intros e a X. apply in_app_iff in X as [X|X]; eauto.
    + assert (X : In x os) by (rewrite H2; apply in_app_iff; right; left; reflexivity). destruct (K2 x X G) as [K3 K4]. rewrite K3 in H2.
      destruct m as [|? [|]]; try discriminate. cbn in H2. injection H2 as <-. split; [exact K4|intros ? ? []].
Qed.
End Props.

Section Examples.
Let w1 : entity := {| en_id := 1; en_tag := TRunner 0 1 |}.
Let for_run (e : entity) : find_params := {| fp_run := 0; fp_entity := e; fp_batch := 1; fp_strategy := ByTest; fp_hash := 0 |}.
Let sv (es : list (sevent nat unit nat)) : list (qevent nat unit nat) := map QServer es.
Let ask e k := sv (SCore (ENext 0 e) :: repeat (SCore (EQueueStep k)) 6 ++ [SCore (ENextFinish k); SCore (ENextFinish k)]).
Let opening : list (qevent nat unit nat) :=
  sv [SCore (EFind (for_run w1))] ++ [QConsult 0 true 0] ++ sv [SManifest 0 [(7, 0); (8, 1)] tt 100] ++ ask w1 1 ++ ask w1 2 ++ [QAnswered 0 true].
Let asks : list (qevent nat unit nat) := sv [SCore (ERetryManifest 0 w1)].

(* A process stores a run once, though the tasks are polled again, and gives the tests back
   although the store does not answer. *)
Example C83_once_example : let st := run qstep qinit (opening ++ [QDump 0 DOk; QStore 0 true; QDump 0 DOk; QStore 0 true] ++ asks ++ [QLoad 0 FNotLoaded]) in
  exists l1 p x y, skipn (length (q_log st) - 4) (q_log st) =
    [QManifestKept 0 p true; QStateKept 0 p true; QRun (ORetry 0 w1 RFetchFromPersistence); QManifest 0 w1 (LTests [x; y])] /\
    firstn (length (q_log st) - 4) (q_log st) = QStarted :: l1 /\ plans_made l1 = [(0, p)] /\ manifests_done l1 = [] /\ states_done l1 = [].
Proof.
  set (st := run _ _ _). vm_compute in st. subst st. do 4 eexists. split; [reflexivity|]. split; [reflexivity|]. repeat split; reflexivity.
Qed.
End Examples.

Print Assumptions C83_stored_at_most_once.
Print Assumptions C83_tests_at_hand_stay_at_hand.
