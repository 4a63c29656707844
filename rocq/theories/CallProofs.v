(* Proofs about the conversations of CallModel. *)
From Coq Require Import List Arith Bool NArith Lia.
Import ListNotations.
From Verif Require Import CallModel CallSpec.

Arguments N.mul : simpl never.
Arguments N.leb : simpl never.
Arguments N.pow : simpl never.
Arguments N.min : simpl never.

(* ------------------------------------------------------------------ *)
(* The side of the queue: all paths of its programs.                    *)

Definition updates (tr : list event) : list update := flat_map (fun e => match e with Updated u _ => [u] | _ => [] end) tr.

Ltac explore E :=
  cbn in E;
  match type of E with
  | _ /\ _ => destruct E as [-> ->]
  | _ \/ _ => let a := fresh "a" in let tr := fresh "tr" in
              destruct E as [[-> ->] | (a & tr & -> & E)]; [ | explore E ]
  | executes (if negb ?x then _ else _) _ _ => destruct x; explore E
  | executes (if Nat.eqb ?x ?y then _ else _) _ _ => destruct (Nat.eqb_spec x y); explore E
  | executes (match rq_message ?x with _ => _ end) _ _ => let M := fresh "M" in destruct (rq_message x) eqn:M; explore E
  | executes (match ?x with _ => _ end) _ _ => destruct x; explore E
  | executes (bind (match ?x with _ => _ end) _) _ _ => destruct x; explore E
  | executes ((match ?x with _ => _ end) _) _ _ => destruct x; explore E
  end.

Definition server_side (e : event) : bool :=
  match e with
  | Connected _ _ | Sent _ _ _ | Received _ _ | Slept _ | Accounted _ | ShownLocally _ | Chose _ => false
  | _ => true
  end.

(* what a server does for a request, if it gets to the end *)
Definition due (rq : request) : list update :=
  match rq_message rq with
  | CancelRun r => [MarkCancelled r (rq_entity rq)]
  | ManifestResult r (Manifest []) => [MarkEmptyManifest r; PersistSummary r 0]
  | ManifestResult r (Manifest tests) => [AddManifest r tests; PersistSummary r (length tests)]
  | ManifestResult r TestRunnerError => [MarkFailedManifest r]
  | WorkerResult r rs => [PlanResults r rs; PersistResults r rs]
  | WorkerRanAllTests r => [MarkWorkerComplete r (rq_entity rq)]
  | WantsToAttach iv => [ProgressTimeout (iv_run iv)]
  | PersistentWorkerNextTestsConnection r => [HandOutTests r (rq_entity rq)]
  | _ => []
  end.

Ltac forall_in := repeat match goal with H : In _ _ |- _ => destruct H as [<- | H] | H : False |- _ => destruct H end.

Lemma serve_side q s tr o : executes (serve q s) tr o -> forall e, In e tr -> server_side e = true.
Proof.
  intros E e IN. destruct s; cbn [serve] in E.
  all: unfold handle_main, handle_work, handle_negotiator, handle_manifest_result, handle_manifest_success, handle_manifest_empty_or_failure, handle_worker_results, handle_test_results_request, get_assigned_run in E.
  all: explore E; cbn in IN; repeat (destruct IN as [<- | IN]; [reflexivity|]); destruct IN.
Qed.

Ltac unfold_serve E :=
  cbn [serve] in E;
  unfold handle_main, handle_work, handle_negotiator, handle_manifest_result, handle_manifest_success, handle_manifest_empty_or_failure, handle_worker_results, handle_test_results_request, get_assigned_run in E.

(* a task reads one request, and works only for that *)
Lemma serve_updates q s tr o : executes (serve q s) tr o ->
  updates tr = [] \/ exists rq, In (GotRequest (Some rq)) tr /\ prefix (updates tr) (due rq).
Proof.
  intros E. destruct s; unfold_serve E.
  all: explore E; try (left; reflexivity).
  all: right; eexists; (split; [right; left; reflexivity|]).
  all: unfold due; repeat match goal with M : rq_message _ = _ |- _ => rewrite M end; cbn.
  all: try (exists []; reflexivity); eexists; reflexivity.
Qed.

Lemma serve_reads_one q s tr o rq rq' : executes (serve q s) tr o ->
  In (GotRequest (Some rq)) tr -> In (GotRequest (Some rq')) tr -> rq = rq'.
Proof.
  intros E I1 I2. destruct s; unfold_serve E.
  all: explore E; cbn in I1, I2;
    repeat match goal with
    | H : _ \/ _ |- _ => destruct H
    | H : False |- _ => destruct H
    | H : GotRequest (Some _) = GotRequest _ |- _ => injection H as ->
    | H : _ = GotRequest _ |- _ => discriminate H
    end; congruence.
Qed.

Definition telling (m : message) : bool :=
  match m with CancelRun _ | ManifestResult _ _ | WorkerResult _ _ | WorkerRanAllTests _ => true | _ => false end.

(* what was acknowledged is done, unless the task is stopped *)
Lemma serve_acknowledged q tr o rq r : executes (serve q MainServer) tr o ->
  In (GotRequest (Some rq)) tr -> telling (rq_message rq) = true -> In (Wrote r true) tr -> o <> Waiting ->
  exists u rest rest', due rq = u :: rest /\ updates tr = u :: rest'.
Proof.
  intros E IR T IW NW. unfold_serve E.
  explore E; cbn in IR, IW; try (exfalso; apply NW; reflexivity);
    repeat match goal with
    | H : _ \/ _ |- _ => destruct H
    | H : False |- _ => destruct H
    | H : GotRequest (Some _) = GotRequest _ |- _ => injection H as ->
    | H : _ = GotRequest _ |- _ => discriminate H
    | H : Updated _ _ = Wrote _ _ |- _ => discriminate H
    | H : GotRequest _ = Wrote _ _ |- _ => discriminate H
    | H : Shook _ = Wrote _ _ |- _ => discriminate H
    | H : Closed _ = Wrote _ _ |- _ => discriminate H
    | H : Wrote _ false = Wrote _ true |- _ => discriminate H
    end; subst.
  all: try (match goal with M : rq_message _ = _, T : telling _ = true |- _ => rewrite M in T; discriminate T end).
  all: unfold due; repeat match goal with M : rq_message _ = _ |- _ => rewrite M end; cbn.
  all: do 3 eexists; split; reflexivity.
Qed.

(* results are accounted for before they are acknowledged, and stored whether or not the
   acknowledgement could be written *)
Lemma serve_results q tr o rq run results : executes (serve q MainServer) tr o ->
  In (GotRequest (Some rq)) tr -> rq_message rq = WorkerResult run results ->
  (forall r ok, In (Wrote r ok) tr -> exists found, In (Updated (PlanResults run results) found) tr) /\
  (o <> Waiting -> updates tr = [PlanResults run results; PersistResults run results] \/
                   In (Updated (PlanResults run results) false) tr).
Proof.
  intros E IR M'. unfold_serve E.
  explore E; cbn in IR;
    repeat match goal with
    | H : _ \/ _ |- _ => destruct H
    | H : False |- _ => destruct H
    | H : GotRequest (Some _) = GotRequest _ |- _ => injection H as ->
    | H : _ = GotRequest _ |- _ => discriminate H
    end; try congruence.
  all: try (match goal with M : rq_message ?x = _, M' : rq_message ?x = _ |- _ => rewrite M in M'; try discriminate M' end).
  all: try (injection M' as -> ->).
  all: split.
  all: try (intros NW; exfalso; apply NW; reflexivity).
  all: try (intros r ok I; cbn in I; eexists; cbn; tauto).
  all: try (intros r ok I; cbn in I; repeat (destruct I as [I | I]; [discriminate I|]); destruct I).
  all: intros _; cbn; tauto.
Qed.

(* what is written is the answer to what was read *)
Definition fits (q : queue) (tr : list event) (rq : request) (r : response) : Prop :=
  match r with
  | Init x => exists run, rq_message rq = InitContext run /\ In (SawInit run (rq_entity rq) x) tr
  | Retry x => exists run e s, rq_message rq = RetryManifestPartition run e /\ In (SawRetryManifest run e s) tr /\
                 (x = NotYetPersisted \/ answer_of_retry s None x \/ exists l, In (LoadedPartition run e l) tr /\ answer_of_retry s (Some l) x)
  | Attach x => exists iv s, rq_message rq = WantsToAttach iv /\ In (FoundRun (rq_entity rq) iv s) tr /\
                 (x = NotYetKnown \/ match s with
                  | RunUnknown => False
                  | Run k d => x = ExecutionContext {| x_work := q_advertised_work_addr q; x_results := q_advertised_results_addr q; x_assigned := (k, d) |}
                  | AlreadyDone code => x = RunAlreadyCompleted code
                  | Cancelled reason => x = RunCancelled reason
                  | FatalError e => x = AttachFatal e
                  end)
  | TheNegotiator a v => a = q_public_negotiator_addr q /\ v = q_version q
  | Health healthy v => healthy = true /\ v = q_version q
  | Results x => exists run, rq_message rq = TestResults run /\ In (SawResults run x) tr
  | _ => True
  end.
Lemma serve_writes q s tr o r ok : executes (serve q s) tr o -> In (Wrote r ok) tr ->
  exists rq, In (GotRequest (Some rq)) tr /\ fits q tr rq r.
Proof.
  intros E IW. destruct s; unfold_serve E.
  all: explore E; cbn in IW;
    repeat match goal with
    | H : _ \/ _ |- _ => destruct H
    | H : False |- _ => destruct H
    | H : Wrote _ _ = Wrote _ _ |- _ => injection H as <- <-
    | H : _ = Wrote _ _ |- _ => discriminate H
    end.
  all: eexists; (split; [right; left; reflexivity|]); cbn.
  all: repeat match goal with |- exists _, _ => eexists end.
  all: try (split; [eassumption|]).
  all: try tauto.
  all: try (cbn; intuition eauto; fail).
  all: split; [right; right; left; reflexivity|].
  all: right; try (left; reflexivity).
  all: right; eexists; split; [do 3 right; left; reflexivity|]; cbn; eauto.
Qed.

Lemma serve_not_yet q s tr o ok : executes (serve q s) tr o -> In (Wrote (Attach NotYetKnown) ok) tr -> updates tr = [].
Proof.
  intros E IW. destruct s; unfold_serve E.
  all: explore E; cbn in IW;
    repeat match goal with
    | H : _ \/ _ |- _ => destruct H
    | H : False |- _ => destruct H
    | H : Wrote _ _ = Wrote _ _ |- _ => first [discriminate H | clear H]
    | H : _ = Wrote _ _ |- _ => discriminate H
    end; reflexivity.
Qed.

(* a request that its server knows gets one answer *)
Lemma serve_one_write q k tr o : executes (serve q (server_for k)) tr o -> o <> Waiting ->
  In (GotRequest (Some (speaks k))) tr -> count is_write tr = 1.
Proof.
  intros E NW IR.
  destruct k as [| | | | | | | | kind |]; cbn [server_for] in E; try destruct kind; unfold_serve E.
  all: explore E; try (exfalso; apply NW; reflexivity); cbn in IR;
    repeat match goal with
    | H : _ \/ _ |- _ => destruct H
    | H : False |- _ => destruct H
    | H : GotRequest (Some _) = GotRequest _ |- _ => injection H as ->
    | H : _ = GotRequest _ |- _ => discriminate H
    end; cbn in *; try discriminate; reflexivity.
Qed.

(* ------------------------------------------------------------------ *)
(* The calling side: its traces are turns.                              *)

Lemma executes_bind A B (p : program A) (f : A -> program B) tr o : executes (bind p f) tr o ->
  (exists tr1 tr2 x, tr = tr1 ++ tr2 /\ executes p tr1 (Done x) /\ executes (f x) tr2 o) \/
  (executes p tr Waiting /\ o = Waiting) \/ (executes p tr Panicked /\ o = Panicked).
Proof.
  revert tr. induction p as [x | | e k IH]; intros tr E.
  - left. exists [], tr, x. cbn. auto.
  - right; right. cbn in *. destruct E. auto.
  - cbn in E. destruct E as [[-> ->] | (x & tr' & -> & E)].
    + right; left. cbn. auto.
    + destruct (IH _ _ E) as [(t1 & t2 & y & -> & E1 & E2) | [[E1 ->] | [E1 ->]]].
      * left. exists (ev e x :: t1), t2, y. split; [reflexivity|]. split; [|exact E2]. cbn. right. eauto.
      * right; left. split; [|reflexivity]. cbn. right. eauto.
      * right; right. split; [|reflexivity]. cbn. right. eauto.
Qed.

(* [misses d n a]: [n] attempts to connect that fail, with pauses *)
Fixpoint misses (d : N) (n : nat) (a : address) : list event :=
  match n with 0 => [] | S n' => Connected a None :: Slept d :: misses d n' a end.

Lemma retry_connect d a : forall left n tr o,
  executes (retry_loop left d (fun _ => ask (Connect a)) n) tr o ->
  exists m, m <= left /\
    ((tr = misses d m a /\ o = Waiting) \/
     (tr = misses d m a ++ [Connected a None] /\ ((m < left /\ o = Waiting) \/ (m = left /\ o = Done None))) \/
     (exists i, tr = misses d m a ++ [Connected a (Some i)] /\ o = Done (Some i))).
Proof.
  induction left as [|left IH]; intros n tr o E; cbn in E.
  - destruct E as [[-> ->] | (x & tr' & -> & E)]; [exists 0; split; [lia|]; left; auto|].
    destruct x as [i|]; cbn in E; destruct E as [-> ->]; exists 0; (split; [lia|]).
    + right; right; exists i; split; reflexivity.
    + right; left; split; [reflexivity | right; auto].
  - destruct E as [[-> ->] | (x & tr' & -> & E)]; [exists 0; split; [lia|]; left; auto|].
    destruct x as [i|]; cbn in E.
    + destruct E as [-> ->]. exists 0; split; [lia|]. right; right; exists i; split; reflexivity.
    + destruct E as [[-> ->] | ([] & tr'' & -> & E)].
      * exists 0; split; [lia|]. right; left; split; [reflexivity|]. left. split; [lia|reflexivity].
      * destruct (IH _ _ _ E) as (m & LE & C). exists (S m). split; [lia|].
        destruct C as [[-> ->] | [[-> C] | (i & -> & ->)]].
        -- left; auto.
        -- right; left. split; [reflexivity|]. destruct C as [[L ->] | [-> ->]]; [left; split; [lia|reflexivity] | right; auto].
        -- right; right. exists i. auto.
Qed.

Section Asking.
Variable (a : address) (rq : request) (waits : response -> bool) (reconnect : bool) (ps : nat -> N).

(* the [n]th turn and all that come after it *)
Inductive asking : nat -> list event -> Prop :=
| A_nothing n : asking n []
| A_miss n : asking n [Connected a None]
| A_reconnect n tr : reconnect = true -> asking n tr -> asking n (Connected a None :: Slept 3000 :: tr)
| A_open n i : asking n [Connected a (Some i)]
| A_sent n i ok : asking n [Connected a (Some i); Sent i rq ok]
| A_received n i r : asking n [Connected a (Some i); Sent i rq true; Received i r]
| A_again n i r tr : waits r = true -> asking (n + 1) tr ->
    asking n (Connected a (Some i) :: Sent i rq true :: Received i (Some r) :: Slept (ps n) :: tr).

Lemma asking_misses m n tr : reconnect = true -> asking n tr -> asking n (misses 3000 m a ++ tr).
Proof. intros R A. induction m as [|m IH]; cbn; [exact A|]. apply A_reconnect; auto. Qed.

Lemma asking_connect left k n tr o : reconnect = true ->
  executes (retry_loop left 3000 (fun _ => ask (Connect a)) k) tr o ->
  (o = Waiting /\ asking n tr) \/
  (o = Done None /\ asking n tr /\ tr = misses 3000 left a ++ [Connected a None]) \/
  (exists i m, o = Done (Some i) /\ tr = misses 3000 m a ++ [Connected a (Some i)] /\ m <= left).
Proof.
  intros R E. destruct (retry_connect _ _ _ _ _ _ E) as (m & LE & [[-> ->] | [[-> C] | (i & -> & ->)]]).
  - left. split; [reflexivity|]. rewrite <- (app_nil_r (misses _ _ _)). apply asking_misses; [exact R | constructor].
  - destruct C as [[L ->] | [-> ->]].
    + left. split; [reflexivity|]. apply asking_misses; [exact R | constructor].
    + right; left. split; [reflexivity|]. split; [|reflexivity]. apply asking_misses; [exact R | constructor].
  - right; right. eauto.
Qed.
End Asking.

Notation networked := on_the_network.

(* the four calls that tell something, as one *)
Definition tell (a : address) (rq : request) : program result :=
  let* stream := async_retry_n 5 3000 (fun _ => ask (Connect a)) in
  match stream with
  | None => Panic
  | Some c =>
      let* w := ask (Send c rq) in
      if negb w then Panic else
      let* r := ask (Receive c) in
      match r with Some _ => Return RTold | None => Panic end
  end.

Definition no_wait (_ : response) := false.

Lemma tell_shape a rq tr o : executes (tell a rq) tr o ->
  asking a rq no_wait true (fun _ => 3000%N) 0 tr /\
  match o with
  | Waiting => True
  | Done r => r = RTold /\ exists m i x, m <= 4 /\ tr = misses 3000 m a ++ [Connected a (Some i); Sent i rq true; Received i (Some x)]
  | Panicked => tr = misses 3000 4 a ++ [Connected a None] \/
                exists m i, m <= 4 /\ (tr = misses 3000 m a ++ [Connected a (Some i); Sent i rq false] \/
                             tr = misses 3000 m a ++ [Connected a (Some i); Sent i rq true; Received i None])
  end.
Proof.
  intros E. unfold tell in E. apply executes_bind in E.
  destruct E as [(t1 & t2 & x & -> & E1 & E2) | [[E1 ->] | [E1 ->]]].
  - destruct (asking_connect a rq no_wait true (fun _ => 3000%N) _ _ 0 _ _ eq_refl E1) as [[C _] | [(C & A & ->) | (i & m & C & -> & LE)]].
    + discriminate.
    + injection C as ->. cbn in E2. destruct E2 as [-> ->]. rewrite app_nil_r. split; [exact A|]. left; reflexivity.
    + injection C as ->. cbn in E2. rewrite <- app_assoc.
      destruct E2 as [[-> ->] | ([] & t & -> & E2)]; [|cbn in E2|cbn in E2].
      * split; [|exact I]. apply asking_misses; [reflexivity|]. constructor.
      * destruct E2 as [[-> ->] | ([x|] & t' & -> & E2)]; [|cbn in E2|cbn in E2].
        -- split; [|exact I]. apply asking_misses; [reflexivity|]. cbn. constructor.
        -- destruct E2 as [-> ->]. split; [apply asking_misses; [reflexivity|]; cbn; constructor|]. split; [reflexivity|]. exists m, i, x. auto.
        -- destruct E2 as [-> ->]. split; [apply asking_misses; [reflexivity|]; cbn; constructor|]. right. exists m, i. auto.
      * destruct E2 as [-> ->]. split; [apply asking_misses; [reflexivity|]; cbn; constructor|]. right. exists m, i. auto.
  - destruct (asking_connect a rq no_wait true (fun _ => 3000%N) _ _ 0 _ _ eq_refl E1) as [[_ A] | [(C & _) | (i & m & C & _)]]; try discriminate. auto.
  - destruct (asking_connect a rq no_wait true (fun _ => 3000%N) _ _ 0 _ _ eq_refl E1) as [[C _] | [(C & _) | (i & m & C & _)]]; discriminate.
Qed.

Lemma asking_networked a rq w r ps n tr : asking a rq w r ps n tr -> filter networked tr = tr.
Proof. induction 1; cbn; congruence. Qed.
Lemma networked_in tr : filter networked tr = tr -> forall e, In e tr -> networked e = true.
Proof. intros F e I. rewrite <- F in I. apply filter_In in I. tauto. Qed.
Lemma count_app f tr tr' : count f (tr ++ tr') = count f tr + count f tr'.
Proof. unfold count. now rewrite filter_app, app_length. Qed.
Lemma count_none f tr : (forall e, In e tr -> f e = false) -> count f tr = 0.
Proof.
  unfold count. induction tr as [|e tr IH]; intros H; [reflexivity|]. cbn.
  rewrite (H e (or_introl eq_refl)). apply IH. intros e' I. apply H. right; exact I.
Qed.

Ltac members := let x := fresh in let C := fresh in intros x C; cbn in C;
  repeat match goal with H : _ \/ _ |- _ => destruct H | H : False |- _ => destruct H end; congruence.

(* the parts of a trace of [send_results] *)
Lemma results_shape s e r rs a tr o : executes (send_results s e r rs a) tr o ->
  let rq := {| rq_entity := e; rq_message := WorkerResult r rs |} in
  (s = false /\ filter networked tr = [] /\ o <> Panicked \/
   s = true /\ exists o', executes (tell a rq) (filter networked tr) o' /\ (o' = o \/ o = Waiting)) /\
  (forall x, In (Accounted x) tr -> x = rs) /\ (forall x, In (ShownLocally x) tr -> x = rs) /\
  match o with Done x => x = RTold /\ count is_accounted tr = 1 /\ count is_shown tr = 1 | _ => count is_accounted tr <= 1 /\ count is_shown tr <= 1 end.
Proof.
  intros E rq. unfold send_results in E.
  assert (T0 : executes (tell a rq) [] Waiting) by (left; auto).
  cbn [bind ask executes] in E.
  destruct E as [[-> ->] | ([] & t & -> & E)].
  { split; [|cbn; repeat split; try lia; tauto]. destruct s; [right; split; [reflexivity|]; exists Waiting; auto | left; repeat split; discriminate]. }
  destruct s.
  2:{ cbn in E. destruct E as [[-> ->] | ([] & t' & -> & [-> ->])]; (split; [left; repeat split; discriminate|]); cbn.
      - repeat split; try lia; members.
      - repeat split; members. }
  cbn [bind ask executes] in E.
  destruct E as [[-> ->] | ([] & t' & -> & E)].
  { split; [right; split; [reflexivity|]; exists Waiting; auto|]. cbn. repeat split; try lia; members. }
  - apply executes_bind in E.
    assert (SH : forall t o', executes (send_results_to_queue e r rs a) t o' -> filter networked t = t /\ count is_accounted t = 0 /\ count is_shown t = 0).
    { intros t o' E'. change (executes (tell a rq) t o') in E'. apply tell_shape in E'. destruct E' as [A _]. pose proof (asking_networked _ _ _ _ _ _ _ A) as F.
      split; [exact F|]. pose proof (networked_in _ F) as NI. split; apply count_none; intros x I; apply NI in I; destruct x; (reflexivity || discriminate I). }
    assert (NE : forall t o', executes (send_results_to_queue e r rs a) t o' -> forall y, networked y = false -> ~ In y t).
    { intros t o' E' y Ny I. destruct (SH _ _ E') as [F _]. apply (networked_in _ F) in I. congruence. }
    destruct E as [(t1 & t2 & x & -> & E1 & E2) | [[E1 ->] | [E1 ->]]].
    + destruct (SH _ _ E1) as (F & C1 & C2). pose proof (NE _ _ E1) as N1.
      assert (R : x = RTold) by (change (executes (tell a rq) t1 (Done x)) in E1; apply tell_shape in E1; destruct E1 as [_ [-> _]]; reflexivity). subst x.
      cbn in E2. destruct E2 as [[-> ->] | ([] & t & -> & [-> ->])].
      * rewrite app_nil_r. split; [right; split; [reflexivity|]; exists (Done RTold); cbn; rewrite F; auto|].
        cbn. split; [|split].
        -- intros y [C | [C | C]]; try discriminate C; [congruence | exfalso; refine (N1 _ _ C); reflexivity].
        -- intros y [C | [C | C]]; try discriminate C. exfalso; refine (N1 _ _ C); reflexivity.
        -- unfold count in *; cbn. lia.
      * split; [right; split; [reflexivity|]; exists (Done RTold); cbn; rewrite filter_app, F; cbn; rewrite app_nil_r; auto|].
        cbn. split; [|split].
        -- intros y [C | [C | C]]; try discriminate C; [congruence |]. apply in_app_or in C. destruct C as [C | [C | []]]; [exfalso; refine (N1 _ _ C); reflexivity | discriminate C].
        -- intros y [C | [C | C]]; try discriminate C. apply in_app_or in C. destruct C as [C | [C | []]]; [exfalso; refine (N1 _ _ C); reflexivity | congruence].
        -- unfold count in *; cbn. rewrite !filter_app, !app_length. cbn. split; [reflexivity|]. lia.
    + destruct (SH _ _ E1) as (F & C1 & C2). pose proof (NE _ _ E1) as N1.
      split; [right; split; [reflexivity|]; exists Waiting; cbn; rewrite F; auto|].
      cbn. split; [|split].
      * intros y [C | [C | C]]; try discriminate C; [congruence | exfalso; refine (N1 _ _ C); reflexivity].
      * intros y [C | [C | C]]; try discriminate C. exfalso; refine (N1 _ _ C); reflexivity.
      * unfold count in *; cbn. lia.
    + destruct (SH _ _ E1) as (F & C1 & C2). pose proof (NE _ _ E1) as N1.
      split; [right; split; [reflexivity|]; exists Panicked; cbn; rewrite F; auto|].
      cbn. split; [|split].
      * intros y [C | [C | C]]; try discriminate C; [congruence | exfalso; refine (N1 _ _ C); reflexivity].
      * intros y [C | [C | C]]; try discriminate C. exfalso; refine (N1 _ _ C); reflexivity.
      * unfold count in *; cbn. lia.
  - cbn [bind ask executes] in E. destruct E as [[-> ->] | ([] & t & -> & E)].
    { split; [right; split; [reflexivity|]; exists Waiting; auto|]. cbn. repeat split; try lia; members. }
    change (executes (tell a rq) t o) in E.
    pose proof (tell_shape _ _ _ _ E) as [A O]. pose proof (asking_networked _ _ _ _ _ _ _ A) as F. pose proof (networked_in _ F) as NI.
    assert (C1 : count is_accounted t = 0) by (apply count_none; intros x I; apply NI in I; destruct x; (reflexivity || discriminate I)).
    assert (C2 : count is_shown t = 0) by (apply count_none; intros x I; apply NI in I; destruct x; (reflexivity || discriminate I)).
    split; [right; split; [reflexivity|]; exists o; cbn; rewrite F; auto|]. cbn. split; [|split].
    + intros y [C | [C | [C | C]]]; try discriminate C; [congruence|]. apply NI in C; discriminate C.
    + intros y [C | [C | [C | C]]]; try discriminate C; [congruence|]. apply NI in C; discriminate C.
    + unfold count in *. destruct o; cbn; try lia. destruct O as [-> _]. split; [reflexivity|]. lia.
Qed.

Definition reconnects (k : call) : bool :=
  match k with TellRanAll _ _ | TellManifest _ _ _ | TellCancel _ _ | TellResults _ _ _ _ | AskRetryManifest _ _ | AskResults _ _ _ => true | _ => false end.

Lemma next_pause n : next_decay (N.min (10 * 2 ^ N.of_nat n) 3000) = N.min (10 * 2 ^ N.of_nat (n + 1)) 3000.
Proof.
  unfold next_decay. rewrite Nat2N.inj_add, N.pow_add_r. change (2 ^ N.of_nat 1)%N with 2%N.
  set (p := (2 ^ N.of_nat n)%N). destruct (N.leb_spec 3000 (N.min (10 * p) 3000 * 2)); lia.
Qed.

Definition received (tr : list event) (r : response) : Prop := exists i, In (Received i (Some r)) tr.
Lemma received_app tr tr' r : received tr' r -> received (tr ++ tr') r.
Proof. intros [i I]. exists i. apply in_or_app. right; exact I. Qed.

(* one turn of a call that asks, after the connection *)
Lemma init_shape run e a turns : forall n tr o,
  executes (get_init_context turns (N.min (10 * 2 ^ N.of_nat n) 3000) run e a) tr o ->
  asking a {| rq_entity := e; rq_message := InitContext run |} (told_to_wait (AskInit turns e run)) false (pause (AskInit turns e run)) n tr /\
  count is_send tr <= turns /\
  match o with
  | Waiting => True
  | Panicked => False
  | Done (RInit x) => x <> WaitingForManifest /\ received tr (Init x)
  | Done RIoError | Done RAsking => True
  | _ => False
  end.
Proof.
  induction turns as [|turns IH]; intros n tr o E.
  - cbn in E. destruct E as [-> ->]. split; [constructor|]. auto.
  - cbn in E. destruct E as [[-> ->] | ([i|] & t & -> & E)]; [split; [constructor|]; cbn; split; [lia|auto] | |].
    2:{ cbn in E. destruct E as [-> ->]. split; [constructor|]. cbn; split; [lia|auto]. }
    cbn in E. destruct E as [[-> ->] | (b & t' & -> & E)]; [split; [constructor|]; cbn; split; [lia|auto] |].
    destruct b; cbn in E.
    2:{ destruct E as [-> ->]. split; [constructor|]. cbn; split; [lia|auto]. }
    destruct E as [[-> ->] | (r & t'' & -> & E)]; [split; [constructor|]; cbn; split; [lia|auto] |].
    assert (X : (exists t3, r = Some (Init WaitingForManifest) /\ t'' = Slept (N.min (10 * 2 ^ N.of_nat n) 3000) :: t3 /\
                   executes (get_init_context turns (next_decay (N.min (10 * 2 ^ N.of_nat n) 3000)) run e a) t3 o) \/
                t'' = [] /\ match o with Waiting => True | Done (RInit x) => r = Some (Init x) /\ x <> WaitingForManifest | Done RIoError => True | _ => False end).
    { destruct r as [[ | | | | | | | | | [ | | ] | | ]|]; cbn in E; try (destruct E as [-> ->]; right; split; [reflexivity|]; cbn; auto; (split; [reflexivity | discriminate])).
      destruct E as [[-> ->] | ([] & t3 & -> & E)]; [right; auto | left; exists t3; auto]. }
    destruct X as [(t3 & -> & -> & E3) | [-> O]].
    + rewrite next_pause in E3. destruct (IH _ _ _ E3) as (A & C & O). split.
      * apply A_again; [reflexivity | exact A].
      * split; [unfold count in *; cbn in *; lia|].
        destruct o as [|x|]; auto. destruct x; auto. destruct O as [NW (j & I)]. split; [exact NW|]. exists j. cbn. auto.
    + split; [constructor|]. cbn. split; [lia|]. destruct o as [|x|]; auto. destruct x; auto. destruct O as [-> NW]. split; [exact NW|]. exists i. cbn. auto.
Qed.

Lemma attach_shape e iv a turns : forall n tr o,
  executes (attach turns (N.min (10 * 2 ^ N.of_nat n) 3000) e iv a) tr o ->
  asking a {| rq_entity := e; rq_message := WantsToAttach iv |} (told_to_wait (AskAttach turns e iv)) false (pause (AskAttach turns e iv)) n tr /\
  count is_send tr <= turns /\
  match o with
  | Waiting => True
  | Panicked => False
  | Done (RAttach x) => x <> NotYetKnown /\ received tr (Attach x)
  | Done RIoError | Done RAsking => True
  | _ => False
  end.
Proof.
  induction turns as [|turns IH]; intros n tr o E.
  - cbn in E. destruct E as [-> ->]. split; [constructor|]. auto.
  - cbn in E. destruct E as [[-> ->] | ([i|] & t & -> & E)]; [split; [constructor|]; cbn; split; [lia|auto] | |].
    2:{ cbn in E. destruct E as [-> ->]. split; [constructor|]. cbn; split; [lia|auto]. }
    cbn in E. destruct E as [[-> ->] | (b & t' & -> & E)]; [split; [constructor|]; cbn; split; [lia|auto] |].
    destruct b; cbn in E.
    2:{ destruct E as [-> ->]. split; [constructor|]. cbn; split; [lia|auto]. }
    destruct E as [[-> ->] | (r & t'' & -> & E)]; [split; [constructor|]; cbn; split; [lia|auto] |].
    assert (X : (exists t3, r = Some (Attach NotYetKnown) /\ t'' = Slept (N.min (10 * 2 ^ N.of_nat n) 3000) :: t3 /\
                   executes (attach turns (next_decay (N.min (10 * 2 ^ N.of_nat n) 3000)) e iv a) t3 o) \/
                t'' = [] /\ match o with Waiting => True | Done (RAttach x) => r = Some (Attach x) /\ x <> NotYetKnown | Done RIoError => True | _ => False end).
    { destruct r as [[ | | | | | | | | | | | [ | | | | ] ]|]; cbn in E; try (destruct E as [-> ->]; right; split; [reflexivity|]; cbn; auto; (split; [reflexivity | discriminate])).
      destruct E as [[-> ->] | ([] & t3 & -> & E)]; [right; auto | left; exists t3; auto]. }
    destruct X as [(t3 & -> & -> & E3) | [-> O]].
    + rewrite next_pause in E3. destruct (IH _ _ _ E3) as (A & C & O). split.
      * apply A_again; [reflexivity | exact A].
      * split; [unfold count in *; cbn in *; lia|].
        destruct o as [|x|]; auto. destruct x; auto. destruct O as [NW (j & I)]. split; [exact NW|]. exists j. cbn. auto.
    + split; [constructor|]. cbn. split; [lia|]. destruct o as [|x|]; auto. destruct x; auto. destruct O as [-> NW]. split; [exact NW|]. exists i. cbn. auto.
Qed.

Lemma count_misses f d m a : f (Connected a None) = false -> f (Slept d) = false -> count f (misses d m a) = 0.
Proof. intros H1 H2. apply count_none. induction m as [|m IH]; cbn; [tauto|]. intros e [<- | [<- | I]]; auto. Qed.

Lemma results_asked_shape e run a turns : forall n tr o,
  executes (wait_for_results turns e run a) tr o ->
  asking a {| rq_entity := e; rq_message := TestResults run |} (told_to_wait (AskResults turns e run)) true (pause (AskResults turns e run)) n tr /\
  count is_send tr <= turns /\
  match o with
  | Waiting => True
  | Panicked => False
  | Done (RResults x) => x <> ResultsPending /\ received tr (Results x)
  | Done RIoError | Done RAsking => True
  | _ => False
  end.
Proof.
  induction turns as [|turns IH]; intros n tr o E.
  - cbn in E. destruct E as [-> ->]. split; [constructor|]. auto.
  - cbn [wait_for_results] in E. apply executes_bind in E.
    destruct E as [(t1 & t2 & x & -> & E1 & E2) | [[E1 ->] | [E1 ->]]].
    2:{ pose proof (retry_connect _ _ _ _ _ _ E1) as RC.
        eapply (asking_connect a _ _ true _ _ _ n) in E1; [|reflexivity].
        destruct E1 as [[_ A] | [(C & _) | (i & m & C & _)]]; try discriminate. split; [exact A|]. split; [|exact I].
        destruct RC as (m & _ & [[-> _] | [[-> _] | (i & _ & C)]]); [| |discriminate C]; rewrite ?count_app, count_misses; auto; cbn; lia. }
    2:{ eapply (asking_connect a {| rq_entity := 0; rq_message := HealthCheck |} no_wait true (fun _ => 0%N) _ _ n) in E1; [|reflexivity].
        destruct E1 as [[C _] | [(C & _) | (i & m & C & _)]]; discriminate. }
    eapply (asking_connect a {| rq_entity := e; rq_message := TestResults run |} (told_to_wait (AskResults (S turns) e run)) true (pause (AskResults (S turns) e run)) _ _ n) in E1; [|reflexivity].
    destruct E1 as [[C _] | [(C & A & ->) | (i & m & C & -> & LE)]]; [discriminate | |]; injection C as ->.
    { cbn in E2. destruct E2 as [-> ->]. rewrite app_nil_r. split; [exact A|]. rewrite count_app, count_misses by reflexivity. cbn. split; [lia|auto]. }
    rewrite <- app_assoc. cbn [app].
    assert (GO : forall t, asking a {| rq_entity := e; rq_message := TestResults run |} (told_to_wait (AskResults (S turns) e run)) true (pause (AskResults (S turns) e run)) n (Connected a (Some i) :: t) /\ count is_send t <= S turns /\
        match o with Waiting => True | Panicked => False | Done (RResults x) => x <> ResultsPending /\ received t (Results x) | Done RIoError | Done RAsking => True | _ => False end ->
        asking a {| rq_entity := e; rq_message := TestResults run |} (told_to_wait (AskResults (S turns) e run)) true (pause (AskResults (S turns) e run)) n (misses 3000 m a ++ Connected a (Some i) :: t) /\
        count is_send (misses 3000 m a ++ Connected a (Some i) :: t) <= S turns /\
        match o with Waiting => True | Panicked => False | Done (RResults x) => x <> ResultsPending /\ received (misses 3000 m a ++ Connected a (Some i) :: t) (Results x) | Done RIoError | Done RAsking => True | _ => False end).
    { intros t (H1 & H2 & H3). split; [apply asking_misses; [reflexivity | exact H1]|]. rewrite count_app, count_misses by reflexivity. split; [exact H2|].
      destruct o as [|x|]; auto. destruct x; auto. destruct H3 as [NW H3]. split; [exact NW|]. apply received_app. destruct H3 as [j I]. exists j. right; exact I. }
    apply GO. clear GO.
    cbn in E2. destruct E2 as [[-> ->] | (b & t' & -> & E)]; [split; [constructor|]; cbn; split; [lia|auto] |].
    destruct b; cbn in E.
    2:{ destruct E as [-> ->]. split; [constructor|]. cbn; split; [lia|auto]. }
    destruct E as [[-> ->] | (r & t'' & -> & E)]; [split; [constructor|]; cbn; split; [lia|auto] |].
    assert (X : (exists t3, r = Some (Results ResultsPending) /\ t'' = Slept 2000 :: t3 /\ executes (wait_for_results turns e run a) t3 o) \/
                t'' = [] /\ match o with Waiting => True | Done (RResults x) => r = Some (Results x) /\ x <> ResultsPending | Done RIoError => True | _ => False end).
    { destruct r as [[ | | | | | | | [ | | | ] | | | | ]|]; cbn in E; try (destruct E as [-> ->]; right; split; [reflexivity|]; cbn; auto; (split; [reflexivity | discriminate])).
      destruct E as [[-> ->] | ([] & t3 & -> & E)]; [right; auto | left; exists t3; auto]. }
    destruct X as [(t3 & -> & -> & E3) | [-> O]].
    + destruct (IH (n + 1) _ _ E3) as (A & C & O). split.
      * apply A_again; [reflexivity | exact A].
      * split; [unfold count in *; cbn in *; lia|].
        destruct o as [|x|]; auto. destruct x; auto. destruct O as [NW (j & I)]. split; [exact NW|]. exists j. cbn. auto.
    + split; [constructor|]. cbn. split; [lia|]. destruct o as [|x|]; auto. destruct x; auto. destruct O as [-> NW]. split; [exact NW|]. exists i. cbn. auto.
Qed.

(* why a call that does not return an error gives up *)
Definition gave_up (a : address) (rq : request) (tr : list event) : Prop :=
  (exists tr0, tr = tr0 ++ misses 3000 4 a ++ [Connected a None]) \/
  (exists i, In (Connected a (Some i)) tr /\ In (Sent i rq false) tr) \/
  (exists i r, In (Connected a (Some i)) tr /\ In (Received i r) tr /\ (r = None \/ exists x, r = Some x /\ match x with Retry _ => False | _ => True end)).
Lemma gave_up_app a rq tr0 tr : gave_up a rq tr -> gave_up a rq (tr0 ++ tr).
Proof.
  intros [[t ->] | [(i & I1 & I2) | (i & r & I1 & I2 & C)]].
  - left. exists (tr0 ++ t). now rewrite app_assoc.
  - right; left. exists i. split; apply in_or_app; auto.
  - right; right. exists i, r. split; [|split]; try (apply in_or_app; auto). exact C.
Qed.

Definition retry_waits (r : response) : bool := match r with Retry NotYetPersisted => true | _ => false end.

Lemma fetch_once e run a tr o : executes (try_fetch_manifest e run a) tr o ->
  let rq := {| rq_entity := e; rq_message := RetryManifestPartition run e |} in
  match o with
  | Waiting => forall n, asking a rq retry_waits true (fun _ => 3000%N) n tr /\ count is_send tr <= 1
  | Panicked => gave_up a rq tr /\ forall n, asking a rq retry_waits true (fun _ => 3000%N) n tr /\ count is_send tr <= 1
  | Done x => exists m i r, m <= 4 /\ tr = misses 3000 m a ++ [Connected a (Some i); Sent i rq true; Received i (Some (Retry r))] /\
                x = match r with NotYetPersisted => None | _ => Some (RRetry r) end
  end.
Proof.
  intros E rq. unfold try_fetch_manifest in E. apply executes_bind in E.
  destruct E as [(t1 & t2 & x & -> & E1 & E2) | [[E1 ->] | [E1 ->]]].
  2:{ pose proof (retry_connect _ _ _ _ _ _ E1) as RC. intros n.
      eapply (asking_connect a rq retry_waits true (fun _ => 3000%N) _ _ n) in E1; [|reflexivity].
      destruct E1 as [[_ A] | [(C & _) | (i & m & C & _)]]; try discriminate. split; [exact A|].
      destruct RC as (m & _ & [[-> _] | [[-> _] | (i & _ & C)]]); [| |discriminate C]; rewrite ?count_app, count_misses; auto; cbn; lia. }
  2:{ eapply (asking_connect a rq retry_waits true (fun _ => 3000%N) _ _ 0) in E1; [|reflexivity].
      destruct E1 as [[C _] | [(C & _) | (i & m & C & _)]]; discriminate. }
  pose proof E1 as E1'.
  eapply (asking_connect a rq retry_waits true (fun _ => 3000%N) _ _ 0) in E1'; [|reflexivity].
  destruct E1' as [[C _] | [(C & _ & ->) | (i & m & C & -> & LE)]]; [discriminate | |]; injection C as ->.
  { cbn in E2. destruct E2 as [-> ->]. rewrite app_nil_r. split; [left; exists []; reflexivity|]. intros n. split; [|rewrite count_app, count_misses by reflexivity; cbn; lia].
    apply asking_misses; [reflexivity|]. constructor. }
  rewrite <- app_assoc. cbn [app].
  assert (GA : forall n t, asking a rq retry_waits true (fun _ => 3000%N) n (Connected a (Some i) :: t) -> count is_send t <= 1 ->
     asking a rq retry_waits true (fun _ => 3000%N) n (misses 3000 m a ++ Connected a (Some i) :: t) /\ count is_send (misses 3000 m a ++ Connected a (Some i) :: t) <= 1).
  { intros n t A C. split; [apply asking_misses; [reflexivity | exact A]|]. rewrite count_app, count_misses by reflexivity. exact C. }
  cbn in E2. destruct E2 as [[-> ->] | (b & t' & -> & E)].
  { intros n. apply GA; [constructor | cbn; lia]. }
  destruct b; cbn in E.
  2:{ destruct E as [-> ->]. split.
      - apply gave_up_app. right; left. exists i. cbn. auto.
      - intros n. apply GA; [constructor | cbn; lia]. }
  destruct E as [[-> ->] | (r & t'' & -> & E)].
  { intros n. apply GA; [constructor | cbn; lia]. }
  assert (X : t'' = [] /\ ((exists x, r = Some (Retry x) /\ o = Done (match x with NotYetPersisted => None | _ => Some (RRetry x) end)) \/
     (o = Panicked /\ (r = None \/ exists x, r = Some x /\ match x with Retry _ => False | _ => True end)))).
  { destruct r as [[ | | | | | | | | | | [ | | ] | ]|]; cbn in E; destruct E as [-> ->]; (split; [reflexivity|]).
    all: try (right; split; [reflexivity|]; right; eexists; split; [reflexivity | exact I]).
    all: try (right; split; [reflexivity|]; left; reflexivity).
    all: left; eexists; split; reflexivity. }
  destruct X as [-> [(x & -> & ->) | [-> C]]].
  - exists m, i, x. auto.
  - split; [|intros n; apply GA; [constructor | cbn; lia]].
    apply gave_up_app. right; right. exists i, r. cbn. tauto.
Qed.

Lemma fetch_loop e run a : forall left k n tr o,
  executes (retry_loop left 3000 (fun _ => try_fetch_manifest e run a) k) tr o ->
  let rq := {| rq_entity := e; rq_message := RetryManifestPartition run e |} in
  asking a rq retry_waits true (fun _ => 3000%N) n tr /\ count is_send tr <= left + 1 /\
  match o with
  | Waiting => True
  | Panicked => gave_up a rq tr
  | Done None => count is_send tr = left + 1 /\ forall i r, In (Received i r) tr -> r = Some (Retry NotYetPersisted)
  | Done (Some x) => exists r, x = RRetry r /\ r <> NotYetPersisted /\ received tr (Retry r)
  end.
Proof.
  induction left as [|left IH]; intros k n tr o E rq; cbn [retry_loop] in E; apply executes_bind in E.
  all: destruct E as [(t1 & t2 & x & -> & E1 & E2) | [[E1 ->] | [E1 ->]]];
    [ | apply fetch_once in E1; destruct (E1 n) as [A C]; split; [exact A|]; split; [lia | exact I]
      | apply fetch_once in E1; destruct E1 as [G E1]; destruct (E1 n) as [A C]; split; [exact A|]; split; [lia | exact G] ].
  all: apply fetch_once in E1; destruct E1 as (m & i & r & LE & -> & ->).
  all: assert (CM : count is_send (misses 3000 m a ++ [Connected a (Some i); Sent i rq true; Received i (Some (Retry r))]) = 1)
         by (rewrite count_app, count_misses by reflexivity; reflexivity).
  all: assert (DONE : r <> NotYetPersisted -> asking a rq retry_waits true (fun _ => 3000%N) n (misses 3000 m a ++ [Connected a (Some i); Sent i rq true; Received i (Some (Retry r))]))
         by (intros _; apply asking_misses; [reflexivity | constructor]).
  all: assert (RCV : received (misses 3000 m a ++ [Connected a (Some i); Sent i rq true; Received i (Some (Retry r))]) (Retry r))
         by (apply received_app; exists i; cbn; auto).
  - assert (A : asking a rq retry_waits true (fun _ => 3000%N) n (misses 3000 m a ++ [Connected a (Some i); Sent i rq true; Received i (Some (Retry r))]))
      by (apply asking_misses; [reflexivity | constructor]).
    destruct r; cbn in E2; destruct E2 as [-> ->]; rewrite app_nil_r; (split; [exact A|]); (split; [unfold rq in CM; lia|]).
    + eexists; split; [reflexivity|]. split; [discriminate | exact RCV].
    + split; [unfold rq in CM; lia|]. intros j y IN. apply in_app_or in IN. destruct IN as [IN | [C | [C | [C | []]]]]; try discriminate C; [|congruence].
      exfalso. clear - IN. induction m as [|m IHm]; cbn in IN; [exact IN|]. destruct IN as [C | [C | IN]]; try discriminate C; auto.
    + eexists; split; [reflexivity|]. split; [discriminate | exact RCV].
  - assert (X : r <> NotYetPersisted /\ t2 = [] /\ o = Done (Some (RRetry r)) \/ r = NotYetPersisted /\
       executes (let* _ := ask (Sleep 3000) in retry_loop left 3000 (fun _ => try_fetch_manifest e run a) (k + 1)) t2 o).
    { destruct r; [left | right | left]; cbn in E2; [destruct E2 as [-> ->]; repeat split; discriminate | split; [reflexivity | exact E2] | destruct E2 as [-> ->]; repeat split; discriminate]. }
    destruct X as [(NW & -> & ->) | (-> & E3)].
    { rewrite app_nil_r. split; [apply DONE; exact NW|]. split; [unfold rq in CM; lia|]. exists r. split; [reflexivity|]. split; [exact NW | exact RCV]. }
    cbn in E3. destruct E3 as [[-> ->] | ([] & t3 & -> & E3)].
    { rewrite app_nil_r. split; [apply asking_misses; [reflexivity | constructor]|]. split; [unfold rq in CM; lia | exact I]. }
    destruct (IH (k + 1) (n + 1) _ _ E3) as (A & C & O). split; [|split].
    + rewrite <- app_assoc. apply asking_misses; [reflexivity|]. cbn. apply (A_again a rq retry_waits true (fun _ => 3000%N) n); [reflexivity | exact A].
    + rewrite count_app. fold rq. rewrite CM. unfold count in *. cbn in *. lia.
    + destruct o as [|[x|]|]; [exact I | | |].
      * destruct O as (r' & -> & NW & RV). exists r'. split; [reflexivity|]. split; [exact NW|]. apply received_app. destruct RV as [j J]. exists j. right; exact J.
      * destruct O as [O1 O2]. split; [rewrite count_app; fold rq; rewrite CM; unfold count in *; cbn in *; lia|].
        intros j y IN. apply in_app_or in IN. destruct IN as [IN | [C' | IN]]; [|discriminate C'|eauto].
        apply in_app_or in IN. destruct IN as [IN | [C' | [C' | [C' | []]]]]; try discriminate C'; [|congruence].
        exfalso. clear - IN. induction m as [|m IHm]; cbn in IN; [exact IN|]. destruct IN as [C | [C | IN]]; try discriminate C; auto.
      * apply gave_up_app. apply (gave_up_app a rq [Slept 3000]). exact O.
Qed.

(* (the calls of results are the ones that do something else) *)
Definition turns_of (k : call) : nat :=
  match k with
  | TellResults false _ _ _ => 0
  | AskInit n _ _ | AskAttach n _ _ | AskResults n _ _ => n
  | AskRetryManifest _ _ => 20
  | _ => 1
  end.
Definition ends (k : call) (a : address) (tr : list event) (o : outcome result) : Prop :=
  match o with
  | Waiting => True
  | Panicked => (tells k = true /\ gave_up a (speaks k) (filter networked tr)) \/
      exists e r, k = AskRetryManifest e r /\ (gave_up a (speaks k) tr \/ (count is_send tr = 20 /\ forall i x, In (Received i x) tr -> x = Some (Retry NotYetPersisted)))
  | Done r =>
      match k, r with
      | TellRanAll _ _, RTold | TellManifest _ _ _, RTold | TellCancel _ _, RTold | TellResults true _ _ _, RTold => exists x, received tr x
      | TellResults false _ _ _, RTold => True
      | AskInit _ _ _, RInit x => x <> WaitingForManifest /\ received tr (Init x)
      | AskRetryManifest _ _, RRetry x => x <> NotYetPersisted /\ received tr (Retry x)
      | AskQueue v _ _, RNegotiator x => received tr (TheNegotiator x v)
      | AskQueue v _ _, RIncompatible v' => v' <> v /\ exists x, received tr (TheNegotiator x v')
      | AskAttach _ _ _, RAttach x => x <> NotYetKnown /\ received tr (Attach x)
      | AskHealth _ _, RHealth (Some (h, v)) => received tr (Health h v)
      | AskHealth _ _, RHealth None => True
      | AskResults _ _ _, RResults x => x <> ResultsPending /\ received tr (Results x)
      | AskInit _ _ _, RAsking | AskAttach _ _ _, RAsking | AskResults _ _ _, RAsking => True
      | AskInit _ _ _, RIoError | AskAttach _ _ _, RIoError | AskResults _ _ _, RIoError | AskQueue _ _ _, RIoError => True
      | _, _ => False
      end
  end.

Lemma received_networked tr x : received (filter networked tr) x -> received tr x.
Proof. intros [i I]. exists i. apply filter_In in I. tauto. Qed.
Lemma count_networked tr : count is_send (filter networked tr) = count is_send tr.
Proof. unfold count. induction tr as [|e tr IH]; [reflexivity|]. cbn. destruct e; cbn; rewrite ?IH; auto. Qed.

Lemma misses_send d m a : count is_send (misses d m a) = 0.
Proof. now apply count_misses. Qed.

Lemma tell_call a rq tr o : executes (tell a rq) tr o ->
  asking a rq no_wait true (fun _ => 3000%N) 0 tr /\ count is_send tr <= 1 /\
  match o with Waiting => True | Panicked => gave_up a rq tr | Done r => r = RTold /\ exists x, received tr x end.
Proof.
  intros E. apply tell_shape in E. destruct E as [A O]. split; [exact A|]. split.
  - clear O. assert (G : forall n t, asking a rq no_wait true (fun _ => 3000%N) n t -> count is_send t <= 1).
    { induction 1; unfold count in *; cbn in *; try lia. discriminate. }
    eapply G; exact A.
  - destruct o as [|r|]; [exact I | |].
    + destruct O as (-> & m & i & x & LE & ->). split; [reflexivity|]. exists x. apply received_app. exists i. cbn. auto.
    + destruct O as [-> | (m & i & LE & [-> | ->])].
      * left. exists []. reflexivity.
      * apply gave_up_app. right; left. exists i. cbn. auto.
      * apply gave_up_app. right; right. exists i, None. cbn. tauto.
Qed.

Lemma asking_more a rq w w' re ps ps' n tr : asking a rq w re ps n tr -> (forall r, w r = true -> w' r = true) -> (forall n, ps n = ps' n) -> asking a rq w' re ps' n tr.
Proof. intros A W P. induction A; try constructor; auto. rewrite P. constructor; auto. Qed.

Lemma call_shape k a tr o : executes (calling k a) tr o ->
  asking a (speaks k) (told_to_wait k) (reconnects k) (pause k) 0 (filter networked tr) /\
  count is_send tr <= turns_of k /\ ends k a tr o.
Proof.
  (* the cases of [tell], of results, and of those that ask *)
  intros E. destruct k as [e r | e r m | e r | s e r rs | turns e r | e r | v e r | turns e iv | kind e | turns e r]; cbn [calling speaks told_to_wait reconnects turns_of] in *.
  1, 2, 3: apply tell_call in E; destruct E as (A & C & O); pose proof (asking_networked _ _ _ _ _ _ _ A) as F;
    (split; [rewrite F; eapply asking_more; [exact A | discriminate | reflexivity] |]); (split; [exact C|]);
    destruct o as [|x|]; [exact I | destruct O as [-> O]; exact O | left; split; [reflexivity|]; rewrite F; exact O].
  - apply results_shape in E. destruct E as [[(-> & F & NP) | (-> & o' & E & C)] (A1 & A2 & O)].
    + rewrite F. split; [constructor|]. split.
      * rewrite <- count_networked, F. cbn. lia.
      * destruct o as [|x|]; [exact I | destruct O as [-> _]; exact I | congruence].
    + apply tell_call in E. destruct E as (A & C' & O').
      split; [eapply asking_more; [exact A | discriminate | reflexivity]|]. split; [now rewrite count_networked in C'|].
      destruct C as [-> | ->]; [|exact I]. destruct o as [|x|]; [exact I | |].
      * destruct O' as [-> [y RV]]. cbn. exists y. apply received_networked; exact RV.
      * left. split; [reflexivity | exact O'].
  - change 10%N with (N.min (10 * 2 ^ N.of_nat 0) 3000) in E. apply init_shape in E. destruct E as (A & C & O). rewrite (asking_networked _ _ _ _ _ _ _ A).
    split; [exact A|]. split; [exact C|]. destruct o as [|x|]; [exact I | destruct x; exact O | destruct O].
  - unfold fetch_retry_manifest in E. apply executes_bind in E.
    destruct E as [(t1 & t2 & x & -> & E1 & E2) | [[E1 ->] | [E1 ->]]]; eapply (fetch_loop _ _ _ _ _ 0) in E1; destruct E1 as (A & C & O).
    + assert (t2 = []) by (destruct x; cbn in E2; destruct E2; auto). subst t2. rewrite app_nil_r.
      rewrite (asking_networked _ _ _ _ _ _ _ A). split; [eapply asking_more; [exact A | intros y H; destruct y; try discriminate H; exact H | reflexivity]|].
      split; [exact C|]. destruct x as [x|]; cbn in E2; destruct E2 as [_ ->].
      * destruct O as (y & -> & NW & RV). split; assumption.
      * right. exists e, r. split; [reflexivity|]. right. exact O.
    + rewrite (asking_networked _ _ _ _ _ _ _ A). split; [eapply asking_more; [exact A | intros y H; destruct y; try discriminate H; exact H | reflexivity]|]. split; [exact C | exact I].
    + rewrite (asking_networked _ _ _ _ _ _ _ A). split; [eapply asking_more; [exact A | intros y H; destruct y; try discriminate H; exact H | reflexivity]|]. split; [exact C |].
      right. exists e, r. split; [reflexivity|]. left. exact O.
  - unfold ask_queue in E. explore E; cbn [filter networked]; (split; [constructor | split; [cbn; lia | cbn; auto]]).
    + subst. exists n. cbn; tauto.
    + split; [assumption|]. exists a0, n. cbn; tauto.
  - change 10%N with (N.min (10 * 2 ^ N.of_nat 0) 3000) in E. apply attach_shape in E. destruct E as (A & C & O). rewrite (asking_networked _ _ _ _ _ _ _ A).
    split; [exact A|]. split; [exact C|]. destruct o as [|x|]; [exact I | destruct x; exact O | destruct O].
  - unfold get_health in E. replace (health_check kind) with HealthCheck in E by (destruct kind; reflexivity).
    explore E; cbn [filter networked]; (split; [constructor | split; [cbn; lia | cbn; auto]]).
    eexists; cbn; eauto.
  - eapply (results_asked_shape _ _ _ _ 0) in E. destruct E as (A & C & O). rewrite (asking_networked _ _ _ _ _ _ _ A).
    split; [exact A|]. split; [exact C|]. destruct o as [|x|]; [exact I | destruct x; exact O | destruct O].
Qed.

Lemma asking_events a rq w re ps n tr : asking a rq w re ps n tr -> forall e, In e tr ->
  match e with
  | Connected a' _ => a' = a
  | Sent i rq' _ => rq' = rq /\ In (Connected a (Some i)) tr
  | Received i _ => In (Connected a (Some i)) tr /\ In (Sent i rq true) tr
  | Slept _ => True
  | _ => False
  end.
Proof.
  induction 1; intros e IN; cbn in IN;
    repeat match goal with H : _ \/ _ |- _ => destruct H | H : False |- _ => destruct H end; subst; cbn; auto.
  - specialize (IHasking _ H1). destruct e; auto; tauto.
  - specialize (IHasking _ H1). destruct e; auto; tauto.
Qed.

Lemma asking_again a rq w re ps n tr : asking a rq w re ps n tr -> forall t1 t2 i j, tr = t1 ++ Connected a (Some j) :: t2 -> In (Connected a (Some i)) t1 ->
  exists r, In (Received i (Some r)) t1 /\ w r = true.
Proof.
  induction 1 as [| | n tr R A IH | n k | n k ok | n k r | n k r tr W A IH]; intros t1 t2 i j EQ IN.
  all: try (destruct t1 as [|e1 t1]; [destruct IN|]; cbn in EQ; injection EQ as <- EQ).
  - destruct t1; [destruct IN | discriminate EQ].
  - destruct t1; discriminate EQ.
  - destruct t1 as [|e2 t1]; [discriminate EQ|]. injection EQ as <- EQ. destruct IN as [C | [C | IN]]; try discriminate C.
    destruct (IH _ _ _ _ EQ IN) as (r & I & W). exists r. split; [right; right; exact I | exact W].
  - destruct t1; discriminate EQ.
  - destruct t1 as [|e2 [|e3 t1]]; discriminate EQ.
  - destruct t1 as [|e2 [|e3 [|e4 t1]]]; discriminate EQ.
  - destruct t1 as [|e2 [|e3 [|e4 t1]]]; try discriminate EQ. cbn in EQ. injection EQ as <- <- <- EQ.
    destruct IN as [C | [C | [C | [C | IN]]]]; try discriminate C.
    + injection C as <-. exists r. split; [cbn; auto | exact W].
    + destruct (IH _ _ _ _ EQ IN) as (r' & I' & W'). exists r'. split; [do 4 right; exact I' | exact W'].
Qed.

(* of two connections of a call, one was answered by being told to wait *)
Lemma asking_two a rq w re ps n tr i j : asking a rq w re ps n tr -> In (Connected a (Some i)) tr -> In (Connected a (Some j)) tr -> i <> j ->
  exists x r, (x = i \/ x = j) /\ In (Received x (Some r)) tr /\ w r = true.
Proof.
  intros A I J NE. apply in_split in J. destruct J as (t1 & t2 & ->). apply in_app_or in I. destruct I as [I | [C | I]].
  - destruct (asking_again _ _ _ _ _ _ _ A _ _ _ _ eq_refl I) as (r & IR & W). exists i, r. split; [auto|]. split; [apply in_or_app; auto | exact W].
  - congruence.
  - apply in_split in I. destruct I as (t3 & t4 & ->).
    destruct (asking_again _ _ _ _ _ _ _ A (t1 ++ Connected a (Some j) :: t3) t4 j i) as (r & IR & W).
    + rewrite <- app_assoc. reflexivity.
    + apply in_or_app. right. left. reflexivity.
    + exists j, r. split; [auto|]. split; [|exact W]. change (t1 ++ Connected a (Some j) :: t3 ++ Connected a (Some i) :: t4) with (t1 ++ (Connected a (Some j) :: t3) ++ Connected a (Some i) :: t4). rewrite app_assoc. apply in_or_app. left. exact IR.
Qed.

(* ------------------------------------------------------------------ *)
(* Histories.                                                           *)

Lemma party_eqb_spec p p' : reflect (p = p') (party_eqb p p').
Proof.
  destruct p as [c|i], p' as [c'|i']; cbn; try (constructor; discriminate).
  - destruct (Nat.eqb_spec c c'); constructor; congruence.
  - destruct (Nat.eqb_spec i i'); constructor; congruence.
Qed.
Lemma in_events p e h : In e (events_of p h) <-> In {| who := p; what := e |} h.
Proof.
  unfold events_of. rewrite in_map_iff. split.
  - intros ([w x] & <- & IN). apply filter_In in IN. destruct IN as [IN B]. cbn in *. destruct (party_eqb_spec w p); [subst; exact IN | discriminate].
  - intros IN. eexists. split; [|apply filter_In; split; [exact IN|]]; [reflexivity|]. cbn. destruct (party_eqb_spec p p); congruence.
Qed.
Lemma opened_spec h c i : opened_by h c i = true <-> exists a, In {| who := Caller c; what := Connected a (Some i) |} h.
Proof.
  unfold opened_by. rewrite existsb_exists. split.
  - intros ([w x] & IN & B). cbn in B. destruct w as [c'|]; [|discriminate]. destruct x as [a [i'|]| | | | | | | | | | | | | | | | | | ]; try discriminate.
    apply andb_prop in B. destruct B as [B1 B2]. apply Nat.eqb_eq in B1, B2. subst. eauto.
  - intros [a IN]. eexists. split; [exact IN|]. cbn. now rewrite !Nat.eqb_refl.
Qed.

Lemma connections_app h1 h2 : connections (h1 ++ h2) = connections h1 + connections h2.
Proof. unfold connections. now rewrite filter_app, app_length. Qed.

Lemma network_unique q h c a c' a' i : network q h ->
  In {| who := Caller c; what := Connected a (Some i) |} h -> In {| who := Caller c'; what := Connected a' (Some i) |} h -> c = c' /\ a = a'.
Proof.
  intros N I1 I2. apply in_split in I1. destruct I1 as (h1 & h2 & ->).
  pose proof (N _ _ _ eq_refl) as N1. cbn in N1. destruct N1 as [E1 _].
  apply in_app_or in I2. destruct I2 as [I2 | [E | I2]].
  - exfalso. apply in_split in I2. destruct I2 as (h3 & h4 & ->).
    pose proof (N h3 {| who := Caller c'; what := Connected a' (Some i) |} (h4 ++ {| who := Caller c; what := Connected a (Some i) |} :: h2)) as N2.
    rewrite <- app_assoc in N2. specialize (N2 eq_refl). cbn in N2. destruct N2 as [E2 _]. rewrite connections_app in E1. unfold connections in *. cbn in E1. lia.
  - injection E as -> ->. auto.
  - exfalso. apply in_split in I2. destruct I2 as (h3 & h4 & ->).
    pose proof (N (h1 ++ {| who := Caller c; what := Connected a (Some i) |} :: h3) {| who := Caller c'; what := Connected a' (Some i) |} h4) as N2.
    rewrite <- app_assoc in N2. specialize (N2 eq_refl). cbn in N2. destruct N2 as [E2 _]. rewrite connections_app in E2. unfold connections in *. cbn in E2. lia.
Qed.

Lemma network_at q h m : network q h -> In m h -> exists h1 h2, h = h1 ++ m :: h2 /\
    match who m, what m with
    | Caller _, Connected a (Some i) => i = connections h1 /\ reach q a <> None
    | Caller _, Received i (Some r) => In {| who := Task i; what := Wrote r true |} h1
    | Task i, GotRequest (Some rq) => open h1 i /\ exists c ok, In {| who := Caller c; what := Sent i rq ok |} h1
    | Task i, _ => open h1 i
    | _, _ => True
    end.
Proof. intros N I. apply in_split in I. destruct I as (h1 & h2 & ->). exists h1, h2. split; [reflexivity|]. exact (N _ _ _ eq_refl). Qed.

Section History.
Variable (q : queue) (calls : nat -> option (call * address)) (h : list moment).
Hypothesis (H : history q calls h).

Lemma caller_calls c e : In {| who := Caller c; what := e |} h -> exists k a o, calls c = Some (k, a) /\ executes (calling k a) (events_of (Caller c) h) o.
Proof.
  intros I. destruct H as (_ & HC & _). specialize (HC c). destruct (calls c) as [[k a]|]; [destruct HC as [o E]; eauto|].
  apply in_events in I. rewrite HC in I. destruct I.
Qed.

Lemma caller_asking c k a : calls c = Some (k, a) -> asking a (speaks k) (told_to_wait k) (reconnects k) (pause k) 0 (filter networked (events_of (Caller c) h)).
Proof.
  intros C. destruct H as (_ & HC & _). specialize (HC c). rewrite C in HC. destruct HC as [o E]. apply call_shape in E. tauto.
Qed.

Lemma caller_event c k a e : calls c = Some (k, a) -> In {| who := Caller c; what := e |} h ->
  match e with
  | Connected a' _ => a' = a
  | Sent i rq' _ => rq' = speaks k /\ In {| who := Caller c; what := Connected a (Some i) |} h
  | Received i _ => In {| who := Caller c; what := Connected a (Some i) |} h
  | _ => True
  end.
Proof.
  intros C I. apply in_events in I. pose proof (caller_asking _ _ _ C) as A. destruct (networked e) eqn:N.
  - assert (I' : In e (filter networked (events_of (Caller c) h))) by (apply filter_In; auto).
    pose proof (asking_events _ _ _ _ _ _ _ A _ I') as X. destruct e; auto.
    + destruct X as [X1 X2]. split; [exact X1|]. apply filter_In in X2. apply in_events; tauto.
    + destruct X as [X1 X2]. apply filter_In in X1. apply in_events; tauto.
  - destruct e; auto; discriminate N.
Qed.

Lemma task_open i e : In {| who := Task i; what := e |} h -> exists c a, In {| who := Caller c; what := Connected a (Some i) |} h.
Proof.
  intros I. destruct H as (N & _). destruct (network_at _ _ _ N I) as (h1 & h2 & -> & X). cbn in X.
  assert (O : open h1 i) by (destruct e; try exact X; destruct rq; tauto).
  destruct O as (c & a & I'). exists c, a. apply in_or_app. auto.
Qed.

Lemma opened_reach c a i : In {| who := Caller c; what := Connected a (Some i) |} h -> exists s, reach q a = Some s.
Proof.
  intros I. destruct H as (N & _). destruct (network_at _ _ _ N I) as (h1 & h2 & _ & X). cbn in X. destruct X as [_ X]. destruct (reach q a); [eauto | congruence].
Qed.

Lemma task_serves c a i : In {| who := Caller c; what := Connected a (Some i) |} h -> exists s o, reach q a = Some s /\ executes (serve q s) (events_of (Task i) h) o.
Proof.
  intros I. destruct (opened_reach _ _ _ I) as [s R]. destruct H as (_ & _ & HT). destruct (HT _ _ _ _ I R) as [o E]. eauto.
Qed.

(* what the task of a connection reads is the request of the call that opened it *)
Lemma read_is_spoken c k a i rq : calls c = Some (k, a) -> opened_by h c i = true -> In (GotRequest (Some rq)) (events_of (Task i) h) ->
  rq = speaks k /\ exists ok, In {| who := Caller c; what := Sent i rq ok |} h.
Proof.
  intros C O I. apply opened_spec in O. destruct O as [a' O]. apply in_events in I. pose proof H as (N & _).
  destruct (network_at _ _ _ N I) as (h1 & h2 & E & [_ (c' & ok & S)]). assert (S' : In {| who := Caller c'; what := Sent i rq ok |} h) by (rewrite E; apply in_or_app; auto).
  destruct (caller_calls _ _ S') as (k' & a'' & o & C' & _). pose proof (caller_event _ _ _ _ C' S') as [-> X].
  destruct (network_unique _ _ _ _ _ _ _ N O X) as [<- <-]. rewrite C in C'. injection C' as <- <-. eauto.
Qed.

(* what a call received was written by the task of its connection *)
Lemma received_was_written c i r : In {| who := Caller c; what := Received i (Some r) |} h -> opened_by h c i = true /\ In (Wrote r true) (events_of (Task i) h).
Proof.
  intros I. destruct (caller_calls _ _ I) as (k & a & o & C & _). pose proof (caller_event _ _ _ _ C I) as X. cbn in X.
  split; [apply opened_spec; eauto|]. pose proof H as (N & _). destruct (network_at _ _ _ N I) as (h1 & h2 & E & X'). cbn in X'.
  apply in_events. rewrite E. apply in_or_app. auto.
Qed.

Lemma updates_in u tr : In u (updates tr) <-> exists ok, In (Updated u ok) tr.
Proof.
  unfold updates. rewrite in_flat_map. split.
  - intros (e & I & IU). destruct e; try destruct IU. subst. eauto. destruct H0.
  - intros [ok I]. eexists. split; [exact I|]. cbn. auto.
Qed.

Lemma due_speaks k : (forall e r rs, k <> TellResults false e r rs) -> due (speaks k) = stands_for k.
Proof. intros NF. destruct k as [| ? ? [[|t ts]|] | |[]| | | | | |]; try reflexivity. exfalso; eapply NF; reflexivity. Qed.

Lemma opened_speaks c k a i : calls c = Some (k, a) -> opened_by h c i = true -> forall e r rs, k <> TellResults false e r rs.
Proof.
  intros C O e r rs ->. destruct H as (_ & HC & _). specialize (HC c). rewrite C in HC. destruct HC as [o E]. cbn [calling] in E. apply results_shape in E.
  destruct E as [[(_ & F & _) | (X & _)] _]; [|discriminate X]. apply opened_spec in O. destruct O as [a' O]. apply in_events in O.
  assert (IN : In (Connected a' (Some i)) (filter networked (events_of (Caller c) h))) by (apply filter_In; auto). rewrite F in IN. destruct IN.
Qed.

Lemma updates_of_connection c k a i : calls c = Some (k, a) -> opened_by h c i = true -> prefix (updates (events_of (Task i) h)) (stands_for k).
Proof.
  intros C O. pose proof O as O'. apply opened_spec in O'. destruct O' as [a' I]. destruct (task_serves _ _ _ I) as (s & o & _ & E).
  destruct (serve_updates _ _ _ _ E) as [-> | (rq & IR & P)]; [exists (stands_for k); reflexivity|].
  destruct (read_is_spoken _ _ _ _ _ C O IR) as [-> _]. rewrite due_speaks in P; [exact P|]. eapply opened_speaks; eauto.
Qed.

(* a call that is told to wait has changed nothing *)
Lemma told_to_wait_no_updates c k a i r : calls c = Some (k, a) -> In {| who := Caller c; what := Received i (Some r) |} h -> told_to_wait k r = true ->
  updates (events_of (Task i) h) = [].
Proof.
  intros C I W. destruct (received_was_written _ _ _ I) as [O IW].
  pose proof (updates_of_connection _ _ _ _ C O) as [rest P]. 
  destruct k; try discriminate W; cbn in P; try (destruct (updates (events_of (Task i) h)); [reflexivity | discriminate P]).
  destruct r; try discriminate W. destruct r; try discriminate W.
  pose proof O as O'. apply opened_spec in O'. destruct O' as [a' I']. destruct (task_serves _ _ _ I') as (s & o & _ & E).
  eapply serve_not_yet; eauto.
Qed.

Lemma taken_only c i0 : opened_by h c i0 = true -> forall hh, (forall i, opened_by h c i = true -> i <> i0 -> updates (events_of (Task i) hh) = []) ->
  flat_map (fun m => match who m, what m with Task i, Updated u _ => if opened_by h c i then [u] else [] | _, _ => [] end) hh = updates (events_of (Task i0) hh).
Proof.
  intros O. induction hh as [|m hh IH]; intros NO; [reflexivity|].
  assert (NO' : forall i, opened_by h c i = true -> i <> i0 -> updates (events_of (Task i) hh) = []).
  { intros i Oi NE. specialize (NO i Oi NE). unfold events_of in NO. cbn in NO. destruct (party_eqb (who m) (Task i)); [|exact NO]. cbn in NO. apply app_eq_nil in NO. tauto. }
  cbn [flat_map]. rewrite (IH NO'). unfold events_of. cbn [filter]. destruct m as [w x]. cbn [who what]. destruct (party_eqb_spec w (Task i0)).
  - subst w. cbn. rewrite O. destruct x; reflexivity.
  - destruct w as [|i]; [reflexivity|]. destruct x; try reflexivity. destruct (opened_by h c i) eqn:Oi; [|reflexivity].
    exfalso. assert (NE : i <> i0) by congruence. specialize (NO i Oi NE). unfold events_of in NO. cbn in NO. rewrite Nat.eqb_refl in NO. discriminate NO.
Qed.

(* all that the queue does for a call, it does on one connection *)
Lemma taken_up_one c k a : calls c = Some (k, a) ->
  taken_up h c = [] \/ exists i, opened_by h c i = true /\ taken_up h c = updates (events_of (Task i) h).
Proof.
  intros C. destruct (taken_up h c) as [|u us] eqn:T; [auto|right].
  assert (IU : In u (taken_up h c)) by (rewrite T; left; reflexivity). unfold taken_up in IU. apply in_flat_map in IU. destruct IU as ([w x] & IM & IU). cbn in IU.
  destruct w as [|i]; [destruct IU|]. destruct x; try destruct IU. destruct (opened_by h c i) eqn:O; [|destruct IU]. 
  exists i. split; [exact O|]. rewrite <- T. apply taken_only; [exact O|]. intros j Oj NE.
  assert (UI : updates (events_of (Task i) h) <> []).
  { intros X. assert (Y : In u0 (updates (events_of (Task i) h))) by (apply updates_in; exists ok; apply in_events; exact IM). rewrite X in Y. destruct Y. }
  apply opened_spec in O, Oj. destruct O as [a1 O], Oj as [a2 Oj].
  pose proof (caller_event _ _ _ _ C O) as ->. pose proof (caller_event _ _ _ _ C Oj) as ->.
  pose proof (caller_asking _ _ _ C) as A.
  destruct (asking_two _ _ _ _ _ _ _ i j A) as (y & r & [-> | ->] & IR & W); try (apply filter_In; split; [apply in_events; assumption | reflexivity]); try congruence.
  - exfalso. apply UI. apply filter_In in IR. destruct IR as [IR _]. apply in_events in IR. eapply told_to_wait_no_updates; eauto.
  - apply filter_In in IR. destruct IR as [IR _]. apply in_events in IR. eapply told_to_wait_no_updates; eauto.
Qed.

Lemma taken_up_at c k a i : calls c = Some (k, a) -> opened_by h c i = true -> updates (events_of (Task i) h) <> [] -> taken_up h c = updates (events_of (Task i) h).
Proof.
  intros C O UI. destruct (updates (events_of (Task i) h)) as [|u us] eqn:U; [congruence|].
  assert (IU : In u (updates (events_of (Task i) h))) by (rewrite U; left; reflexivity).
  unfold taken_up. rewrite <- U. apply taken_only; [exact O|]. intros j Oj NE.
  apply opened_spec in O, Oj. destruct O as [a1 O], Oj as [a2 Oj].
  pose proof (caller_event _ _ _ _ C O) as ->. pose proof (caller_event _ _ _ _ C Oj) as ->.
  pose proof (caller_asking _ _ _ C) as A.
  destruct (asking_two _ _ _ _ _ _ _ i j A) as (y & r & [-> | ->] & IR & W); try (apply filter_In; split; [apply in_events; assumption | reflexivity]); try congruence.
  - exfalso. apply filter_In in IR. destruct IR as [IR _]. apply in_events in IR. rewrite (told_to_wait_no_updates _ _ _ _ _ C IR W) in U. discriminate U.
  - apply filter_In in IR. destruct IR as [IR _]. apply in_events in IR. eapply told_to_wait_no_updates; eauto.
Qed.

Lemma told_once c k a : calls c = Some (k, a) -> prefix (taken_up h c) (stands_for k).
Proof.
  intros C. destruct (taken_up_one _ _ _ C) as [-> | (i & O & ->)]; [exists (stands_for k); reflexivity|]. eapply updates_of_connection; eauto.
Qed.
End History.

(* ------------------------------------------------------------------ *)
(* What the theorems need.                                              *)

Lemma serve_foreign q s tr o rq r ok : executes (serve q s) tr o -> s <> MainServer ->
  In (GotRequest (Some rq)) tr -> telling (rq_message rq) = true -> ~ In (Wrote r ok) tr.
Proof.
  intros E NM IR T IW. destruct s; [congruence | |]; unfold_serve E.
  all: explore E; cbn in IR, IW;
    repeat match goal with
    | H : _ \/ _ |- _ => destruct H
    | H : False |- _ => destruct H
    | H : GotRequest (Some _) = GotRequest _ |- _ => injection H as ->
    | H : _ = GotRequest _ |- _ => discriminate H
    | H : GotRequest _ = Wrote _ _ |- _ => discriminate H
    | H : Shook _ = Wrote _ _ |- _ => discriminate H
    | M : rq_message ?x = _, H : telling (rq_message ?x) = true |- _ => rewrite M in H; discriminate H
    end.
Qed.

Lemma serve_wrote_read q s tr o r ok : executes (serve q s) tr o -> In (Wrote r ok) tr -> exists rq, In (GotRequest (Some rq)) tr.
Proof. intros E I. destruct (serve_writes _ _ _ _ _ _ E I) as (rq & IR & _). eauto. Qed.

Lemma speaks_telling k : tells k = true -> telling (rq_message (speaks k)) = true.
Proof. destruct k as [| | |[]| | | | | |]; cbn; auto. Qed.
Lemma principal_stands k : tells k = true -> exists u, principal k = Some u /\ exists rest, stands_for k = u :: rest.
Proof. destruct k as [| ? ? [[|]|] | |[]| | | | | |]; cbn; try discriminate; eauto. Qed.

Section History2.
Variable (q : queue) (calls : nat -> option (call * address)) (h : list moment).
Hypothesis (H : history q calls h).

Lemma returned_told c k a : calls c = Some (k, a) -> tells k = true -> returned calls h c RTold ->
  exists i x, opened_by h c i = true /\ In (Wrote x true) (events_of (Task i) h) /\ In (GotRequest (Some (speaks k))) (events_of (Task i) h) /\ reach q a = Some MainServer.
Proof.
  intros C T (k' & a' & C' & E). rewrite C in C'. injection C' as <- <-. apply call_shape in E. destruct E as (_ & _ & EN).
  assert (RV : exists x, received (events_of (Caller c) h) x) by (destruct k as [| | |[]| | | | | |]; cbn in T; try discriminate T; exact EN).
  destruct RV as (x & i & I). apply in_events in I. destruct (received_was_written _ _ _ H _ _ _ I) as [O W].
  exists i, x. split; [exact O|]. split; [exact W|].
  pose proof O as O'. apply opened_spec in O'. destruct O' as [a' OI]. pose proof (caller_event _ _ _ H _ _ _ _ C OI) as X. cbn in X. subst a'.
  destruct (task_serves _ _ _ H _ _ _ OI) as (s & o & R & ES).
  destruct (serve_wrote_read _ _ _ _ _ _ ES W) as (rq & IR). destruct (read_is_spoken _ _ _ H _ _ _ _ _ C O IR) as [-> _]. split; [exact IR|].
  destruct s; [exact R | |]; exfalso; refine (serve_foreign _ _ _ _ _ _ _ ES _ IR (speaks_telling _ T) W); discriminate.
Qed.

Lemma served_executes c k a i : calls c = Some (k, a) -> opened_by h c i = true -> served q h i ->
  exists s o, reach q a = Some s /\ executes (serve q s) (events_of (Task i) h) o /\ o <> Waiting.
Proof.
  intros C O (c' & a' & s & o & I & R & E & NW). exists s, o. split; [|auto].
  apply opened_spec in O. destruct O as [a'' O]. pose proof (caller_event _ _ _ H _ _ _ _ C O) as X. cbn in X. subst a''. destruct H as (N & _).
  destruct (network_unique _ _ _ _ _ _ _ N O I) as [_ <-]. exact R.
Qed.

Lemma told_is_taken_up c k a u : calls c = Some (k, a) -> tells k = true -> principal k = Some u -> returned calls h c RTold ->
  (forall i, opened_by h c i = true -> served q h i) -> In u (taken_up h c).
Proof.
  intros C T P RT SV. destruct (returned_told _ _ _ C T RT) as (i & x & O & W & IR & R).
  destruct (served_executes _ _ _ _ C O (SV _ O)) as (s & o & R' & E & NW). rewrite R in R'. injection R' as <-.
  destruct (serve_acknowledged _ _ _ _ _ E IR (speaks_telling _ T) W NW) as (u' & rest & rest' & D & U).
  rewrite due_speaks in D by (intros e r rs ->; discriminate T).
  destruct (principal_stands _ T) as (u'' & P' & rest'' & D'). rewrite P in P'. injection P' as <-. rewrite D in D'. injection D' as <- _.
  rewrite (taken_up_at _ _ _ H _ _ _ _ C O); rewrite U; [left; reflexivity | discriminate].
Qed.

Lemma results_are_taken_up c e r rs a i : calls c = Some (TellResults true e r rs, a) -> reach q a = Some MainServer ->
  was_read h c i (speaks (TellResults true e r rs)) -> served q h i ->
  taken_up h c = [PlanResults r rs; PersistResults r rs] \/ In {| who := Task i; what := Updated (PlanResults r rs) false |} h.
Proof.
  intros C R [O IR] SV. destruct (served_executes _ _ _ _ C O SV) as (s & o & R' & E & NW). rewrite R in R'. injection R' as <-. apply in_events in IR.
  destruct (serve_results _ _ _ _ _ _ E IR eq_refl) as [_ X]. destruct (X NW) as [U | U].
  - left. rewrite (taken_up_at _ _ _ H _ _ _ _ C O); rewrite U; [reflexivity | discriminate].
  - right. apply in_events. exact U.
Qed.

Lemma results_are_accounted_first c e r rs a : calls c = Some (TellResults true e r rs, a) -> returned calls h c RTold ->
  exists i found, opened_by h c i = true /\ In {| who := Task i; what := Updated (PlanResults r rs) found |} h.
Proof.
  intros C RT. destruct (returned_told _ _ _ C eq_refl RT) as (i & x & O & W & IR & R).
  pose proof O as O'. apply opened_spec in O'. destruct O' as [a' OI]. pose proof (caller_event _ _ _ H _ _ _ _ C OI) as X. cbn in X. subst a'.
  destruct (task_serves _ _ _ H _ _ _ OI) as (s & o & R' & E). rewrite R in R'. injection R' as <-.
  destruct (serve_results _ _ _ _ _ _ E IR eq_refl) as [X _]. destruct (X _ _ W) as [f F]. exists i, f. split; [exact O|]. apply in_events. exact F.
Qed.

Lemma nothing_else i u ok : In {| who := Task i; what := Updated u ok |} h ->
  exists c k a, calls c = Some (k, a) /\ opened_by h c i = true /\ In u (stands_for k).
Proof.
  intros I. destruct (task_open _ _ _ H _ _ I) as (c & a & OI). destruct (caller_calls _ _ _ H _ _ OI) as (k & a' & o & C & _).
  assert (O : opened_by h c i = true) by (apply opened_spec; eauto). exists c, k, a'. split; [exact C|]. split; [exact O|].
  destruct (updates_of_connection _ _ _ H _ _ _ _ C O) as [rest P]. rewrite P. apply in_or_app. left. apply updates_in. exists ok. apply in_events. exact I.
Qed.

Lemma result_written c k a r x : calls c = Some (k, a) -> executes (calling k a) (events_of (Caller c) h) (Done r) -> received (events_of (Caller c) h) x ->
  exists i, opened_by h c i = true /\ fits q (events_of (Task i) h) (speaks k) x.
Proof.
  intros C E (i & I). apply in_events in I. destruct (received_was_written _ _ _ H _ _ _ I) as [O W]. exists i. split; [exact O|].
  pose proof O as O'. apply opened_spec in O'. destruct O' as [a' OI]. destruct (task_serves _ _ _ H _ _ _ OI) as (s & o & R & ES).
  destruct (serve_writes _ _ _ _ _ _ ES W) as (rq & IR & F). destruct (read_is_spoken _ _ _ H _ _ _ _ _ C O IR) as [-> _]. exact F.
Qed.

Lemma answers_are_the_queue_s conf bound c k a r : start_queue conf bound = Some q -> calls c = Some (k, a) -> returned calls h c r -> is_the_queue_s q h c k r.
Proof.
  intros SQ C (k' & a' & C' & E). rewrite C in C'. injection C' as <- <-. pose proof (call_shape _ _ _ _ E) as (_ & _ & EN).
  assert (Q : q_public_negotiator_addr q = {| a_ip := q_public_ip q; a_port := a_port (q_negotiator_addr q) |} /\
              q_advertised_work_addr q = {| a_ip := q_public_ip q; a_port := a_port (q_work_addr q) |} /\
              q_advertised_results_addr q = {| a_ip := q_public_ip q; a_port := a_port (q_server_addr q) |}).
  { unfold start_queue in SQ. destruct (bound MainServer _); [|discriminate]. destruct (bound Negotiator _); [|discriminate]. destruct (bound WorkServer _); [|discriminate].
    injection SQ as <-. cbn. auto. }
  destruct Q as (Q1 & Q2 & Q3).
  destruct k; destruct r; try exact I; try (destruct EN; fail); cbn in EN |- *.
  - destruct EN as [NW RV]. split; [exact NW|]. destruct (result_written _ _ _ _ _ C E RV) as (i & O & F). exists i. split; [exact O|].
    cbn in F. destruct F as (run' & M & S). injection M as <-. apply in_events. exact S.
  - destruct EN as [NW RV]. destruct (result_written _ _ _ _ _ C E RV) as (i & O & F). cbn in F. destruct F as (run' & e' & s & M & S & X). injection M as <- <-.
    exists i, s. split; [exact O|]. split; [apply in_events; exact S|]. destruct X as [X | [X | (l & L & X)]]; [congruence | left; exact X | right; exists l; split; [apply in_events; exact L | exact X]].
  - destruct (result_written _ _ _ _ _ C E EN) as (i & O & F). cbn in F. destruct F as [-> ->]. split; [reflexivity | exact Q1].
  - destruct EN as [NE (x & RV)]. destruct (result_written _ _ _ _ _ C E RV) as (i & O & F). cbn in F. destruct F as [_ ->]. auto.
  - destruct EN as [NW RV]. destruct (result_written _ _ _ _ _ C E RV) as (i & O & F). cbn in F. destruct F as (iv' & s & M & S & X). injection M as <-.
    exists i, s. split; [exact O|]. split; [apply in_events; exact S|]. destruct X as [X | X]; [congruence|]. destruct s; try exact X. 
    eexists. split; [exact X|]. cbn. auto.
  - destruct h0 as [[hl v]|]; [|exact I]. destruct (result_written _ _ _ _ _ C E EN) as (i & O & F). cbn in F. destruct F as [-> ->]. eauto.
  - destruct EN as [NW RV]. split; [exact NW|]. destruct (result_written _ _ _ _ _ C E RV) as (i & O & F). exists i. split; [exact O|].
    cbn in F. destruct F as (run' & M & S). injection M as <-. apply in_events. exact S.
Qed.

Lemma asks_again c k a h1 h2 a' i j : calls c = Some (k, a) -> h = h1 ++ {| who := Caller c; what := Connected a' (Some j) |} :: h2 -> opened_by h1 c i = true ->
  exists r, In {| who := Caller c; what := Received i (Some r) |} h1 /\ told_to_wait k r = true.
Proof.
  intros C E O. assert (I : In {| who := Caller c; what := Connected a' (Some j) |} h) by (rewrite E; apply in_or_app; right; left; reflexivity).
  pose proof (caller_event _ _ _ H _ _ _ _ C I) as X. cbn in X. subst a'. apply opened_spec in O. destruct O as [a' O].
  assert (X : a' = a) by (apply (caller_event _ _ _ H _ _ _ (Connected a' (Some i)) C); rewrite E; apply in_or_app; left; exact O). subst a'.
  pose proof (caller_asking _ _ _ H _ _ _ C) as A.
  assert (EV : filter networked (events_of (Caller c) h) = filter networked (events_of (Caller c) h1) ++ Connected a (Some j) :: filter networked (events_of (Caller c) h2)).
  { rewrite E. unfold events_of. rewrite filter_app, map_app, filter_app. cbn. rewrite Nat.eqb_refl. reflexivity. }
  destruct (asking_again _ _ _ _ _ _ _ A _ _ i _ EV) as (r & IR & W).
  - apply filter_In. split; [apply in_events; exact O | reflexivity].
  - exists r. split; [|exact W]. apply filter_In in IR. apply in_events. tauto.
Qed.

Lemma one_answer c k a i : calls c = Some (k, a) -> reach q a = Some (server_for k) -> was_read h c i (speaks k) -> served q h i ->
  count is_write (events_of (Task i) h) = 1.
Proof.
  intros C R [O IR] SV. destruct (served_executes _ _ _ _ C O SV) as (s & o & R' & E & NW). rewrite R in R'. injection R' as <-. apply in_events in IR.
  eapply serve_one_write; eauto.
Qed.
End History2.

(* where the addresses that a queue gives out lead *)
Lemma finds_servers conf bound q : start_queue conf bound = Some q -> distinct_ports q ->
  reach q {| a_ip := q_public_ip q; a_port := a_port (q_server_addr q) |} = Some MainServer /\
  reach q {| a_ip := q_public_ip q; a_port := a_port (q_work_addr q) |} = Some WorkServer /\
  reach q {| a_ip := q_public_ip q; a_port := a_port (q_negotiator_addr q) |} = Some Negotiator.
Proof.
  intros _ (D1 & D2 & D3). unfold reach. cbn. rewrite !Nat.eqb_refl.
  destruct (Nat.eqb_spec (a_port (q_work_addr q)) (a_port (q_server_addr q))); [congruence|].
  destruct (Nat.eqb_spec (a_port (q_negotiator_addr q)) (a_port (q_server_addr q))); [congruence|].
  destruct (Nat.eqb_spec (a_port (q_negotiator_addr q)) (a_port (q_work_addr q))); [congruence|]. auto.
Qed.

Lemma pauses_of a rq w re ps n tr : asking a rq w re ps n tr -> forall m d, nth_error (pauses tr) m = Some d -> d = ps (n + m).
Proof.
  induction 1 as [| | n tr R A IH | | | n i r | n i r tr W A IH]; intros m d N; cbn in N; try (destruct m; discriminate N); auto.
  destruct m as [|m]; cbn in N.
  - injection N as <-. now rewrite Nat.add_0_r.
  - apply IH in N. rewrite N. f_equal. lia.
Qed.

Lemma only_network k a tr o : executes (calling k a) tr o -> is_results_call k = false -> filter networked tr = tr.
Proof.
  intros E NR. destruct k as [e r | e r m | e r | s e r rs | turns e r | e r | v e r | turns e iv | kind e | turns e r]; cbn [calling] in E; try discriminate NR.
  1, 2, 3: apply tell_call in E; destruct E as (A & _); eapply asking_networked; exact A.
  - change 10%N with (N.min (10 * 2 ^ N.of_nat 0) 3000) in E. apply init_shape in E. destruct E as (A & _). eapply asking_networked; exact A.
  - unfold fetch_retry_manifest in E. apply executes_bind in E.
    destruct E as [(t1 & t2 & x & -> & E1 & E2) | [[E1 ->] | [E1 ->]]]; eapply (fetch_loop _ _ _ _ _ 0) in E1; destruct E1 as (A & _).
    + assert (t2 = []) by (destruct x; cbn in E2; destruct E2; auto). subst t2. rewrite app_nil_r. eapply asking_networked; exact A.
    + eapply asking_networked; exact A.
    + eapply asking_networked; exact A.
  - unfold ask_queue in E. explore E; reflexivity.
  - change 10%N with (N.min (10 * 2 ^ N.of_nat 0) 3000) in E. apply attach_shape in E. destruct E as (A & _). eapply asking_networked; exact A.
  - unfold get_health in E. explore E; reflexivity.
  - eapply (results_asked_shape _ _ _ _ 0) in E. destruct E as (A & _). eapply asking_networked; exact A.
Qed.

(* a call that tells tries to connect at most five times *)
Lemma misses_connect d m a : count is_connect (misses d m a) = m.
Proof. unfold count. induction m; cbn; congruence. Qed.
Lemma tell_tries a rq tr o : executes (tell a rq) tr o -> count is_connect tr <= 5.
Proof.
  intros E. unfold tell in E. apply executes_bind in E.
  assert (CT : forall t x, executes (async_retry_n 5 3000 (fun _ => ask (Connect a))) t x -> count is_connect t <= 5).
  { intros t x E'. destruct (retry_connect _ _ _ _ _ _ E') as (m & LE & [[-> _] | [[-> _] | (i & -> & _)]]); rewrite ?count_app, misses_connect; cbn in *; lia. }
  destruct E as [(t1 & t2 & x & -> & E1 & E2) | [[E1 _] | [E1 _]]]; [|eauto|eauto].
  rewrite count_app. specialize (CT _ _ E1). assert (Z : count is_connect t2 = 0); [|lia].
  destruct x as [i|]; cbn in E2.
  - explore E2; reflexivity.
  - destruct E2 as [-> _]. reflexivity.
Qed.
Lemma count_connect_networked tr : count is_connect (filter networked tr) = count is_connect tr.
Proof. unfold count. induction tr as [|e tr IH]; [reflexivity|]. cbn. destruct e; cbn; rewrite ?IH; auto. Qed.
Lemma tells_tries k a tr o : executes (calling k a) tr o -> tells k = true -> count is_connect tr <= 5.
Proof.
  intros E T. destruct k as [| | |[] e r rs| | | | | |]; cbn in T; try discriminate T; cbn [calling] in E; try (eapply tell_tries; exact E).
  apply results_shape in E. destruct E as [[(C & _) | (_ & o' & E & _)] _]; [discriminate C|]. apply tell_tries in E. now rewrite count_connect_networked in E.
Qed.

(* histories that are given as a list *)
Definition rule (q : queue) (past : list moment) (m : moment) : Prop :=
  match who m, what m with
  | Caller _, Connected a (Some i) => i = connections past /\ reach q a <> None
  | Caller _, Received i (Some r) => In {| who := Task i; what := Wrote r true |} past
  | Task i, GotRequest (Some rq) => open past i /\ exists c ok, In {| who := Caller c; what := Sent i rq ok |} past
  | Task i, _ => open past i
  | _, _ => True
  end.
Fixpoint rules (q : queue) (past rest : list moment) : Prop :=
  match rest with [] => True | m :: rest' => rule q past m /\ rules q (past ++ [m]) rest' end.
Lemma rules_network q h : rules q [] h -> network q h.
Proof.
  intros R. assert (G : forall rest past, rules q past rest -> forall h1 m h2, rest = h1 ++ m :: h2 -> rule q (past ++ h1) m).
  { induction rest as [|x rest IH]; intros past RR h1 m h2 E; [destruct h1; discriminate|]. destruct RR as [R1 R2].
    destruct h1 as [|y h1]; cbn in E; injection E as -> E.
    - rewrite app_nil_r. exact R1.
    - specialize (IH _ R2 _ _ _ E). rewrite <- app_assoc in IH. exact IH. }
  intros h1 m h2 E. exact (G _ _ R _ _ _ E).
Qed.

Lemma tell_panic a rq tr : executes (tell a rq) tr Panicked ->
  (exists t0, tr = t0 ++ five_misses a) \/ (exists i, In (Sent i rq false) tr) \/ (exists i, In (Received i None) tr).
Proof.
  intros E. apply tell_shape in E. destruct E as (_ & [-> | (m & i & _ & [-> | ->])]).
  - left. exists []. reflexivity.
  - right; left. exists i. apply in_or_app. right. cbn. auto.
  - right; right. exists i. apply in_or_app. right. cbn. auto.
Qed.
Lemma tells_panic k a tr : executes (calling k a) tr Panicked -> tells k = true ->
  (exists t0, filter networked tr = t0 ++ five_misses a) \/ (exists i, In (Sent i (speaks k) false) tr) \/ (exists i, In (Received i None) tr).
Proof.
  intros E T. assert (E' : executes (tell a (speaks k)) (filter networked tr) Panicked).
  { destruct k as [| | |[] e r rs| | | | | |]; cbn in T; try discriminate T.
    4:{ cbn [calling] in E. apply results_shape in E. destruct E as [[(C & _) | (_ & o' & E & [-> | C])] _]; try discriminate C. exact E. }
    all: rewrite (only_network _ _ _ _ E eq_refl); exact E. }
  destruct (tell_panic _ _ _ E') as [X | [(i & X) | (i & X)]]; [auto | right; left | right; right]; exists i; apply filter_In in X; tauto.
Qed.
