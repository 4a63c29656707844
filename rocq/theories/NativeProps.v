(* C77: a runner starts, instructs and ends its native test processes by their protocol, and
   tells what became of them. *)
From Coq Require Import List Arith Bool String ZArith Lia.
From Verif Require Import NativeModel NativeSpec NativeProofs NativeCause.
Import ListNotations.
Open Scope string_scope.
Open Scope list_scope.

(* ------------------------------------------------------------------ *)
(* Processes are started one after another: when one is started, every earlier one was waited
   for or killed. *)
Theorem C77_one_process_at_a_time : forall c asked msgs fetched e, run_async c asked msgs fetched e ->
  forall before p l ok after, e_trace e = before ++ Ev (Spawn p l) ok :: after ->
  started before = seq 0 p /\ (forall q, In q (started before) -> gone q before = true).
Proof.
  intros c asked msgs fetched e R h p l ok h2 E. pose proof (lawful_run _ _ _ _ _ R _ _ _ _ E) as (S & G & _).
  split; [exact S|]. intros q I. rewrite S in I. apply in_seq in I. apply G. lia.
Qed.

(* Every process is told nothing (as the one that makes the manifest is); or the initialization
   the queue gave and then tests; or, if the queue said that the run is over, to exit at once. *)
Theorem C77_processes_are_told_the_protocol : forall c asked msgs fetched e, run_async c asked msgs fetched e ->
  forall p,
  told p (e_trace e) = []
  \/ (exists meta works, told p (e_trace e) = InitMessage meta false :: map TestCase works /\
      In (Some (Context meta)) (inits (e_trace e)))
  \/ (told p (e_trace e) = [InitMessage default_meta true] /\
      exists cancelled, In (Some (AlreadyCompleted cancelled)) (inits (e_trace e))).
Proof.
  intros c asked msgs fetched e R p.
  destruct (lawful_shape c asked (items msgs) p _ (lawful_run _ _ _ _ _ R)) as [E | [(m & w & E & I & _) | E]];
    [now left | right; left; now exists m, w | right; right; exact E].
Qed.

(* A test is only given to the process started last, which runs, introduced itself with a
   version that is supported, acknowledged its initialization and was not started to make the
   manifest. *)
Theorem C77_tests_go_to_ready_processes : forall c asked msgs fetched e, run_async c asked msgs fetched e ->
  forall before p t a after, e_trace e = before ++ Ev (RunTest p t) a :: after ->
  started before = seq 0 (p + 1) /\ (if asked then p <> 0 else True) /\ gone p before = false /\ ready p before = true /\
  (exists s, said p before = [s] /\ sp_version s = (0, 2)) /\
  (exists meta, inits before = [Some (Context meta)]).
Proof.
  intros c asked msgs fetched e R h p t a h2 E.
  pose proof (lawful_run _ _ _ _ _ R _ _ _ _ E) as (S & F & G & D & (s & SA & SU) & (m & w & I & _) & _).
  split; [exact S|]. split; [destruct asked; cbn in F; lia|]. split; [exact G|]. split; [exact D|]. split; [|now exists m].
  exists s. split; [exact SA|]. unfold supported in SU. apply andb_prop in SU. destruct SU as [U1 U2].
  apply Nat.eqb_eq in U1, U2. destruct (sp_version s); cbn in *; congruence.
Qed.

(* Tests are given in the order they were received, each once.  A test goes to the process of
   the test before it exactly if it is of the same attempt, and the first test to the first
   process exactly if it is of the first attempt. *)
Theorem C77_attempts_have_their_own_processes : forall c asked msgs fetched e, run_async c asked msgs fetched e ->
  let g := given (e_trace e) in
  (exists rest, items msgs = map snd g ++ rest) /\
  (forall g1 p t q u g2, g = g1 ++ (p, t) :: (q, u) :: g2 -> (q = p <-> t_run u = t_run t)) /\
  (forall p t g2, g = (p, t) :: g2 -> (p = first_tester asked <-> t_run t = 1)).
Proof.
  intros c asked msgs fetched e R g. pose proof (lawful_run _ _ _ _ _ R) as L. split; [|split].
  - exact (lawful_given _ _ _ _ L).
  - intros g1 p t q u g2 E. unfold g in E. change (g1 ++ (p, t) :: (q, u) :: g2) with (g1 ++ [(p, t)] ++ (q, u) :: g2)%list in E.
    rewrite app_assoc in E. destruct (given_split _ _ _ _ _ E) as (h1 & a & h2 & T & G).
    pose proof (L _ _ _ _ T) as (_ & _ & _ & _ & _ & _ & _ & K & _). rewrite G, rev_app_distr in K. exact K.
  - intros p t g2 E. unfold g in E. destruct (given_split _ [] _ _ _ E) as (h1 & a & h2 & T & G).
    pose proof (L _ _ _ _ T) as (_ & _ & _ & _ & _ & _ & _ & K & _). rewrite G in K. exact K.
Qed.

(* ------------------------------------------------------------------ *)
(* A runner that is not asked for a manifest sends none; one that is sends one, unless it is
   shut down first. *)
Theorem C77_one_manifest : forall c asked msgs fetched e, run_async c asked msgs fetched e ->
  (asked = false -> manifests (e_trace e) = []) /\
  (asked = true -> List.length (manifests (e_trace e)) <= 1) /\
  (asked = true -> e_cancel_notified e = false -> List.length (manifests (e_trace e)) = 1).
Proof.
  intros c asked msgs fetched e R. pose proof (lawful_run _ _ _ _ _ R) as L.
  pose proof (lawful_manifests _ _ _ _ L) as M. split; [|split].
  - intros ->. destruct M as [M | [A _]]; [exact M | discriminate].
  - intros _. destruct M as [-> | [_ [r ->]]]; cbn; lia.
  - intros A N. pose proof (run_wp c asked (items msgs) fetched msgs eq_refl) as W.
    destruct R as [tr r X | tr X | tr y X]; cbn [e_trace e_cancel_notified] in *; [| |discriminate].
    + pose proof (wp_sound _ _ _ _ _ _ _ W X) as D. cbn in D.
      destruct r as [x | er]; cbn in D.
      * destruct D as (n & st & info & _ & _ & _ & _ & _ & _ & _ & _ & _ & _ & D).
        destruct (lawful_inits_manifest _ _ _ _ L) as (m & s & E); [|exact A|now rewrite E].
        destruct D as [(b & I & _) | (m & I & _)]; congruence.
      * destruct D as [(I & _ & _ & _ & D) | (i & n & info & _ & D & _)]; rewrite A in D.
        -- destruct D as [(h' & -> & M') | (m & s & -> & _)]; [|reflexivity].
           rewrite manifests_snoc, M'. reflexivity.
        -- destruct D as (m & s & ->). reflexivity.
    + pose proof (wp_sound _ _ _ _ _ _ _ W X) as D. cbn in D. destruct D as [_ I].
      destruct (lawful_inits_manifest _ _ _ _ L I A) as (m & s & E). now rewrite E.
Qed.

(* The manifest that is sent is what the first process said its manifest is, with what it said
   of itself; it is sent after that process ended. *)
Theorem C77_manifest_is_the_process_s : forall c asked msgs fetched e, run_async c asked msgs fetched e ->
  forall before m s a after, e_trace e = before ++ Ev (SendManifest (Manifest m s)) a :: after ->
  generated before = [(0, MSuccess m)] /\ said 0 before = [s] /\ gone 0 before = true.
Proof.
  intros c asked msgs fetched e R h m s a h2 E.
  pose proof (lawful_run _ _ _ _ _ R _ _ _ _ E) as (_ & _ & _ & _ & _ & K). exact K.
Qed.

(* No test is run, and the queue is not asked how to start, before the manifest was sent. *)
Theorem C77_manifest_before_tests : forall c msgs fetched e, run_async c true msgs fetched e ->
  forall before x a after, e_trace e = before ++ Ev x a :: after ->
  match x with GetInit | RunTest _ _ => exists m s, manifests before = [Manifest m s] | _ => True end.
Proof.
  intros c msgs fetched e R h x a h2 E. pose proof (lawful_run _ _ _ _ _ R) as L.
  pose proof (L _ _ _ _ E) as K.
  assert (lawful c true (items msgs) h) as LH.
  { intros h1 x' a' h3 ->. apply (L h1 x' a' (h3 ++ Ev x a :: h2)). rewrite E, <- app_assoc. reflexivity. }
  destruct x; try exact I.
  - destruct K as (_ & _ & _ & _ & _ & (m & w & I & _) & _).
    apply (lawful_inits_manifest _ _ _ _ LH); [congruence | reflexivity].
  - destruct K as (_ & _ & _ & K). exact K.
Qed.

(* If the manifest could not be made, the error that is sent is the error the runner ends with,
   with the same output; and no test was run. *)
Theorem C77_manifest_error_is_the_runner_s : forall c asked msgs fetched e, run_async c asked msgs fetched e ->
  e_cancel_notified e = false ->
  forall err output, In (TestRunnerError err output) (manifests (e_trace e)) ->
  exists info, e_ending e = Failed {| re_error := err; re_output := output; re_info := info |} /\ given (e_trace e) = [].
Proof.
  intros c asked msgs fetched e R N err output IN. pose proof (lawful_run _ _ _ _ _ R) as L.
  assert (asked = true) as A.
  { destruct (lawful_manifests _ _ _ _ L) as [E | [A _]]; [rewrite E in IN; contradiction | exact A]. }
  pose proof (run_wp c asked (items msgs) fetched msgs eq_refl) as W.
  destruct R as [tr r X | tr X | tr y X]; cbn [e_trace e_cancel_notified e_ending] in *; [| |discriminate].
  - pose proof (wp_sound _ _ _ _ _ _ _ W X) as D. cbn in D.
    destruct r as [x | er]; cbn in D.
    + exfalso. destruct D as (n & st & info & _ & _ & _ & _ & _ & _ & _ & _ & _ & _ & D).
      destruct (lawful_inits_manifest _ _ _ _ L) as (m & s & E); [|exact A|].
      * destruct D as [(b & I & _) | (m & I & _)]; congruence.
      * rewrite E in IN. destruct IN as [Z | []]. discriminate.
    + destruct D as [(I & G & _ & _ & D) | (i & n & info & I & _)].
      * rewrite A in D. destruct D as [(h' & -> & M') | (m & s & E & _)].
        -- rewrite manifests_snoc, M' in IN. destruct IN as [Z | []]. injection Z as <- <-.
           exists (re_info er). split; [now destruct er | exact G].
        -- rewrite E in IN. destruct IN as [Z | []]. discriminate.
      * destruct (lawful_inits_manifest _ _ _ _ L) as (m & s & E); [congruence | exact A |].
        rewrite E in IN. destruct IN as [Z | []]. discriminate.
  - pose proof (wp_sound _ _ _ _ _ _ _ W X) as D. cbn in D. destruct D as [_ I].
    destruct (lawful_inits_manifest _ _ _ _ L I A) as (m & s & E). rewrite E in IN. destruct IN as [Z | []]. discriminate.
Qed.

(* ------------------------------------------------------------------ *)
(* A process is started with the address that was bound for it just before, with the worker's
   number, and marked as a retry exactly if tests ran in a process before it. *)
Theorem C77_processes_find_their_runner : forall c asked msgs fetched e, run_async c asked msgs fetched e ->
  lookup "ABQ_SOCKET" (p_extra c) = None ->
  forall before p l ok after, e_trace e = before ++ Ev (Spawn p l) ok :: after ->
  (exists before' addr, before = before' ++ [Ev Bind (Some addr)] /\ lookup "ABQ_SOCKET" (l_env l) = Some addr) /\
  lookup "ABQ_WORKER" (l_env l) = Some (p_worker c) /\
  l_retry l = Nat.ltb (first_tester asked) p.
Proof.
  intros c asked msgs fetched e R N h p l ok h2 E.
  pose proof (lawful_run _ _ _ _ _ R _ _ _ _ E) as (_ & _ & RT & _ & h' & addr & -> & EV). rewrite EV.
  split; [|split; [reflexivity | exact RT]].
  exists h', addr. split; [reflexivity|]. unfold command_env, additional_env. cbn [List.app lookup String.eqb Ascii.eqb Bool.eqb].
  assert (forall k (a b : list (string * string)), lookup k a = None -> lookup k (a ++ b) = lookup k b) as LA.
  { induction a as [|[x v] a IH]; intros b K; [reflexivity|]. cbn in *. destruct (String.eqb k x); [discriminate | auto]. }
  rewrite LA by exact N. destruct (asked && Nat.eqb p 0); reflexivity.
Qed.

(* A process is told to make the manifest exactly if it is the first one of a runner that is
   asked for the manifest, provided that the worker itself was not started with that
   variable. *)
Theorem C77_only_one_makes_the_manifest_partial : forall c asked msgs fetched e, run_async c asked msgs fetched e ->
  lookup "ABQ_GENERATE_MANIFEST" (p_extra c) = None -> lookup "ABQ_GENERATE_MANIFEST" (p_inherited c) = None ->
  forall before p l ok after, e_trace e = before ++ Ev (Spawn p l) ok :: after ->
  lookup "ABQ_GENERATE_MANIFEST" (l_env l) = if asked && Nat.eqb p 0 then Some "1" else None.
Proof.
  intros c asked msgs fetched e R N1 N2 h p l ok h2 E.
  pose proof (lawful_run _ _ _ _ _ R _ _ _ _ E) as (_ & _ & _ & _ & h' & addr & -> & EV). rewrite EV.
  unfold command_env, additional_env. cbn [List.app lookup String.eqb Ascii.eqb Bool.eqb].
  assert (forall k (a b : list (string * string)), lookup k a = None -> lookup k (a ++ b) = lookup k b) as LA.
  { induction a as [|[x v] a IH]; intros b K; [reflexivity|]. cbn in *. destruct (String.eqb k x); [discriminate | auto]. }
  rewrite LA by exact N1. destruct (asked && Nat.eqb p 0); cbn; [reflexivity | exact N2].
Qed.

(* ------------------------------------------------------------------ *)
(* A runner that exits without being shut down waited for each of its processes once.  Its exit
   code is that of the last one, raised to the code of a cancellation if the run was over and
   cancelled.  Its output is that of the processes that ran tests, one after the other; what
   the process that made the manifest wrote is kept apart. *)
Theorem C77_exit_tells_the_whole_run : forall c asked msgs fetched e x, run_async c asked msgs fetched e ->
  e_cancel_notified e = false -> e_ending e = Exited x ->
  let tr := e_trace e in
  exists last st info outs, started tr = seq 0 (last + 1) /\ statuses last tr = [st] /\
    (forall p, In p (started tr) -> exists st, statuses p tr = [st]) /\
    outputs tr = combine (started tr) outs /\ List.length outs = List.length (started tr) /\
    said last tr = [info] /\ x_info x = Some info /\
    let tests := joined (skipn (first_tester asked) outs) in
    x_stdio x = stdio tests /\ x_process x = c_combined tests /\
    x_manifest_output x = (if asked then option_map c_combined (hd_error outs) else None) /\
    x_code x = match inits tr with [Some (AlreadyCompleted true)] => Z.max (exit_code st) 1 | _ => exit_code st end.
Proof.
  intros c asked msgs fetched e x R N X tr.
  pose proof (run_wp c asked (items msgs) fetched msgs eq_refl) as W. unfold tr in *. clear tr.
  destruct R as [tr [y | er] H | tr H | tr y H]; cbn [e_trace e_cancel_notified e_ending] in *; try discriminate.
  injection X as ->. pose proof (wp_sound _ _ _ _ _ _ _ W H) as D. cbn [List.app] in D.
  destruct D as (n & st & info & S & F & WT & ST & SA & XI & O & X1 & X2 & X3 & D).
  exists n, st, info, (map snd (outputs tr)). unfold captures in *.
  split; [exact S|]. split; [exact ST|]. split.
  { intros p I. rewrite S in I. apply in_seq in I. apply WT. lia. }
  split; [rewrite S, <- O; clear; induction (outputs tr) as [|[a b] l IH]; cbn; congruence|].
  split; [rewrite S, <- O; now rewrite !map_length|]. split; [exact SA|]. split; [exact XI|].
  cbv zeta. split; [exact X1|]. split; [exact X2|]. split; [exact X3|].
  destruct D as [(b & -> & C & _) | (m & -> & _ & C & _)]; [destruct b; exact C | exact C].
Qed.

(* A runner that fails after it asked the queue how to start also tells the output of all
   processes that ran tests, and what the last one said of itself. *)
Theorem C77_failure_tells_the_output : forall c asked msgs fetched e er, run_async c asked msgs fetched e ->
  e_ending e = Failed er -> inits (e_trace e) <> [] ->
  let tr := e_trace e in
  exists last info outs, started tr = seq 0 (last + 1) /\ outputs tr = combine (started tr) outs /\
    List.length outs = List.length (started tr) /\ said last tr = [info] /\ re_info er = Some info /\
    re_output er = stdio (joined (skipn (first_tester asked) outs)).
Proof.
  intros c asked msgs fetched e er R X IN tr.
  pose proof (run_wp c asked (items msgs) fetched msgs eq_refl) as W. unfold tr in *. clear tr.
  destruct R as [tr [y | er'] H | tr H | tr y H]; cbn [e_trace e_cancel_notified e_ending] in *; try discriminate.
  injection X as ->. pose proof (wp_sound _ _ _ _ _ _ _ W H) as D. cbn [List.app] in D.
  destruct D as [(I & _) | (i & n & info & I & M & S & SA & RI & O & RO & _)]; [contradiction|].
  exists n, info, (map snd (outputs tr)). unfold captures in *.
  split; [exact S|]. split; [rewrite S, <- O; clear; induction (outputs tr) as [|[a b] l IH]; cbn; congruence|].
  split; [rewrite S, <- O; now rewrite !map_length|]. auto.
Qed.

(* ------------------------------------------------------------------ *)
(* The queue is notified at most once that all tests were run, and nothing is reported, nor any
   test run, after that. *)
Theorem C77_notified_last : forall c asked msgs fetched e, run_async c asked msgs fetched e ->
  notified (e_trace e) <= 1 /\
  forall before x a after, e_trace e = before ++ Ev x a :: after ->
  match x with Report _ _ _ | RunTest _ _ => notified before = 0 | _ => True end.
Proof.
  intros c asked msgs fetched e R. pose proof (lawful_run _ _ _ _ _ R) as L.
  split; [exact (lawful_notified _ _ _ _ L)|]. intros h x a h2 E. pose proof (L _ _ _ _ E) as K.
  destruct x; try exact I; [apply K | exact K].
Qed.

(* A runner that exits without being shut down, and was not told that the run is over, has run
   every test it received, reported for each what its process answered, and notified the
   queue. *)
Theorem C77_exit_means_all_tests_run : forall c asked msgs fetched e x, run_async c asked msgs fetched e ->
  e_cancel_notified e = false -> e_ending e = Exited x ->
  forall meta, inits (e_trace e) = [Some (Context meta)] ->
  map snd (given (e_trace e)) = items msgs /\ map fst (answered (e_trace e)) = items msgs /\
  reports (e_trace e) = map (fun a => (t_work (fst a), t_run (fst a), Results (snd a))) (answered (e_trace e)) /\
  notified (e_trace e) = 1 /\ fetched = true.
Proof.
  intros c asked msgs fetched e x R N X meta I.
  pose proof (run_wp c asked (items msgs) fetched msgs eq_refl) as W.
  destruct R as [tr [y | er] H | tr H | tr y H]; cbn [e_trace e_cancel_notified e_ending] in *; try discriminate.
  injection X as ->. pose proof (wp_sound _ _ _ _ _ _ _ W H) as D. cbn [List.app] in D.
  destruct D as (n & st & info & _ & _ & _ & _ & _ & _ & _ & _ & _ & _ & D).
  destruct D as [(b & E & _) | (m & E & F & _ & G & A & P & NO)]; [congruence|]. auto.
Qed.

(* If nothing goes wrong with starting and ending processes, every test that is received is
   reported once, in order: with what its process answered, or, from the first test on that
   breaks its process or runs out of time, as an internal error; and the queue is notified.
   (Missing: a process for a retry that cannot be started; see below.) *)
Theorem C77_every_test_is_reported_partial : forall c asked msgs fetched e, run_async c asked msgs fetched e ->
  e_cancel_notified e = false -> forallb smooth (e_trace e) = true ->
  forall meta, inits (e_trace e) = [Some (Context meta)] ->
  map (fun r => fst (fst r)) (reports (e_trace e)) = map t_work (items msgs) /\
  (exists run n, reports (e_trace e) =
     map (fun a => (t_work (fst a), t_run (fst a), Results (snd a))) (answered (e_trace e)) ++
     map (fun t => (t_work t, run, InternalError)) (skipn n (items msgs))) /\
  notified (e_trace e) = 1.
Proof.
  intros c asked msgs fetched e R N SM meta I.
  pose proof (run_wp c asked (items msgs) fetched msgs eq_refl) as W.
  assert (forall tr, all_reported (items msgs) tr ->
    map (fun r => fst (fst r)) (reports tr) = map t_work (items msgs) /\
    (exists run n, reports tr = map (fun a => (t_work (fst a), t_run (fst a), Results (snd a))) (answered tr) ++
       map (fun t => (t_work t, run, InternalError)) (skipn n (items msgs))) /\ notified tr = 1) as FIN.
  { intros tr (NO & run & failed & RP & SP). split; [|split; [|exact NO]].
    - rewrite RP, map_app, !map_map. cbn. rewrite <- SP, map_map. f_equal. now rewrite map_id.
    - exists run, (List.length (answered tr)). rewrite RP. f_equal.
      assert (failed = map t_work (skipn (List.length (answered tr)) (items msgs))) as ->.
      { rewrite <- skipn_map, <- SP, skipn_app, !map_length, Nat.sub_diag. cbn.
        rewrite skipn_all2; [reflexivity|]. now rewrite !map_length. }
      now rewrite map_map. }
  destruct R as [tr [y | er] H | tr H | tr y H]; cbn [e_trace e_cancel_notified e_ending] in *; try discriminate.
  - pose proof (wp_sound _ _ _ _ _ _ _ W H) as D. cbn [List.app] in D.
    destruct D as (n & st & info & _ & _ & _ & _ & _ & _ & _ & _ & _ & _ & D).
    destruct D as [(b & E & _) | (m & E & F & _ & G & A & P & NO)]; [congruence|].
    apply FIN. split; [exact NO|]. exists 0, []. cbn [map]. rewrite !app_nil_r, A. now split.
  - pose proof (wp_sound _ _ _ _ _ _ _ W H) as D. cbn [List.app] in D.
    destruct D as [(E & _) | (i & n & info & E & M & S & SA & RI & O & RO & D)]; [congruence|].
    rewrite I in E. injection E as <-. destruct D as [D | D]; [unfold rough in D; congruence | now apply FIN].
  - pose proof (wp_sound _ _ _ _ _ _ _ W H) as D. cbn [List.app] in D. destruct D as [D _]. unfold rough in D; congruence.
Qed.

(* A runner's task does not panic if nothing goes wrong with starting and ending processes. *)
Theorem C77_no_panic_partial : forall c asked msgs fetched e, run_async c asked msgs fetched e ->
  forallb smooth (e_trace e) = true -> e_ending e <> TaskPanicked.
Proof.
  intros c asked msgs fetched e R SM X. pose proof (run_wp c asked (items msgs) fetched msgs eq_refl) as W.
  destruct R as [tr [y | er] H | tr H | tr y H]; cbn [e_trace e_ending] in *; try discriminate.
  pose proof (wp_sound _ _ _ _ _ _ _ W H) as D. cbn [List.app] in D. destruct D as [D _]. unfold rough in D; congruence.
Qed.

(* ------------------------------------------------------------------ *)
(* However a runner ends, each process it started has been waited for or killed, or is killed
   when the runner's handle of it is dropped. *)
Theorem C77_no_process_is_left : forall c asked msgs fetched e, run_async c asked msgs fetched e ->
  forall p, In p (started (e_trace e)) -> gone p (e_trace e) = true \/ existsb (killed_by_drop p) (e_trace e) = true.
Proof.
  intros c asked msgs fetched e R p IN. right. pose proof (lawful_run _ _ _ _ _ R) as L.
  unfold started in IN. apply in_flat_map in IN. destruct IN as (x & X & P).
  apply existsb_exists. exists x. split; [exact X|]. apply in_split in X. destruct X as (h1 & h2 & E).
  destruct x as [[] a]; try contradiction. cbn in P. destruct a; [|contradiction]. destruct P as [<- | []].
  pose proof (L _ _ _ _ E) as (_ & _ & _ & K & _). cbn. now rewrite Nat.eqb_refl, K.
Qed.

(* A runner that is shut down notifies the queue of the cancellation and exits with the code of
   a cancellation and no output; no other runner notifies it. *)
Theorem C77_shutdown : forall c asked msgs fetched e, run_async c asked msgs fetched e ->
  e_cancel_notified e = true ->
  exists x, e_ending e = Exited x /\ x_code x = 1%Z /\ x_stdio x = ([], []) /\ x_process x = [] /\
    x_manifest_output x = None.
Proof.
  intros c asked msgs fetched e R N. destruct R; cbn in *; try discriminate. exists cancelled_exit. repeat split.
Qed.

(* The error a runner ends with says what went wrong: a process of another version of the
   protocol, one that did not introduce itself in time, the failure it reported itself when it
   was to make the manifest, a test that broke off or took too long, the fetching of tests, or
   an operation of the system that failed. *)
Theorem C77_error_has_its_cause : forall c asked msgs fetched e er, run_async c asked msgs fetched e ->
  e_ending e = Failed er -> caused fetched (re_error er) (e_trace e).
Proof.
  intros c asked msgs fetched e er R X. destruct R as [tr [y|er'] H|tr H|tr y H]; cbn [e_trace e_ending] in *; try discriminate.
  injection X as ->. exact (wp_sound _ _ _ _ _ _ _ (run_cause fetched c asked msgs []) H).
Qed.
Example C77_error_ex : exists tr er, run_async ex_params false ex_msgs true {| e_trace := tr; e_cancel_notified := false; e_ending := Failed er |} /\
  re_error er = ENotCompatible.
Proof.
  exists [Ev Bind (Some "127.0.0.1:9"); Ev (Spawn 0 (ex_launch ex_params false false)) true; Ev (Hello 0) (HSaid {| sp_version := (0, 3); sp_spec := 9 |});
          Ev (FinishOrTimeout 0) (Some None)], {| re_error := ENotCompatible; re_output := ([], []); re_info := None |}.
  split; [|reflexivity]. apply (ran _ _ _ _ _ (inr {| re_error := ENotCompatible; re_output := ([], []); re_info := None |})).
  cbn. repeat (right; do 2 eexists; split; [reflexivity|]; cbn). split; reflexivity.
Qed.

(* A runner ends, if it is answered: whatever the answers, it waits for no more of them than
   fourteen for each message it receives and thirty. *)
Theorem C77_runner_ends : forall c asked msgs fetched tr o,
  executes (run_to_completion c asked msgs fetched) tr o -> List.length tr <= 14 * List.length msgs + 30.
Proof.
  intros c asked msgs fetched tr o E. set (N := 14 * List.length msgs + 30).
  pose proof (wp_sound _ _ _ _ _ _ _ (run_within N c asked msgs fetched (le_n _)) E) as H. cbn [List.app] in H.
  destruct o; [unfold within in H; lia | exact H |].
  destruct tr as [|x tr] using rev_ind; [cbn; lia|]. clear IHtr. destruct x as [f a].
  pose proof (wp_rules _ _ _ _ _ _ _ (run_within N c asked msgs fetched (le_n _)) E tr f a [] eq_refl) as K.
  unfold within in K. cbn in K. rewrite app_length. cbn. lia.
Qed.

(* ------------------------------------------------------------------ *)
(* A process for a retry that cannot be started: tests that were received are neither run nor
   reported, the queue is not notified, and the runner panics, because it waits again for the
   output of the process before, instead of ending with the error. *)
Theorem C77_every_test_is_reported_refuted :
  run_async ex_params false lost_msgs true lost_ended /\
  inits (e_trace lost_ended) = [Some (Context 7)] /\ e_cancel_notified lost_ended = false /\
  map t_work (items lost_msgs) = [10; 10; 11] /\ map (fun r => fst (fst r)) (reports (e_trace lost_ended)) = [10] /\
  notified (e_trace lost_ended) = 0 /\ e_ending lost_ended = TaskPanicked.
Proof.
  split; [|repeat split]. apply panicked. cbn. repeat (right; do 2 eexists; split; [reflexivity|]; cbn). split; reflexivity.
Qed.

(* If the output of a process cannot be passed on (the worker's own output is closed, say), the
   runner panics after all tests were run. *)
Theorem C77_no_panic_refuted :
  run_async ex_params false closed_msgs true closed_ended /\
  reports (e_trace closed_ended) = [(10, 1, Results 20)] /\ notified (e_trace closed_ended) = 1 /\
  e_ending closed_ended = TaskPanicked.
Proof.
  split; [|repeat split]. apply panicked. cbn. repeat (right; do 2 eexists; split; [reflexivity|]; cbn). split; reflexivity.
Qed.

(* A worker that was itself started with the variable passes it on to every process, also to
   those that are to run tests. *)
Theorem C77_only_one_makes_the_manifest_refuted :
  run_async nested_params false [] true nested_ended /\
  exists before l ok after, e_trace nested_ended = before ++ Ev (Spawn 0 l) ok :: after /\
    lookup "ABQ_GENERATE_MANIFEST" (l_env l) = Some "1".
Proof.
  split.
  - apply (shut_down _ _ _ _ _ GetInit). cbn. do 3 (right; do 2 eexists; split; [reflexivity|]; cbn). left. split; reflexivity.
  - exists [Ev Bind (Some "127.0.0.1:9")]. do 3 eexists. split; reflexivity.
Qed.

(* ------------------------------------------------------------------ *)
(* A run that meets the hypotheses: it exits, nothing goes wrong, and tests are retried. *)
Example C77_example_run : run_async ex_params true ex_msgs true ex_ended.
Proof.
  apply (ran ex_params true ex_msgs true ex_trace (inl ex_exit)). cbn.
  repeat (right; do 2 eexists; split; [reflexivity|]; cbn). split; reflexivity.
Qed.
Example C77_example_facts :
  forallb smooth (e_trace ex_ended) = true /\ inits (e_trace ex_ended) = [Some (Context 7)] /\
  manifests (e_trace ex_ended) = [Manifest 5 ex_spoken] /\ started (e_trace ex_ended) = [0; 1; 2] /\
  map fst (given (e_trace ex_ended)) = [1; 1; 2] /\
  told 1 (e_trace ex_ended) = [InitMessage 7 false; TestCase 10; TestCase 11] /\
  reports (e_trace ex_ended) = [(10, 1, Results 20); (11, 1, Results 21); (11, 2, Results 22)] /\
  lookup "ABQ_GENERATE_MANIFEST" (p_inherited ex_params) = None /\ lookup "ABQ_SOCKET" (p_extra ex_params) = None /\
  lookup "ABQ_GENERATE_MANIFEST" (p_extra ex_params) = None.
Proof. repeat split. Qed.
(* a process that is shut down while it runs a test *)
Example C77_example_shutdown : run_async ex_params true ex_msgs true
  {| e_trace := firstn 15 ex_trace; e_cancel_notified := true; e_ending := Exited cancelled_exit |}.
Proof.
  apply (shut_down _ _ _ _ _ (RunTest 1 (ex_t 11 1)) ). cbn.
  repeat (right; do 2 eexists; split; [reflexivity|]; cbn).
  left; split; reflexivity.
Qed.

Print Assumptions C77_one_process_at_a_time.
Print Assumptions C77_processes_are_told_the_protocol.
Print Assumptions C77_tests_go_to_ready_processes.
Print Assumptions C77_attempts_have_their_own_processes.
Print Assumptions C77_one_manifest.
Print Assumptions C77_manifest_is_the_process_s.
Print Assumptions C77_manifest_before_tests.
Print Assumptions C77_manifest_error_is_the_runner_s.
Print Assumptions C77_processes_find_their_runner.
Print Assumptions C77_only_one_makes_the_manifest_partial.
Print Assumptions C77_exit_tells_the_whole_run.
Print Assumptions C77_failure_tells_the_output.
Print Assumptions C77_notified_last.
Print Assumptions C77_exit_means_all_tests_run.
Print Assumptions C77_every_test_is_reported_partial.
Print Assumptions C77_no_panic_partial.
Print Assumptions C77_no_process_is_left.
Print Assumptions C77_shutdown.
Print Assumptions C77_runner_ends.
Print Assumptions C77_every_test_is_reported_refuted.
Print Assumptions C77_no_panic_refuted.
Print Assumptions C77_only_one_makes_the_manifest_refuted.
Print Assumptions C77_error_has_its_cause.
