(* C69: the process of a worker, from attaching to its exit. *)
From Verif Require Import Base RunModel RunSpec RunProps PoolModel PoolSpec PoolProofs PoolProps WorkerModel WorkerSpec WorkerProofs.
From Coq Require Import ZArith Lia.
Local Open Scope Z_scope.

(* As long as the queue says that it does not know the run, the worker goes on asking, with
   pauses that double from 10 ms to 3 s; nothing else happens, whatever signals come. *)
Theorem C69_keeps_asking g es : undecided es ->
  let w := run (wstep g) winit es in
  (exists d, w_phase w = Negotiating d) /\
  w_log w = flat_map (fun i => [Asked; Slept (pause i)]) (seq 0 (number_of_attempts es)).
Proof.
  intros U w. pose proof (good_run g es) as [_ G]. fold w in G.
  assert (ND : forall P, ~ decided es P).
  { intros P (es1 & a & ok & es2 & E & _ & D & _). unfold undecided in U. rewrite Forall_forall in U. specialize (U (EAttempt a ok)).
    rewrite E in U. specialize (U (in_elt _ _ _)). destruct a as [| | |[]]; try discriminate. now apply D. }
  destruct (w_phase w) as [d|n en|n en|c].
  - destruct G as (_ & _ & L). split; eauto.
  - now apply ND in G.
  - destruct G as [_ G]. now apply ND in G.
  - now apply ND in G.
Qed.

(* A worker that has exited had been answered, and its exit code is the right one for what
   it was answered and how its runners ended. *)
Theorem C69_exit_code g es c : w_phase (run (wstep g) winit es) = Exited c ->
  exists es1 a ok es2, es = es1 ++ EAttempt a ok :: es2 /\ undecided es1 /\ decisive (EAttempt a ok) = true /\
    right_code a ok es2 (In ESignal es) c.
Proof.
  intros X. pose proof (good_run g es) as [_ G]. rewrite X in G. destruct G as (es1 & a & ok & es2 & E & U & D & R & _).
  exists es1, a, ok, es2. split; auto. split; auto. split; auto. destruct a as [| | |[]]; try reflexivity. now contradiction D.
Qed.

(* A worker exits with 0 only if it was told that the run is over, with a code that is not
   positive, or all its runners ended without an error and none of the tests it reported on
   is taken for failed. *)
Theorem C69_exit_zero g es : w_phase (run (wstep g) winit es) = Exited 0 ->
  exists es1 a ok es2, es = es1 ++ EAttempt a ok :: es2 /\ undecided es1 /\
    ((exists code, a = Got (MCompleted code) /\ code <= 0) \/
     (exists k d e, a = Got (MContext k d) /\ runners_end es2 = Some e /\ clean e)).
Proof.
  intros X. apply C69_exit_code in X as (es1 & a & ok & es2 & E & U & D & R). exists es1, a, ok, es2. split; auto. split; auto.
  destruct a as [| | |[code|r|k d| |]]; cbn [right_code] in R; try discriminate.
  - left. exists code. split; auto. destruct R as [R|[_ R]]; [lia|discriminate].
  - destruct R as [R|[_ R]]; discriminate.
  - right. destruct (d && negb ok); [discriminate|]. destruct R as (e & RE & [C|[_ C]]); [|destruct e; discriminate].
    exists k, d, e. split; auto. split; auto. destruct e as [rs [p|]|]; cbn [code_at_end] in C; try discriminate.
    cbn [clean]. destruct (x_status (shutdown rs)) as [cc|er] eqn:S; [|discriminate]. cbn [worker_exit_code] in C. split; [|lia].
    apply Forall_forall. intros x I. destruct x as [a0 b0 c0 d0 e0|er o i]; [exact Logic.I|].
    exfalso. assert (Q : exists e0 o0 i0, In (RErr e0 o0 i0) rs) by eauto. apply status_errored in Q as (es0 & Q). congruence.
Qed.

(* A run that is over with failures is no reason for a late worker to fail: it exits with
   what it is told. *)
Theorem C69_late_worker g code : run (wstep g) winit [EAttempt (Got (MCompleted code)) true; EPoll false] =
  {| w_phase := Exited (Z.max 0 code); w_signal := false; w_log := Asked :: PrintedSummary :: (if g_write g && g_remote g then [PrintedReplay] else []) |}.
Proof. destruct g as [p [] []]; reflexivity. Qed.

(* The runners are started at most once, only if the worker is told to run tests; one is to
   generate the manifest iff the worker was told so, and they first run the tests of an
   earlier worker iff it was told so. *)
Theorem C69_starts g es :
  let started := starts (w_log (run (wstep g) winit es)) in
  (length started <= 1)%nat /\
  forall b r, In (b, r) started -> exists es1 k d ok es2, es = es1 ++ EAttempt (Got (MContext k d)) ok :: es2 /\ undecided es1 /\
    (d = true -> ok = true) /\ (b = true <-> k = Fresh true) /\ (r = true <-> k = RetryAndContinue).
Proof.
  intros started. pose proof (good_run g es) as [_ G]. fold started in G.
  assert (H : started = [] \/ decided es (fun a ok es2 => started = starts_of a ok)).
  { destruct (w_phase _).
    - left. destruct G as (_ & _ & L). unfold started. rewrite L. apply starts_asks.
    - right. destruct G as (es1 & a & ok & es2 & X). exists es1, a, ok, es2. intuition.
    - right. destruct G as (_ & es1 & a & ok & es2 & X). exists es1, a, ok, es2. intuition.
    - right. destruct G as (es1 & a & ok & es2 & X). exists es1, a, ok, es2. intuition. }
  destruct H as [->|(es1 & a & ok & es2 & E & U & D & ->)]; [split; [simpl; lia|intros b r []]|].
  unfold starts_of, neg_of. destruct a as [| | |[code|re|k d| |]]; try (split; [simpl; lia|intros b r []]).
  destruct (d && negb ok) eqn:DN; [split; [simpl; lia|intros b r []]|]. split; [simpl; lia|].
  intros b r [I|[]]. injection I as <- <-. exists es1, k, d, ok, es2. split; auto. split; auto.
  split; [intros ->; destruct ok; auto; discriminate|]. destruct k as [[|]|]; simpl; intuition congruence.
Qed.

(* What is printed when the runners have ended and no signal came. *)
Theorem C69_prints g w b r rs p first : w_phase w = Waiting (Pool b r) (Some (Ended rs (Some p))) -> w_signal w = false ->
  let x := shutdown rs in
  let w' := wstep g w (EPoll first) in
  exists os, w_log w' = w_log w ++ os /\
    outputs os = (if g_piped g then [] else filter (fun e => match snd e with [] => false | _ => true end) (combine (seq 1 (length rs)) (map process_of rs))) /\
    manifest_outputs os = match x_manifest_output x with Some (_, t) => if is_blank t then [] else [t] | None => [] end /\
    errors os = p_errors p ++ flat_map error_of rs /\
    summaries os = (if (match flat_map error_of rs with [] => true | _ => false end) || Nat.ltb 0 (p_count p) then 1 else 0)%nat /\
    replays os = (if g_write g && g_remote g then summaries os else 0)%nat.
Proof.
  intros P S x w'. unfold w', wstep. rewrite P, S. cbn [andb wait_over]. unfold do_shutdown, exit_of. fold x.
  eexists. split; [reflexivity|].
  assert (PO : forall l, outputs (process_outputs g l) = (if g_piped g then [] else filter (fun e => match snd e with [] => false | _ => true end) l) /\
     manifest_outputs (process_outputs g l) = [] /\ errors (process_outputs g l) = [] /\ summaries (process_outputs g l) = 0%nat /\ replays (process_outputs g l) = 0%nat).
  { induction l as [|[i t] l (I1 & I2 & I3 & I4 & I5)]; [destruct (g_piped g); repeat split|]. unfold process_outputs in *. cbn [flat_map filter snd fst].
    destruct (g_piped g); [cbn [orb app]; repeat split; assumption|]. cbn [orb]. destruct t; cbn [app]; repeat split; auto.
    - unfold outputs in *. cbn [flat_map app]. f_equal. exact I1. }
  assert (OA : forall f g0 : list out, outputs (f ++ g0) = outputs f ++ outputs g0 /\ manifest_outputs (f ++ g0) = manifest_outputs f ++ manifest_outputs g0 /\
     errors (f ++ g0) = errors f ++ errors g0 /\ (summaries (f ++ g0) = summaries f + summaries g0)%nat /\ (replays (f ++ g0) = replays f + replays g0)%nat).
  { intros f g0. unfold outputs, manifest_outputs, errors, summaries, replays. rewrite !flat_map_app, !filter_app, !app_length. repeat split. }
  assert (PE : forall ts, outputs (print_errors ts) = [] /\ manifest_outputs (print_errors ts) = [] /\ errors (print_errors ts) = ts /\ summaries (print_errors ts) = 0%nat /\ replays (print_errors ts) = 0%nat).
  { intros [|t ts]; repeat split. unfold errors. cbn [print_errors flat_map]. apply app_nil_r. }
  assert (MO : forall o, outputs (manifest_output o) = [] /\ manifest_outputs (manifest_output o) = match o with Some (_, t) => if is_blank t then [] else [t] | None => [] end /\
     errors (manifest_output o) = [] /\ summaries (manifest_output o) = 0%nat /\ replays (manifest_output o) = 0%nat).
  { intros [[i t]|]; [|repeat split]. cbn [manifest_output]. destruct (is_blank t); repeat split. }
  set (a := manifest_output _). set (b0 := process_outputs _ _). set (c := print_errors (p_errors p)). set (d := summary_output _ _ _).
  set (e := match x_status x with Completed _ => [] | Errored es => print_errors es end).
  destruct (OA a (b0 ++ c ++ d ++ e)) as (-> & -> & -> & -> & ->). destruct (OA b0 (c ++ d ++ e)) as (-> & -> & -> & -> & ->).
  destruct (OA c (d ++ e)) as (-> & -> & -> & -> & ->). destruct (OA d e) as (-> & -> & -> & -> & ->).
  unfold a, b0, c. destruct (MO (x_manifest_output x)) as (-> & -> & -> & -> & ->). destruct (PO (x_process x)) as (-> & -> & -> & -> & ->).
  destruct (PE (p_errors p)) as (-> & -> & -> & -> & ->).
  assert (XP : x_process x = combine (seq 1 (length rs)) (map process_of rs)) by apply C39_outputs. rewrite XP.
  assert (XS : x_status x = match flat_map error_of rs with [] => Completed (a_code (pool_loop pool_init 1 rs)) | er => Errored er end).
  { unfold x, shutdown. cbn [x_status]. rewrite loop_errors. cbn [pool_init a_errors app]. destruct (flat_map error_of rs); reflexivity. }
  unfold d, e, summary_output. rewrite XS. destruct (flat_map error_of rs) as [|er ers].
  - cbn [orb]. destruct (g_write g && g_remote g); cbn; rewrite ?app_nil_r; repeat split.
  - cbn [orb]. destruct (PE (er :: ers)) as (-> & -> & -> & -> & ->). destruct (Nat.ltb 0 (p_count p)), (g_write g && g_remote g); cbn; rewrite ?app_nil_r; repeat split.
Qed.

(* Refuted: that a termination signal ends the process.  While it attaches, a signal is
   taken in and nothing comes of it, however often the main task is polled. *)
Theorem C69_signal_refuted : forall g n, exists es, In ESignal es /\ (n <= number_of_attempts es)%nat /\
  forall polls, Forall (fun e => exists b, e = EPoll b) polls -> exists d, w_phase (run (wstep g) winit (es ++ polls)) = Negotiating d.
Proof.
  intros g n. exists (ESignal :: repeat (EAttempt (Got MUnknown) true) n). split; [left; reflexivity|]. split.
  - unfold number_of_attempts. cbn [filter is_attempt]. induction n as [|n IH]; [apply le_n|]. cbn [repeat filter is_attempt length]. lia.
  - intros polls F. refine (proj1 (C69_keeps_asking g _ _)). unfold undecided. apply Forall_app. split.
    + constructor; auto. induction n; constructor; auto.
    + rewrite Forall_forall in *. intros e I. destruct (F e I) as [b ->]. reflexivity.
Qed.

(* Once attached, it does: the runners are told to stop, and when they have, the process
   exits with 1 (101 if one of them panicked); the run is not summed up. *)
Theorem C69_signal_partial g w n ended e b :
  w_phase w = Waiting n ended -> w_signal w = true -> (forall x, ended = Some x -> x = e) ->
  let w' := run (wstep g) w [EPoll true; EPoolEnds e; EPoll b] in
  (exists c, w_phase w' = Exited c /\ (c = 1 \/ (e = RunnerPanicked /\ c = 101))) /\
  w_log w' = w_log w ++ (match n with Pool _ _ => [ToldRunners] | _ => [] end).
Proof.
  destruct w as [ph sg lg]. cbn [w_phase w_signal w_log]. intros -> -> EN.
  destruct n as [code|r|g0 r0]; [| |destruct ended as [x|]; [rewrite (EN x eq_refl)|]; destruct e as [rs p|]];
    cbn; rewrite ?app_nil_r; (split; [eexists; split; [reflexivity|auto]|reflexivity]).
Qed.

(* With the queue of RunModel: every answer is decisive, so that a worker asks once. *)
Theorem C69_queue_decides (T M : Type) (st : @RunModel.state T M) r p a ok :
  reachable st -> In (OAssigned p a) (history st r) -> decisive (EAttempt (Got (reply_to a)) ok) = true.
Proof. intros HR I. destruct a; try reflexivity. now apply C07_never_unknown in I. Qed.

(* And of all runners of all workers of a run, at most one is to generate its manifest,
   whatever number of runners each worker has. *)
Theorem C69_one_generator (T M : Type) (st : @RunModel.state T M) r (runners : find_params -> nat) :
  reachable st -> (forall p, 1 <= runners p)%nat ->
  (length (flat_map (fun o => match o with
     | OAssigned p a => match reply_to a with
                        | MContext k d => filter (should_generate_manifest (generates k)) (seq 1 (runners p))
                        | _ => []
                        end
     | _ => []
     end) (history st r)) <= 1)%nat.
Proof.
  intros HR N. destruct (C07_one_generator st r HR) as [C _]. eapply Nat.le_trans; [|exact C]. clear C.
  induction (history st r) as [|o l IH]; [apply le_n|]. cbn [flat_map]. rewrite app_length.
  assert (X : (count told_to_generate (o :: l) = (if told_to_generate o then 1 else 0) + count told_to_generate l)%nat) by (unfold count; cbn [filter]; destruct (told_to_generate o); reflexivity).
  rewrite X. apply Nat.add_le_mono; auto. destruct o as [p a| | | | | | | | | | | |]; try apply Nat.le_0_l.
  destruct a as [|k d|code|re|]; try apply Nat.le_0_l. cbn [reply_to]. rewrite C07_one_runner_of_the_pool by apply N. destruct k as [[|]|]; apply le_n.
Qed.

(* Non-vacuity: a worker that asks twice, runs its tests on two runners and exits with the
   suite's code; one that is signalled while its runners work; one whose warning cannot be
   printed. *)
Definition remote : wconfig := {| g_piped := false; g_write := true; g_remote := true |}.
Definition quiet : runner_exit unit := ROk 0 None {| so_out := []; so_err := [] |} [] None.
Definition noisy : runner_exit unit := ROk 0 (Some [104; 105]%nat) {| so_out := []; so_err := [] |} [111; 107]%nat None.
Example C69_run : run (wstep remote) winit
    [EAttempt (Got MUnknown) true; EAttempt (Got MUnknown) true; EAttempt (Got (MContext (Fresh true) true)) true;
     EPoll false; EPoolEnds (Ended [quiet; noisy] (Some {| p_suite := 1; p_count := 3; p_errors := [] |})); EPoll true] =
  {| w_phase := Exited 1; w_signal := false;
     w_log := [Asked; Slept 10; Asked; Slept 20; Asked; Warned; Started true false; PrintedManifest [104; 105]%nat; PrintedOutput 2 [111; 107]%nat;
               PrintedSummary; PrintedReplay] |}.
Proof. reflexivity. Qed.
Example C69_signalled : run (wstep remote) winit
    [EAttempt (Got (MContext RetryAndContinue false)) true; ESignal; EPoll false; EPoolEnds (Ended [quiet] None); EPoll true] =
  {| w_phase := Exited 1; w_signal := true; w_log := [Asked; Started false true; ToldRunners] |}.
Proof. reflexivity. Qed.
Example C69_zero : w_phase (run (wstep remote) winit
    [EAttempt (Got (MContext (Fresh false) false)) true; EPoolEnds (Ended [quiet] (Some {| p_suite := 0; p_count := 3; p_errors := [] |})); EPoll true]) = Exited 0.
Proof. reflexivity. Qed.
Example C69_pauses : map pause (seq 0 10) = [10; 20; 40; 80; 160; 320; 640; 1280; 2560; 3000].
Proof. reflexivity. Qed.

Print Assumptions C69_keeps_asking.
Print Assumptions C69_exit_code.
Print Assumptions C69_exit_zero.
Print Assumptions C69_late_worker.
Print Assumptions C69_starts.
Print Assumptions C69_prints.
Print Assumptions C69_signal_refuted.
Print Assumptions C69_signal_partial.
Print Assumptions C69_queue_decides.
Print Assumptions C69_one_generator.
