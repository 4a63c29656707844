(* Property theorems about what the queue gives out (C94), and what is kept of a run that is over (C10). *)
From Verif Require Import Base JobQueueModel WorkerSetModel ManifestViewModel RunModel RunSpec RunProofs RunInv RunNext
  RunLemmas RunParts GivenSpec GivenProofs RunProps.

Section Props.
Context {T M : Type}.
Implicit Types (st : state T M) (r : run_id).

(* Once the queue took the manifest of a run, everything it ever gives for that run is out of that manifest: the
   tests of all answers are tests of it, each in its first attempt; the setup of native runners is the one that
   came with it; and what is to be stored is all its tests in their order, and that setup.  No later manifest, no
   other run, and no order of requests changes that. *)
Theorem C94_from_the_manifest (es1 es2 : list (event T M)) r flat meta :
  taken (run step init_state es1) r flat meta ->
  forall o, In o (history (run step init_state (es1 ++ EManifest r flat meta :: es2)) r) ->
  gives_from (tests_from flat) (setup_from flat meta) o.
Proof. exact (from_the_manifest es1 es2 r flat meta). Qed.

(* Nothing is made up: either the queue took a manifest of the run, or it loaded the state of the run, which was
   over, on a question of a worker of that run, and then gives no tests and the stored setup; or it gave neither
   tests nor a setup. *)
Theorem C94_only_what_was_given (es : list (event T M)) r :
  let h := history (run step init_state es) r in
  (forall o, In o h -> gives_nothing o) \/
  (exists es1 flat meta es2, es = es1 ++ EManifest r flat meta :: es2 /\ taken (run step init_state es1) r flat meta) \/
  (exists es1 k sv now es2 p, es = es1 ++ EFindRemote k (RemoteFound sv) now :: es2 /\
     nth_error (s_reqs (run step init_state es1)) k = Some (QFind p FRemote) /\ fp_run p = r /\
     forall o, In o h -> gives_from [] (sv_meta sv) o).
Proof.
  cbv zeta. destruct (from_where es r) as [[_ F]|[H|(es1 & k & sv & now & es2 & p & E & Hk & Hr & _ & F)]].
  - left. now apply Forall_forall.
  - auto.
  - right; right. exists es1, k, sv, now, es2, p. repeat split; auto. now apply Forall_forall.
Qed.

(* While the manifest is awaited, nothing has been given. *)
Theorem C94_nothing_before st r : reachable st -> phase_of st r = Some PhWaiting -> forall o, In o (history st r) -> gives_nothing o.
Proof.
  intros HR H. apply Forall_forall, (unset_nothing r st HR). unfold phase_of in H.
  destruct (get r (s_runs st)) as [[]|]; cbn in *; try discriminate; exact Logic.I.
Qed.

(* What is kept of a run that is over: exit code 0, and the command of the worker that was to generate the manifest. *)
Theorem C10_plan_keeps st r k e ts eow p :
  reachable st -> In (OWork k r e ts eow (Some p)) (history st r) ->
  sv_exit (pl_state p) = 0 /\
  exists f d, In (OAssigned f (AssignedRun (Fresh true) d)) (history st r) /\ sv_hash (pl_state p) = Some (fp_hash f).
Proof.
  intros HR Hin. destruct (plan_told r st HR _ _ _ _ _ Hin) as (f & d & H).
  destruct (plan_inv r st HR _ _ _ _ _ Hin) as (ec & m & seen & mp & hh & c & js & Hg & _ & <- & _ & <-).
  pose proof (ginv_ok r st HR f d H) as G. rewrite Hg in G. split; [apply G|]. exists f, d. split; [exact H|apply G].
Qed.
End Props.

(* ex_end (RunProps): two workers of run 0 connect, the manifest is taken, all three tests are sent; then one asks
   for the setup and for the tests it had *)
Definition ex_before : list (event nat nat) := connect 0 w1 0 ++ connect 0 w2 1.
Definition ex_flat : list (nat * group) := [(10, 1); (11, 1); (12, 2)].
Definition ex_after : list (event nat nat) :=
  [ENext 0 w1; ENext 0 w2] ++ steps 3 ++ [ENextFinish 3] ++ [EInitMetadata 0 w2; ERetryManifest 0 w2] ++
  steps 2 ++ [ENextFinish 2; ENextFinish 2; EManifest 0 [(99, 3)] 6].
Example ex_taken : taken (st_of ex_before) 0 ex_flat 5.
Proof. vm_compute. reflexivity. Qed.
Definition ex_given_state := st_of (ex_before ++ EManifest 0 ex_flat 5 :: ex_after).
(* the second manifest was refused *)
Example ex_given : skipn 2 (history ex_given_state 0) = [
  OManifest 0 3 true; OAsk 2 0 w1; OAsk 3 0 w2; OWork 3 0 w2 [wt 10; wt 11] false None;
  OMetadata 0 w2 (IMetadata (Some 5)); ORetry 0 w2 (RManifest [wt 10; wt 11] true);
  OWork 2 0 w1 [wt 12] true (Some {| pl_view := ([wt 10; wt 11; wt 12], [en_tag w2; en_tag w2; en_tag w1]);
     pl_state := {| sv_exit := 0; sv_meta := Some 5; sv_seen := [w1; w2]; sv_hash := Some 7 |} |}); OManifest 0 1 false].
Proof. vm_compute. reflexivity. Qed.
(* a stored run *)
Example ex_stored : exists sv, history (st_of ([EFind (par 4 w1); EFindRemote 0 (RemoteFound sv) 0; EInitMetadata 4 w1; ENext 4 w1])) 4 =
  [OMetadata 4 w1 (IMetadata (Some 8)); OAsk 1 4 w1; OWork 1 4 w1 [] true None].
Proof. exists {| sv_exit := 0; sv_meta := Some 8; sv_seen := [w1; w2]; sv_hash := Some 7 |}. vm_compute. reflexivity. Qed.
(* while the manifest is awaited *)
Example ex_awaited : phase_of (st_of ex_before) 0 = Some PhWaiting /\ length (history (st_of ex_before) 0) = 2.
Proof. vm_compute. auto. Qed.

Print Assumptions C94_from_the_manifest.
Print Assumptions C94_only_what_was_given.
Print Assumptions C94_nothing_before.
Print Assumptions C10_plan_keeps.
