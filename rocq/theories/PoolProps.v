From Verif Require Import Base PoolModel PoolSpec PoolProofs.
From Coq Require Import ZArith.

(* C39: the end of a pool of runners *)

(* the pool errors exactly if a runner did, with the runners' errors in order *)
Theorem C39_errors : forall (info : Type) (rs : list (runner_exit info)) es,
  x_status (shutdown rs) = Errored es <-> es = flat_map error_of rs /\ es <> [].
Proof.
  intros info rs es. unfold shutdown. cbn [x_status]. rewrite loop_errors. cbn [pool_init a_errors app].
  destruct (flat_map error_of rs) as [|e l]; split.
  - discriminate.
  - intros [-> H]. now contradiction H.
  - intros E. injection E as <-. split; [reflexivity|discriminate].
  - intros [-> _]. reflexivity.
Qed.

(* a worker with a failed runner exits with the code for an error of abq's own; no worker
   exits with less than what the suite asks for *)
Theorem C39_worker_exit : forall (info : Type) (rs : list (runner_exit info)) suite,
  ((exists e o i, In (RErr e o i) rs) -> worker_exit_code (x_status (shutdown rs)) suite = 101%Z) /\
  (Forall exited_ok rs -> (suite <= worker_exit_code (x_status (shutdown rs)) suite)%Z).
Proof.
  intros info rs suite. split.
  - intros H. apply status_errored in H as [es ->]. reflexivity.
  - intros H. destruct (x_status (shutdown rs)) as [c|es] eqn:E.
    + apply Z.le_max_l.
    + exfalso. assert (K : exists es, x_status (shutdown rs) = Errored es) by eauto. apply status_errored in K as (e & o & i & K).
      rewrite Forall_forall in H. exact (H _ K).
Qed.

(* each runner's outputs are handed on, under its own number *)
Theorem C39_outputs : forall (info : Type) (rs : list (runner_exit info)),
  x_final (shutdown rs) = combine (seq 1 (length rs)) (map final_of rs) /\
  x_process (shutdown rs) = combine (seq 1 (length rs)) (map process_of rs).
Proof. intros info rs. split; [apply (loop_final pool_init)|apply (loop_process pool_init)]. Qed.

(* the native runner's description is the first one known *)
Theorem C39_info : forall (info : Type) (rs : list (runner_exit info)),
  x_info (shutdown rs) = match filter (fun o => match o with Some _ => true | None => false end) (map info_of rs) with o :: _ => o | [] => None end.
Proof. intros info rs. unfold shutdown. cbn [x_info]. rewrite loop_info. apply fold_or_spec. Qed.

(* Refuted: the pool's exit code is not the worst of its runners': a worker can exit with
   success although the native runner of one of its runners crashed *)
Theorem C39_exit_code_refuted :
  exists rs : list (runner_exit unit), Forall exited_ok rs /\ (exists r, In r rs /\ exit_code_of r = Some 101%Z) /\
    ~ exit_code_is_worst rs /\ worker_exit_code (x_status (shutdown rs)) SUCCESS = SUCCESS.
Proof.
  exists [ROk 101 None {| so_out := []; so_err := [] |} [] None; ROk 0 None {| so_out := []; so_err := [] |} [] None].
  split; [repeat constructor|]. split; [eexists; split; [left; reflexivity|reflexivity]|]. split; [|reflexivity].
  intros H. specialize (H ltac:(repeat constructor) 0%Z eq_refl _ 101%Z (or_introl eq_refl) eq_refl). now apply H.
Qed.

(* Missing from the claim: pools of more than one runner whose last runner did not end
   with the worst exit code.  What holds: the exit code is the last runner's. *)
Theorem C39_exit_code_partial : forall (info : Type) (rs : list (runner_exit info)) r c,
  Forall exited_ok (rs ++ [r]) -> exit_code_of r = Some c ->
  x_status (shutdown (rs ++ [r])) = Completed c /\
  (rs = [] -> exit_code_is_worst (rs ++ [r])).
Proof.
  intros info rs r c F E. assert (S1 : x_status (shutdown (rs ++ [r])) = Completed c).
  { unfold shutdown. cbn [x_status]. rewrite loop_app. destruct r as [c' m f p i|]; [|discriminate]. injection E as ->.
    cbn [pool_step a_errors a_code]. rewrite loop_errors, Z.max_id. cbn [pool_init a_errors app].
    apply Forall_app in F as [F _]. destruct (flat_map error_of rs) as [|x l] eqn:Q; auto. exfalso.
    assert (I : In x (flat_map error_of rs)) by (rewrite Q; left; auto). apply in_flat_map in I as (y & I1 & I2).
    rewrite Forall_forall in F. specialize (F _ I1). destruct y; [destruct I2|destruct F]. }
  split; auto. intros -> _ c1 S2 r' d [<-|[]] D. rewrite S1 in S2. injection S2 as <-. rewrite E in D. injection D as <-. lia.
Qed.

(* of the runners of a pool told to generate the manifest exactly the first does, of a
   pool not told to none *)
Theorem C07_one_runner_of_the_pool : forall told n, 1 <= n ->
  filter (should_generate_manifest told) (seq 1 n) = if told then [1] else [].
Proof.
  intros told [|n] H; [lia|]. assert (K : forall m k, 2 <= k -> filter (should_generate_manifest told) (seq k m) = []).
  { induction m as [|m IH]; intros k L; [reflexivity|]. cbn [seq filter]. rewrite IH by lia. unfold should_generate_manifest.
    replace (k =? 1) with false by (symmetry; apply Nat.eqb_neq; lia). now rewrite andb_false_r. }
  cbn [seq filter]. rewrite K by lia. now destruct told.
Qed.

(* Refuted: of two or more runners, only the first generates the manifest, and what it
   printed meanwhile is lost *)
Theorem C39_manifest_output_refuted :
  (forall (info : Type) (rs : list (runner_exit info)) r, rs <> [] -> exited_ok r -> manifest_of r = None -> x_manifest_output (shutdown (rs ++ [r])) = None) /\
  (forall b j, should_generate_manifest b j = true -> j = 1) /\
  exists rs : list (runner_exit unit), map manifest_of rs = [Some [104; 105]; None] /\ ~ manifest_output_kept rs.
Proof.
  split; [|split].
  - intros info rs r _ O M. unfold shutdown. cbn [x_manifest_output]. rewrite loop_app. destruct r; [|destruct O]. simpl in *. now rewrite M.
  - intros b j H. unfold should_generate_manifest in H. apply andb_prop in H as [_ H]. now apply Nat.eqb_eq.
  - exists [ROk 0 (Some [104; 105]) {| so_out := []; so_err := [] |} [] None; ROk 0 None {| so_out := []; so_err := [] |} [] None]. split; [reflexivity|].
    intros H. specialize (H 0 _ [104; 105] eq_refl eq_refl). simpl in H. assert (K : None = Some (1, [104; 105])); [|discriminate].
    apply H. intros [|[|j]] r' J D; auto; simpl in J; [injection J as <-; now contradiction D|destruct j; discriminate].
Qed.

(* Missing from the claim: generators followed by another runner that did not fail.  What
   holds: the output is kept if only failed runners follow the generator. *)
Theorem C39_manifest_output_partial : forall (info : Type) (rs fs : list (runner_exit info)) r o,
  exited_ok r -> manifest_of r = Some o -> Forall (fun f => ~ exited_ok f) fs ->
  x_manifest_output (shutdown (rs ++ r :: fs)) = Some (S (length rs), o).
Proof.
  intros info rs fs r o O M F. induction fs as [|f fs IH] using rev_ind.
  - unfold shutdown. cbn [x_manifest_output]. rewrite loop_app. destruct r; [|destruct O]. simpl in M |- *. now rewrite M.
  - apply Forall_app in F as [F1 F2]. specialize (IH F1). revert IH. unfold shutdown. cbn [x_manifest_output].
    replace (rs ++ r :: fs ++ [f]) with ((rs ++ r :: fs) ++ [f]) by (rewrite <- app_assoc; reflexivity).
    intros IH. rewrite loop_app. inversion F2 as [|? ? NF]; subst. destruct f as [c m fi p i|]; [now contradiction NF|]. exact IH.
Qed.

(* C40: the counter of a pool's live runners.  Histories are any interleaving of the
   runners' ends, the handler's steps and polls of wait, some of them dropped. *)

(* wait returns only when every runner is done *)
Theorem C40_wait_sound : forall n es, 1 <= n -> (Z.of_nat n < 2 ^ 64)%Z ->
  In WaitReturned (l_waited (run lstep (live_new n) es)) -> all_signalled (run lstep (live_new n) es).
Proof.
  intros n es N B W. pose proof (live_inv n es N B) as I. apply nsig_full. rewrite (li_len _ _ I). destruct (li_wait _ _ I W) as [HD _].
  destruct (li_proc _ _ I) as (p & P1 & _ & P3 & P4). rewrite HD in P4. pose proof (nsig_le (l_holders (run lstep (live_new n) es))) as L.
  rewrite (li_len _ _ I) in L. lia.
Qed.

(* wait returns when every runner is done, whatever polls were made and dropped before *)
Theorem C40_wait_returns : forall n es, 1 <= n -> (Z.of_nat n < 2 ^ 64)%Z ->
  all_signalled (run lstep (live_new n) es) ->
  exists k, forall m, k <= m -> exists ws, l_waited (run lstep (live_new n) (es ++ repeat Handle m ++ [Wait])) = ws ++ [WaitReturned].
Proof.
  intros n es N B A. destruct (all_signalled_wait n es N B A) as (k & K). exists k. intros m M. rewrite run_app. now apply K.
Qed.

(* the counter never wraps around, and is zero only when every runner is done *)
Theorem C40_counter : forall n es, 1 <= n -> (Z.of_nat n < 2 ^ 64)%Z ->
  let s := run lstep (live_new n) es in
  (0 <= l_count s <= Z.of_nat n)%Z /\ (l_count s = 0%Z -> all_signalled s) /\
  (Z.of_nat (length (filter (fun h => match h with Signalled => false | _ => true end) (l_holders s))) <= l_count s)%Z.
Proof.
  intros n es N B s. pose proof (live_inv n es N B) as I. fold s in I. clearbody s. destruct (li_proc _ _ I) as (p & P1 & P2 & P3 & P4).
  pose proof (nsig_le (l_holders s)) as L. rewrite (li_len _ _ I) in L.
  assert (SUM : nsig (l_holders s) + length (filter (fun h => match h with Signalled => false | _ => true end) (l_holders s)) = n).
  { rewrite <- (li_len _ _ I). unfold nsig. clear. induction (l_holders s) as [|h hs IH]; simpl; auto. destruct h; simpl; lia. }
  split; [lia|]. split; [|lia]. intros C. apply nsig_full. rewrite (li_len _ _ I). lia.
Qed.

(* saying one is done never blocks *)
Theorem C40_signal_never_blocks : forall n es i, 1 <= n -> (Z.of_nat n < 2 ^ 64)%Z ->
  nth_error (l_holders (run lstep (live_new n) es)) i = Some Holding ->
  nth_error (l_holders (run lstep (live_new n) (es ++ [Signal i]))) i = Some Signalled.
Proof.
  intros n es i N B H. pose proof (live_inv n es N B) as I. rewrite run_app. set (s := run lstep (live_new n) es) in *. clearbody s.
  cbn [run fold_left lstep]. simpl. rewrite H. pose proof (nsig_holding _ _ H) as NH. destruct (li_proc _ _ I) as (p & P1 & _ & _ & _).
  assert (LT : i < length (l_holders s)) by (apply nth_error_Some; congruence).
  destruct (l_handler s); [destruct (Nat.ltb_spec (l_queue s) (length (l_holders s))); [|lia]| | | |]; cbn [set_live l_holders]; now rewrite nth_error_upd_eq.
Qed.

(* if a runner went away without saying so, wait never returns *)
Theorem C40_lost_runner : forall n es es' i, 1 <= n -> (Z.of_nat n < 2 ^ 64)%Z ->
  nth_error (l_holders (run lstep (live_new n) es)) i = Some Dropped -> ~ In WaitReturned (l_waited (run lstep (live_new n) (es ++ es'))).
Proof.
  intros n es es' i N B H W. apply C40_wait_sound in W; auto. unfold all_signalled in W. rewrite run_app in W. apply (dropped_stays es') in H.
  rewrite Forall_forall in W. apply nth_error_In in H. specialize (W _ H). discriminate.
Qed.

(* once it has returned, it returns at once whenever it is called again *)
Theorem C40_wait_returns_again : forall n es es', 1 <= n -> (Z.of_nat n < 2 ^ 64)%Z ->
  In WaitReturned (l_waited (run lstep (live_new n) es)) ->
  l_waited (run lstep (live_new n) (es ++ es' ++ [Wait])) = l_waited (run lstep (live_new n) (es ++ es')) ++ [WaitReturned].
Proof.
  intros n es es' N B W. rewrite app_assoc, run_app. pose proof (live_inv n (es ++ es') N B) as I.
  assert (W' : In WaitReturned (l_waited (run lstep (live_new n) (es ++ es')))).
  { rewrite run_app. revert W. generalize (run lstep (live_new n) es). clear. induction es' as [|e es' IH]; intros s W; auto. simpl. apply IH.
    now apply waited_kept. }
  set (s := run lstep (live_new n) (es ++ es')) in *. clearbody s. simpl. destruct (li_wait _ _ I W') as [HD LH]. destruct (li_handle _ _ I LH) as [_ RX].
  unfold wait, join. now rewrite RX, LH.
Qed.

(* it panics only if the pool was set up, all runners went away and one of them without saying
   so *)
Theorem C40_wait_panics : forall n es, 1 <= n -> (Z.of_nat n < 2 ^ 64)%Z ->
  In WaitPanicked (l_waited (run lstep (live_new n) es)) ->
  let s := run lstep (live_new n) es in
  In DropOriginal es /\ ~ In Holding (l_holders s) /\ In Dropped (l_holders s).
Proof.
  intros n es N B W s. assert (OR : l_original s = false -> In DropOriginal es).
  { subst s. clear. assert (K : forall l t, l_original t = true -> l_original (run lstep t l) = false -> In DropOriginal l).
    { induction l as [|e l IH]; intros t T F; [change (l_original t = false) in F; congruence|]. change (l_original (run lstep (lstep t e) l) = false) in F.
      destruct (l_original (lstep t e)) eqn:E; [right; eauto|]. left. revert E.
      destruct e; cbn [lstep]; auto; unfold handle, wait, join, set_wait, set_live;
        repeat match goal with |- context [match ?x with _ => _ end] => destruct x end; cbn; congruence. }
    apply K. reflexivity. }
  pose proof (live_inv n es N B) as I. fold s in I, W. clearbody s. pose proof (li_panic _ _ I W) as HD.
  destruct (li_proc _ _ I) as (p & P1 & _ & P3 & P4). rewrite HD in P4. destruct P4 as (P4 & _ & Q0 & SS).
  unfold senders in SS. apply orb_false_iff in SS as [S1 S2]. split; [auto|]. clear OR.
  assert (NH : ~ In Holding (l_holders s)).
  { intros X. assert (Y : existsb is_holding (l_holders s) = true) by (apply existsb_exists; exists Holding; auto). congruence. }
  split; auto. pose proof (li_len _ _ I) as LN.
  assert (NS : nsig (l_holders s) < length (l_holders s)) by lia. revert NS NH. clear. unfold nsig.
  induction (l_holders s) as [|[| |] hs IH]; simpl; intros L NH; [lia|tauto| |auto]. right. apply IH; [lia|tauto].
Qed.

(* and a runner that still runs keeps it waiting *)
Theorem C40_wait_waits : forall n es, 1 <= n -> (Z.of_nat n < 2 ^ 64)%Z ->
  let s := run lstep (live_new n) es in
  In Holding (l_holders s) -> l_waited (run lstep (live_new n) (es ++ [Wait])) = l_waited s ++ [WaitPending].
Proof.
  intros n es N B s H. rewrite run_app. fold s. pose proof (live_inv n es N B) as I. fold s in I.
  pose proof (lstep_inv n s Wait N B I) as I'. apply In_nth_error in H as [i H].
  assert (E : exists a, l_waited (lstep s Wait) = l_waited s ++ [a] /\ l_holders (lstep s Wait) = l_holders s /\ l_original (lstep s Wait) = l_original s).
  { simpl. unfold wait, join. destruct (l_rx s), (l_taken s), (l_sent s), (l_handler s), (l_handle s), (l_joined s); eexists; (split; [reflexivity|split; reflexivity]). }
  destruct E as (a & E & EH & EO). simpl in *. rewrite E. do 2 f_equal. destruct a; auto.
  - exfalso. assert (X : In WaitReturned (l_waited (wait s))) by (rewrite E; apply in_or_app; right; left; auto).
    destruct (li_wait _ _ I' X) as [HD _]. destruct (li_proc _ _ I') as (p & P1 & _ & P3 & P4). rewrite HD in P4. pose proof (nsig_holding _ _ H) as NH.
    rewrite EH in P1. rewrite (li_len _ _ I) in NH. lia.
  - exfalso. assert (X : In WaitPanicked (l_waited (wait s))) by (rewrite E; apply in_or_app; right; left; auto).
    pose proof (li_panic _ _ I' X) as HD. destruct (li_proc _ _ I') as (p & P1 & _ & P3 & P4). rewrite HD in P4. destruct P4 as (_ & _ & _ & SS).
    unfold senders in SS. rewrite EH in SS. apply holding_senders in H. unfold senders in H. rewrite EO in SS. congruence.
Qed.

Example C39_example :
  let rs := [ROk 0 (Some [1]) {| so_out := [2]; so_err := [] |} [3] None; RErr [9] {| so_out := [4]; so_err := [] |} (Some 7)] in
  shutdown rs = {| x_status := Errored [[9]]; x_info := Some 7; x_manifest_output := Some (1, [1]);
                   x_final := [(1, {| so_out := [2]; so_err := [] |}); (2, {| so_out := [4]; so_err := [] |})];
                   x_process := [(1, [3]); (2, [4; 10])] |}
  /\ Forall exited_ok [@ROk nat 3 None {| so_out := []; so_err := [] |} [] None].
Proof. split; [reflexivity|repeat constructor]. Qed.

Example C40_example :
  let es := [Wait; Signal 1; Handle; DropOriginal; Wait; Signal 0; Handle; Wait; Handle; Wait; Handle; Wait; Wait] in
  l_waited (run lstep (live_new 2) es) = [WaitPending; WaitPending; WaitPending; WaitPending; WaitReturned; WaitReturned] /\ l_holders (run lstep (live_new 2) es) = [Signalled; Signalled] /\
  l_holders (run lstep (live_new 2) [Signal 1; Drop 0; DropOriginal]) = [Dropped; Signalled] /\
  l_handler (run lstep (live_new 2) [Signal 1; Drop 0; DropOriginal; Handle; Handle]) = HPanic /\
  l_waited (run lstep (live_new 2) [Signal 1; Drop 0; DropOriginal; Handle; Handle; Wait]) = [WaitPanicked].
Proof. vm_compute. repeat split; reflexivity. Qed.

Print Assumptions C07_one_runner_of_the_pool.
Print Assumptions C39_errors.
Print Assumptions C39_worker_exit.
Print Assumptions C39_outputs.
Print Assumptions C39_info.
Print Assumptions C39_exit_code_refuted.
Print Assumptions C39_exit_code_partial.
Print Assumptions C39_manifest_output_refuted.
Print Assumptions C39_manifest_output_partial.
Print Assumptions C40_wait_sound.
Print Assumptions C40_wait_returns.
Print Assumptions C40_counter.
Print Assumptions C40_signal_never_blocks.
Print Assumptions C40_lost_runner.
Print Assumptions C40_wait_returns_again.
Print Assumptions C40_wait_panics.
Print Assumptions C40_wait_waits.
