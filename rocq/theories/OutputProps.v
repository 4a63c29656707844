(* Properties of the worker's reports on its native runner: C64, C65. *)
From Verif Require Import Base OutputModel OutputSpec OutputProofs.

Section Props.
Context {R : Type}.

Lemma combine_ys (ys : list (report R * list (message R))) tail :
  combine (map fst ys) (map snd (map heard_of ys ++ tail)) = ys.
Proof. induction ys as [|[r m] ys IH]; simpl; auto. now rewrite IH. Qed.

(* C64.  When a worker's runner is over without a failure, everything captured of each
   native runner it started is, in order, in the reports of the tests this native runner
   ran (before, with or after the results) and then in the final output.  Missing from the
   claim: tests for which the native runner sends an empty list of results. *)
Theorem C64_attributed_partial : forall run0 (es : list (oevent R)) final, ~ In (ORead (All [])) es ->
  let s := run ostep (oinit run0) es in
  o_outcome s = Some (OExit final) ->
  exists shares : list (share R), map s_proc shares = o_procs s /\
    flat_map s_reports shares = combine (o_sent s) (map snd (o_heard s)) /\ length (o_sent s) = length (o_heard s) /\
    Forall (accounts []) shares /\ final = flat_map s_left shares.
Proof.
  intros run0 es final NE s OC. destruct (inv_run False (~ In (ORead (All [])) es) run0 es) as (ys & tail & errs & A1 & A2 & A3 & A4 & A5 & A6 & A7); auto; [tauto|]. fold s in A1, A2, A4, A5, A6, A7.
  assert (P : o_pc s = PEnded) by (apply A5; congruence). unfold shape in A4. rewrite P, OC in A4. destruct A4 as (-> & -> & TK). rewrite app_nil_r in A1. rewrite OC in A7. specialize (A7 NE) as [L (ts & w & g & lost & E1 & E2 & E3 & E4 & E5 & E6 & E7)].
  unfold live in L. rewrite OC in L. rewrite P in *. rewrite (E7 eq_refl (fun H => H)) in E5. cbn [hand app] in E5.
  exists (ts ++ [{| s_proc := (o_run s, w); s_reports := g; s_left := o_side s |}]). rewrite map_app, !flat_map_app, E1. cbn [map flat_map s_proc s_reports s_left]. rewrite !app_nil_r.
  split; auto. split; [|split; [|split]].
  - rewrite A1, A2, combine_ys. congruence.
  - now rewrite A1, A2, app_nil_r, !map_length.
  - apply Forall_app. split; auto. repeat constructor; auto.
  - congruence.
Qed.

(* C64.  After a failure the same holds of the completed tests and what is left, but for a
   part of the output of the last native runner, lost if it failed while running a test.
   The error reports quote what was there of the final output. *)
Theorem C64_after_failure_partial : forall run0 (es : list (oevent R)) final, ~ In (ORead (All [])) es ->
  let s := run ostep (oinit run0) es in
  o_outcome s = Some (OError final) ->
  exists (shares : list (share R)) x lost reps errs, o_sent s = reps ++ errs /\ map s_proc (shares ++ [x]) = o_procs s /\
    flat_map s_reports (shares ++ [x]) = combine reps (map snd (o_heard s)) /\
    Forall (accounts []) shares /\ accounts lost x /\ final = flat_map s_left (shares ++ [x]) /\
    (errs = [] -> lost = []) /\ Forall (fun p => is_error p /\ prefix (p_before p) (s_left x)) errs.
Proof.
  intros run0 es final NE s OC. destruct (inv_run False (~ In (ORead (All [])) es) run0 es) as (ys & tail & errs & A1 & A2 & A3 & A4 & A5 & A6 & A7); auto; [tauto|]. fold s in A1, A2, A4, A5, A6, A7.
  assert (P : o_pc s = PEnded) by (apply A5; congruence). unfold shape in A4. rewrite P, OC in A4. rewrite OC in A7. specialize (A7 NE) as [L (ts & w & g & lost & E1 & E2 & E3 & E4 & E5 & E6 & E7)].
  unfold live in L. rewrite OC in L. rewrite P in *. cbn [hand app] in E5.
  exists ts, {| s_proc := (o_run s, w); s_reports := g; s_left := o_side s |}, lost, (map fst ys), errs. rewrite map_app, !flat_map_app, E1. cbn [map flat_map s_proc s_reports s_left]. rewrite !app_nil_r.
  split; auto. split; auto. split; [|split; auto; split; [split; auto|split; [congruence|split; [auto|]]]].
  - rewrite A2, combine_ys. congruence.
  - destruct A4 as [(_ & -> & _)|[(w0 & ms & q & rem & _ & -> & _ & Q)|(_ & _ & -> & _)]]; try constructor.
    + split; [exists q; auto|exact Q].
    + rewrite Forall_forall. intros p I. apply in_map_iff in I as (r & <- & _). split; [exists q; auto|exact Q].
Qed.

(* C65.  Each completed report holds the results the native runner sent for that test, in
   order, with the test's id and attempt; the other reports are errors of the native runner. *)
Theorem C65_results_as_sent : forall run0 (es : list (oevent R)), let s := run ostep (oinit run0) es in
  exists reps errs tests tail, o_sent s = reps ++ errs /\ o_heard s = tests ++ tail /\ length tail <= 1 /\
    Forall2 answers tests reps /\ Forall is_error errs.
Proof.
  intros run0 es s. destruct (inv_run False False run0 es) as (ys & tail & errs & A1 & A2 & A3 & A4 & A5 & A6 & A7); try tauto. fold s in A1, A2, A4, A5, A6, A7.
  exists (map fst ys), errs, (map heard_of ys), tail. split; auto. split; auto.
  assert (D : calm s ys tail errs \/ crash s ys tail errs \/ unstarted False s ys tail errs -> length tail <= 1 /\ Forall is_error errs).
  { intros [(-> & -> & _)|[(w0 & ms & q & rem & -> & -> & _ & Q)|(_ & -> & -> & _)]]; split; simpl; auto. constructor; [exists q; auto|].
    rewrite Forall_forall. intros p I. apply in_map_iff in I as (r & <- & _). exists q; auto. }
  assert (G : length tail <= 1 /\ Forall is_error errs).
  { unfold shape in A4. destruct (o_pc s) eqn:P; auto.
    - destruct A4 as (-> & -> & _). split; simpl; auto.
    - destruct A4 as (-> & -> & _). split; simpl; auto.
    - destruct A4 as (ms & -> & -> & _). split; simpl; auto.
    - destruct A4 as (ms & -> & -> & _). split; simpl; auto.
    - destruct (o_outcome s) as [[]|] eqn:O; auto. now destruct (proj1 A5 eq_refl). }
  destruct G as [G1 G2]. split; auto. split; auto. clear -A3. induction ys as [|y ys IH]; simpl; constructor; inversion A3; auto.
Qed.

(* C65.  When the runner is over without a failure, every test it received has exactly one
   report, in order; so it is after a failure too, with reports on tests it had not yet
   come to, as long as restarting the native runner for another attempt goes well. *)
Theorem C65_every_test_reported : forall run0 (es : list (oevent R)) final, let s := run ostep (oinit run0) es in
  o_outcome s = Some (OExit final) -> map (fun p => (p_work p, p_run p)) (o_sent s) = o_taken s.
Proof.
  intros run0 es final s OC. destruct (inv_run False False run0 es) as (ys & tail & errs & A1 & A2 & A3 & A4 & A5 & A6 & A7); try tauto. fold s in A1, A2, A4, A5, A6, A7.
  assert (P : o_pc s = PEnded) by (apply A5; congruence). unfold shape in A4. rewrite P, OC in A4. destruct A4 as (-> & -> & ->). rewrite app_nil_r in A1. now rewrite A1, map_map.
Qed.
Theorem C65_every_test_reported_partial : forall run0 (es : list (oevent R)), let s := run ostep (oinit run0) es in
  (forall w run l, In (OTest w run l) es -> l = LOk) -> o_outcome s <> None ->
  exists rest, map (fun p => (p_work p, p_run p)) (o_sent s) = o_taken s ++ rest.
Proof.
  intros run0 es s LK OC. destruct (inv_run True False run0 es) as (ys & tail & errs & A1 & A2 & A3 & A4 & A5 & A6 & A7); try tauto. fold s in A1, A2, A4, A5, A6, A7.
  assert (P : o_pc s = PEnded) by (now apply A5). unfold shape in A4. rewrite P in A4.
  assert (D : calm s ys tail errs \/ crash s ys tail errs \/ unstarted True s ys tail errs) by (destruct (o_outcome s) as [[]|]; tauto).
  rewrite A1, map_app, map_map. destruct D as [(_ & -> & ->)|[(w0 & ms & q & rem & _ & -> & -> & _)|(F & _)]].
  - exists []. reflexivity.
  - exists (map (fun w => (w, o_run s)) rem). cbn [map]. unfold error_report at 1. cbn [p_work p_run]. rewrite map_map, <- app_assoc. reflexivity.
  - now destruct F.
Qed.

End Props.

(* C64.  False of the code: output written while a test ran is in no report if the native
   runner sends an empty list of results for it (test 1), and is in two if it sends two. *)
Theorem C64_empty_results_refuted : exists es : list (oevent nat), let s := run ostep (oinit 1) es in
  o_outcome s = Some (OExit []) /\ o_procs s = [(1, [7])] /\ map attributed (combine (o_sent s) (map snd (o_heard s))) = [[]].
Proof.
  exists [OTest 1 1 LOk; OSend; OArrive [7]; ORead (All []); OClose true; OFinish true]. repeat split.
Qed.
Theorem C64_twice_refuted : exists es : list (oevent nat), let s := run ostep (oinit 1) es in
  o_outcome s = Some (OExit []) /\ o_procs s = [(1, [7])] /\ map p_body (o_sent s) = [Results [(10, [7]); (11, [7])]].
Proof.
  exists [OTest 1 1 LOk; OSend; OArrive [7]; ORead (All [10; 11]); OClose true; OFinish true]. repeat split.
Qed.

(* C64.  False of the code: when the native runner dies while it runs a test, what it had
   written before that test (7) and what was attached to the results it already sent for
   that test (8) is in no report and not in the error; the results (10) are lost too. *)
Theorem C64_crash_refuted : exists es : list (oevent nat), let s := run ostep (oinit 1) es in
  o_outcome s = Some (OError [9]) /\ o_procs s = [(1, [7; 8; 9])] /\
  o_sent s = [{| p_work := 1; p_run := 1; p_before := [9]; p_body := RunnerError [9]; p_after := None |}] /\
  o_heard s = [(1, 1, [Incremental (One 10)])].
Proof.
  exists [OArrive [7]; OTest 1 1 LOk; OSend; OArrive [8]; ORead (Incremental (One 10)); OArrive [9]; OFail; OFlush []; OFinish true]. repeat split.
Qed.

(* C65.  False of the code: when the native runner cannot be restarted for a retry, the
   worker panics; the test it had received has no report, and the output kept is lost. *)
Theorem C65_restart_refuted : exists es : list (oevent nat), let s := run ostep (oinit 1) es in
  o_outcome s = Some OPanic /\ o_taken s = [(1, 1); (1, 2)] /\ map (fun p => (p_work p, p_run p)) (o_sent s) = [(1, 1)].
Proof.
  exists [OTest 1 1 LOk; OSend; ORead (All [10]); OArrive [5]; OTest 1 2 LSpawnFailed; OFinish true]. repeat split.
Qed.

(* Two attempts; in the first, three tests: a single result, increments with output after
   the last one, two results at once. *)
Definition ex_output : list (oevent nat) :=
  [OArrive [1]; OTest 1 1 LOk; OSend; OArrive [2]; ORead (All [10]); OArrive [3]; OTest 2 1 LOk; OArrive [4]; OSend;
   OArrive [5]; ORead (Incremental (One 20)); OArrive [6]; ORead (Incremental (One 21)); OArrive [7];
   ORead (Incremental (Done None)); OTest 3 1 LOk; OSend; OArrive [8]; ORead (All [30; 31]); OArrive [9];
   OTest 3 2 LOk; OArrive [10]; OSend; ORead (Incremental (Done (Some 32))); OClose true; OArrive [11]; OFinish true].
Example ex_c64 : let s := run ostep (oinit 1) ex_output in
  ~ In (ORead (All [])) ex_output /\ o_outcome s = Some (OExit [9; 11]) /\
  o_procs s = [(1, [1; 2; 3; 4; 5; 6; 7; 8; 9]); (2, [10; 11])] /\
  map attributed (combine (o_sent s) (map snd (o_heard s))) = [[1; 2]; [3; 4; 5; 6; 7]; [8]; [10]] /\
  map p_body (o_sent s) = [Results [(10, [2])]; Results [(20, [5]); (21, [6])]; Results [(30, [8]); (31, [8])]; Results [(32, [])]].
Proof.
  split; [|vm_compute; repeat split]. intros H. repeat (destruct H as [H|H]; [discriminate|]). exact H.
Qed.
Example ex_c64_failure : let s := run ostep (oinit 1)
    [OTest 1 1 LOk; OSend; OArrive [1]; ORead (All [10]); OArrive [2]; OTest 2 1 LOk; OSend; OArrive [3]; OFail; OFlush [3; 4]; OArrive [4]; OFinish true] in
  o_outcome s = Some (OError [3; 4]) /\ map (fun p => (p_work p, p_run p, p_before p)) (o_sent s) = [(1, 1, []); (2, 1, [3]); (3, 1, [3]); (4, 1, [3])] /\
  o_taken s = [(1, 1); (2, 1)].
Proof. vm_compute. repeat split. Qed.

Print Assumptions C64_attributed_partial.
Print Assumptions C64_after_failure_partial.
Print Assumptions C64_empty_results_refuted.
Print Assumptions C64_twice_refuted.
Print Assumptions C64_crash_refuted.
Print Assumptions C65_results_as_sent.
Print Assumptions C65_every_test_reported.
Print Assumptions C65_every_test_reported_partial.
Print Assumptions C65_restart_refuted.
