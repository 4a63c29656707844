(* C92: a worker's runners are told who they are, and a worker that is started again gets its
   tests again. *)
From Coq Require Import String Ascii NArith List Bool Arith Lia.
From Verif Require Import Base RunModel RunSpec RunLemmas RunLift RunAnswers RunProps.
From Verif Require Import ManifestViewModel SetupModel SetupSpec SetupProofs.
From Verif Require NativeModel NativeSpec NativeProofs NativeProps FetchModel FetchSpec FetchProps.
Import ListNotations.
Open Scope string_scope.

(* The number of runners is given as a positive decimal number that fits 64 bits, with or
   without a plus sign, or as cpu-cores; nothing else is accepted. *)
Theorem C92_number_of_runners : forall s,
  (forall n, parse_num s = Some (Fixed n) <->
     (exists t, (s = t \/ s = "+" ++ t) /\ decimal t n) /\ (0 < n < 2 ^ 64)%N) /\
  (parse_num s = Some CpuCores <-> s = "cpu-cores").
Proof.
  intros s. unfold parse_num. destruct (String.eqb_spec s "cpu-cores") as [->|N].
  - split; [intros n; split; [discriminate|]|split; auto].
    intros [(t & [<- | X] & D) _]; [|discriminate].
    destruct (first_digit _ _ D) as (c & d & s' & E & [L V]). injection E as <- _.
    assert (99 = 48 + d)%N as Y by exact V. lia.
  - split; [|split; [|contradiction]; destruct (parse_nonzero s); discriminate].
    intros n. rewrite <- parse_nonzero_spec. destruct (parse_nonzero s); split; congruence.
Qed.

(* So there is at least one; of cpu-cores there is one less than the host has, but at least
   one. *)
Theorem C92_at_least_one_runner : forall s num physical, parse_num s = Some num ->
  (1 <= runners_to_start physical num)%N /\
  (s = "cpu-cores" -> forall others, physical = (1 + others)%N ->
     runners_to_start physical num = if (others =? 0)%N then 1%N else others) /\
  (forall n, decimal s n -> runners_to_start physical num = n).
Proof.
  intros s num physical H. destruct (C92_number_of_runners s) as [F C]. split; [|split].
  - destruct num as [|n]; cbn [runners_to_start]; [lia|]. apply F in H. lia.
  - intros E others ->. apply C in E. rewrite E in H. injection H as <-. cbn [runners_to_start].
    destruct (N.eqb_spec others 0); lia.
  - intros n D. destruct num as [|m].
    + apply C in H. subst s. destruct (first_digit _ _ D) as (c & d & s' & E & [L V]). injection E as <- _.
      assert (99 = 48 + d)%N as Y by exact V. lia.
    + apply F in H as [(t & [<- | ->] & D') _]; cbn [runners_to_start]; [eapply decimal_fun; eauto|].
      destruct (first_digit _ _ D) as (c & d & s' & E & [L V]). injection E as <- _.
      assert (43 = 48 + d)%N as Y by exact V. lia.
Qed.

(* As many runners are set up as were asked for.  The queue knows them by the number of the
   worker and their own, counted from 1, so no two of a worker are taken for one another, nor
   two of different workers; the worker itself asks for work as its first runner.  A runner
   takes itself for the only one exactly if it is. *)
Theorem C92_runners_are_told_apart : forall c, (N.of_nat (c_runners c) < 2 ^ 32)%N ->
  map r_tag (pool c) = runners_of (N.to_nat (c_worker c)) (c_runners c) /\
  NoDup (map r_tag (pool c)) /\
  (forall ru, In ru (pool c) -> r_singleton ru = true <-> List.length (pool c) = 1) /\
  (1 <= c_runners c -> hd_error (map r_tag (pool c)) = Some (asks_as (c_worker c))) /\
  (forall c', (N.of_nat (c_runners c') < 2 ^ 32)%N -> c_worker c' <> c_worker c ->
     forall t, In t (map r_tag (pool c)) -> ~ In t (map r_tag (pool c'))).
Proof.
  intros c L. rewrite (tags_of_pool c L). split; [reflexivity|]. split; [|split; [|split]].
  - unfold runners_of. apply FinFun.Injective_map_NoDup; [|apply seq_NoDup]. intros a b E. now injection E.
  - intros ru I. apply in_map_iff in I as (i & <- & I). cbn. unfold pool. rewrite map_length, seq_length. apply Nat.eqb_eq.
  - intros G. unfold runners_of. destruct (c_runners c); [lia|]. cbn. reflexivity.
  - intros c' L' N t I J. rewrite (tags_of_pool c' L') in J. unfold runners_of in *.
    apply in_map_iff in I as (i & <- & _). apply in_map_iff in J as (j & E & _). injection E as E _. apply N. now apply Nnat.N2Nat.inj.
Qed.

(* Of the workers of a run together at most one runner is asked for the manifest, and it is
   the first of its worker. *)
Theorem C92_one_runner_makes_the_manifest : forall {T M : Type} (st : state T M) r cs, reachable st ->
  assigned_in (history st r) = map c_assigned cs ->
  List.length (filter r_manifest (flat_map pool cs)) <= 1 /\
  forall c k ru, In c cs -> nth_error (pool c) k = Some ru -> r_manifest ru = true -> k = 0 /\ c_assigned c = Fresh true.
Proof.
  intros T M st r cs HR E. split.
  - pose proof (generators_counted (history st r) cs E) as G. destruct (C07_one_generator st r HR) as [B _]. lia.
  - intros c k ru _ H G. apply pool_nth in H as [_ ->]. cbn in G. apply andb_true_iff in G as [G1 G2].
    destruct k as [|k]; [|destruct k; discriminate]. split; [reflexivity|]. destruct (c_assigned c) as [[]|]; try discriminate. reflexivity.
Qed.

(* Every process that a runner ever starts finds the number of its worker, the number of its
   runner, the address its runner listens on, and that output is to be coloured; whatever the
   worker's own environment says of these. *)
Theorem C92_processes_know_their_runner : forall c k ru msgs fetched e,
  nth_error (pool c) k = Some ru -> NativeModel.run_async (r_params ru) (r_manifest ru) msgs fetched e ->
  forall before p l ok after, NativeModel.e_trace e = (before ++ NativeModel.Ev (NativeModel.Spawn p l) ok :: after)%list ->
  (exists w, NativeSpec.lookup "ABQ_WORKER" (NativeModel.l_env l) = Some w /\ decimal w (c_worker c)) /\
  (exists i, NativeSpec.lookup "ABQ_RUNNER" (NativeModel.l_env l) = Some i /\ decimal i (N.of_nat k + 1)) /\
  NativeSpec.lookup "FORCE_COLOR" (NativeModel.l_env l) = Some "1" /\
  (exists before' addr, before = (before' ++ [NativeModel.Ev NativeModel.Bind (Some addr)])%list /\
     NativeSpec.lookup "ABQ_SOCKET" (NativeModel.l_env l) = Some addr).
Proof.
  intros c k ru msgs fetched e H R before p l ok after E. apply pool_nth in H as [_ ->].
  destruct (NativeProps.C77_processes_find_their_runner _ _ _ _ _ R eq_refl _ _ _ _ _ E) as (S1 & S2 & _).
  pose proof (NativeProofs.lawful_run _ _ _ _ _ R _ _ _ _ E) as (_ & _ & _ & _ & h' & addr & _ & EV).
  split; [|split; [|split; [|exact S1]]].
  - exists (dec (c_worker c)). split; [exact S2|apply dec_decimal].
  - exists (dec (N.of_nat (Datatypes.S k))). split; [rewrite EV; reflexivity|].
    replace (N.of_nat k + 1)%N with (N.of_nat (Datatypes.S k)) by lia. apply dec_decimal.
  - rewrite EV. reflexivity.
Qed.

(* So processes of different runners are told different things. *)
Theorem C92_processes_can_tell_their_runners_apart : forall c k ru msgs fetched e c' k' ru' msgs' fetched' e',
  nth_error (pool c) k = Some ru -> NativeModel.run_async (r_params ru) (r_manifest ru) msgs fetched e ->
  nth_error (pool c') k' = Some ru' -> NativeModel.run_async (r_params ru') (r_manifest ru') msgs' fetched' e' ->
  forall p l ok p' l' ok', In (NativeModel.Ev (NativeModel.Spawn p l) ok) (NativeModel.e_trace e) ->
  In (NativeModel.Ev (NativeModel.Spawn p' l') ok') (NativeModel.e_trace e') ->
  NativeSpec.lookup "ABQ_WORKER" (NativeModel.l_env l) = NativeSpec.lookup "ABQ_WORKER" (NativeModel.l_env l') ->
  NativeSpec.lookup "ABQ_RUNNER" (NativeModel.l_env l) = NativeSpec.lookup "ABQ_RUNNER" (NativeModel.l_env l') ->
  c_worker c = c_worker c' /\ k = k'.
Proof.
  intros c k ru msgs fetched e c' k' ru' msgs' fetched' e' H R H' R' p l ok p' l' ok' I I' E1 E2.
  apply in_split in I as (a & b & I). apply in_split in I' as (a' & b' & I').
  destruct (C92_processes_know_their_runner c k ru msgs fetched e H R _ _ _ _ _ I) as ((w & W & DW) & (i & J & DI) & _).
  destruct (C92_processes_know_their_runner c' k' ru' msgs' fetched' e' H' R' _ _ _ _ _ I') as ((w' & W' & DW') & (i' & J' & DI') & _).
  rewrite W, W' in E1. rewrite J, J' in E2. injection E1 as <-. injection E2 as <-.
  split; [eapply decimal_fun; eauto|]. assert (N.of_nat k + 1 = N.of_nat k' + 1)%N by (eapply decimal_fun; eauto). lia.
Qed.

(* A runner of a worker that was told to retry is given the tests that its retry manifest lists
   first, and then those of the queue; a runner of any other worker only those of the queue.
   [replies]: what each source answers, one after the other.  When the runner is given the end
   of work it was given all of them. *)
Theorem C92_where_tests_come_from : forall c ru (replies : source -> list FetchModel.reply) rm max es, In ru (pool c) ->
  replies RetryManifest = [FetchModel.Bundle rm] -> FetchModel.b_eow rm = true ->
  let ss := map replies (r_sources ru) in
  FetchSpec.proper ss -> 1 <= max -> FetchSpec.in_order (FetchModel.start ss max) es ->
  let w := run FetchModel.fstep (FetchModel.start ss max) es in
  let tests := ((if some_runner_retries (c_assigned c) then FetchModel.b_work rm else []) ++ fst (FetchSpec.served (replies Queue)))%list in
  (exists rest, tests = (FetchSpec.first_attempts w ++ rest)%list) /\
  (forall b, In b (FetchModel.w_answers w) -> FetchModel.b_eow b = true -> FetchSpec.first_attempts w = tests).
Proof.
  intros c ru replies rm max es I RM EW ss P M IO w tests.
  assert (E : FetchSpec.source_tests ss = tests).
  { apply in_map_iff in I as (i & <- & _). unfold ss, tests. cbn [set_up r_sources]. unfold sourcing, some_runner_retries.
    destruct (c_assigned c); cbn [map FetchSpec.source_tests]; rewrite ?RM; cbn [FetchSpec.served]; rewrite ?EW;
      destruct (FetchSpec.served (replies Queue)) as [ts []]; cbn [fst app]; now rewrite ?app_nil_r. }
  split.
  - destruct (FetchProps.C34_order ss max es P M IO) as (rest & _ & H & _). exists rest. now rewrite <- E, H.
  - intros b Ib Eb. rewrite <- E. exact (FetchProps.C34_nothing_lost ss max es b P M IO Ib Eb).
Qed.

Open Scope list_scope.

(* Let a worker be started again while its run goes on, and be told to retry.  Every test that
   was sent to one of its runners before is told again to one of its runners, once each of them
   has been told what it was sent; provided that there are at least as many of them now. *)
Theorem C92_started_again_partial : forall {T M : Type} (st : state T M) r c c' h1 p d h2 work, reachable st ->
  (N.of_nat (c_runners c) < 2 ^ 32)%N -> (N.of_nat (c_runners c') < 2 ^ 32)%N ->
  history st r = h1 ++ OAssigned p (AssignedRun RetryAndContinue d) :: h2 ->
  c_worker c' = c_worker c -> en_tag (fp_entity p) = asks_as (c_worker c') -> c_assigned c' = RetryAndContinue ->
  (forall ru, In ru (pool c') -> told_again h2 (r_tag ru) (work (r_tag ru))) ->
  c_runners c <= c_runners c' ->
  forall ru x, In ru (pool c) -> sent_to h1 (r_tag ru) x -> exists ru', In ru' (pool c') /\ In x (work (r_tag ru')).
Proof.
  intros T M st r c c' h1 p d h2 work HR L L' HH W _ _ HT LE ru x I (k & r0 & e & ts & eow & pp & HI & HE & HX).
  assert (J : In (r_tag ru) (map r_tag (pool c'))).
  { rewrite tags_of_pool by exact L'. assert (I' : In (r_tag ru) (map r_tag (pool c))) by now apply in_map.
    rewrite tags_of_pool in I' by exact L. rewrite W. unfold runners_of in *. apply in_map_iff in I' as (i & <- & Q).
    apply in_map. apply in_seq. apply in_seq in Q. lia. }
  apply in_map_iff in J as (ru' & E & J). exists ru'. split; [exact J|]. destruct (HT ru' J) as (r1 & e1 & K & KE).
  apply in_split in K as (a & b & ->).
  assert (r0 = r) as ->.
  { assert (A : In (OWork k r0 e ts eow pp) (history st r)) by (rewrite HH; apply in_app_iff; auto).
    apply history_run in A. unfold about in A. cbn in A. now apply Nat.eqb_eq in A. }
  eapply (retry_in_history st r HR (h1 ++ OAssigned p (AssignedRun RetryAndContinue d) :: a) b r1 e1).
  - rewrite HH, <- app_assoc. reflexivity.
  - apply in_app_iff. left. exact HI.
  - congruence.
  - exact HX.
Qed.

(* The same holds of the manifest that is kept when the run is over. *)
Theorem C92_started_again_after_the_end_partial : forall {T M : Type} (st : state T M) r c c' k e ts eow p, reachable st ->
  (N.of_nat (c_runners c) < 2 ^ 32)%N -> (N.of_nat (c_runners c') < 2 ^ 32)%N ->
  In (OWork k r e ts eow (Some p)) (history st r) -> c_worker c' = c_worker c -> c_runners c <= c_runners c' ->
  forall ru x, In ru (pool c) -> sent_to (history st r) (r_tag ru) x ->
  exists ru' work, In ru' (pool c') /\
    view_partition {| v_items := fst (pl_view p); v_entities := snd (pl_view p) |} (r_tag ru') = Some work /\ In x work.
Proof.
  intros T M st r c c' k e ts eow p HR L L' HI W LE ru x I (k' & r0 & e' & ts' & eow' & pp & HI' & HE & HX).
  assert (J : In (r_tag ru) (map r_tag (pool c')) /\ r_tag ru <> TExternalClient).
  { rewrite tags_of_pool by exact L'. assert (I' : In (r_tag ru) (map r_tag (pool c))) by now apply in_map.
    rewrite tags_of_pool in I' by exact L. rewrite W. unfold runners_of in *. apply in_map_iff in I' as (i & <- & Q).
    split; [|discriminate]. apply in_map. apply in_seq. apply in_seq in Q. lia. }
  destruct J as [J NE]. apply in_map_iff in J as (ru' & E & J).
  destruct (C06_run_persisted_partition st r k e ts eow p (r_tag ru) HR HI NE) as (work & V & S1).
  assert (r0 = r) as ->.
  { apply history_run in HI'. unfold about in HI'. cbn in HI'. now apply Nat.eqb_eq in HI'. }
  exists ru', work. split; [exact J|]. rewrite E. split; [exact V|]. apply S1. left.
  apply filter_In in HI' as [HI' _]. eauto 10.
Qed.

(* With fewer runners, what was sent to the others is told to none of the worker's runners, nor
   to any other runner, and is sent to nobody. *)
Theorem C92_tests_of_missing_runners_are_left : forall {T M : Type} (st : state T M) r c c' k e ts eow p, reachable st ->
  NoDup (manifest_of st r) -> (N.of_nat (c_runners c) < 2 ^ 32)%N -> (N.of_nat (c_runners c') < 2 ^ 32)%N ->
  c_worker c' = c_worker c ->
  In (OWork k r e ts eow p) (s_log st) -> In (en_tag e) (map r_tag (pool c)) -> ~ In (en_tag e) (map r_tag (pool c')) ->
  forall x, In x ts ->
  (forall ru e' work, In ru (pool c') -> en_tag e' = r_tag ru ->
     history (step st (ERetryManifest r e')) r = history st r ++ [ORetry r e' (RManifest work true)] -> ~ In x work) /\
  (forall k' e' ts' eow' p', In (OWork k' r e' ts' eow' p') (s_log st) -> k' <> k -> ~ In x ts').
Proof.
  intros T M st r c c' k e ts eow p HR ND L L' W HI HC HC' x HX. split.
  - intros ru e' work I E H IW. apply HC'.
    assert (en_tag e = en_tag e') as ->.
    { eapply (C05_run_retry_manifest_has_only_own st r e' work k e ts eow p x); auto.
      rewrite E. apply in_map_iff in I as (i & <- & _). discriminate. }
    rewrite E. now apply in_map.
  - intros k' e' ts' eow' p' I N. intros IX. eapply (C01_run_no_test_twice st r k e ts eow p k' e' ts' eow' p'); eauto.
Qed.

(* ---- a worker that comes back with one runner instead of two ---- *)
Definition again_first : entity := {| en_id := 21; en_tag := TRunner 5 1 |}.
Definition again_second : entity := {| en_id := 22; en_tag := TRunner 5 2 |}.
Definition again_back : entity := {| en_id := 23; en_tag := TRunner 5 1 |}.
Definition again_with (n : nat) (k : assigned_kind) : config :=
  {| c_worker := 5; c_runners := n; c_assigned := k; c_stdout := true; c_send_results := true; c_env := [] |}.
(* two runners take two tests each; then the worker is started again, and its runner asks for
   its tests and for what is left *)
Definition again_events : list (event nat nat) :=
  connect 0 again_first 0 ++ [EManifest 0 [(10, 1); (11, 1); (12, 1); (13, 1); (14, 1)] 5; ENext 0 again_first; ENext 0 again_second] ++
  steps 1 ++ [ENextFinish 1] ++ steps 2 ++ [ENextFinish 2].
Definition again_rest : list (event nat nat) :=
  connect 0 again_back 3 ++ [ERetryManifest 0 again_back; ENext 0 again_back] ++ steps 4 ++ [ENextFinish 4; ENextFinish 4].

Definition again_before : list (obs nat nat) := Eval vm_compute in history (st_of again_events) 0.
Definition again_after : list (obs nat nat) :=
  Eval vm_compute in tl (skipn (List.length (history (st_of again_events) 0)) (history (st_of (again_events ++ again_rest)) 0)).

(* Refuted: the run ends, and a test that was sent to the second runner of the worker is told to
   none of its runners, and is sent to nobody after the worker came back. *)
Theorem C92_started_again_refuted :
  exists (st : state nat nat) c c' h1 p d h2 work ru x, reachable st /\ NoDup (manifest_of st 0) /\
    (N.of_nat (c_runners c) < 2 ^ 32)%N /\ (N.of_nat (c_runners c') < 2 ^ 32)%N /\
    history st 0 = h1 ++ OAssigned p (AssignedRun RetryAndContinue d) :: h2 /\
    c_worker c' = c_worker c /\ en_tag (fp_entity p) = asks_as (c_worker c') /\ c_assigned c' = RetryAndContinue /\
    (forall ru, In ru (pool c') -> told_again h2 (r_tag ru) (work (r_tag ru))) /\
    phase_of st 0 = Some PhOver /\ In ru (pool c) /\ sent_to h1 (r_tag ru) x /\
    (forall t, ~ sent_to h2 t x) /\ (forall ru', In ru' (pool c') -> ~ In x (work (r_tag ru'))).
Proof.
  exists (st_of (again_events ++ again_rest)), (again_with 2 (Fresh true)), (again_with 1 RetryAndContinue),
    again_before, (par 0 again_back), false.
  exists again_after.
  exists (fun _ => [wt 10; wt 11]), (set_up (again_with 2 (Fresh true)) 2), (wt 12).
  split; [exists (again_events ++ again_rest); reflexivity|].
  split; [vm_compute; repeat constructor; cbn; intuition discriminate|].
  do 2 (split; [reflexivity|]). split; [vm_compute; reflexivity|].
  do 3 (split; [reflexivity|]).
  split; [|split; [vm_compute; reflexivity|split; [right; left; reflexivity|split; [|split]]]].
  - intros ru [<-|[]]. exists 0, again_back. split; [left; reflexivity|reflexivity].
  - exists 2, 0, again_second, [wt 12; wt 13], false, None. split; [unfold again_before; do 20 (try (left; reflexivity); right)|]. split; [reflexivity|left; reflexivity].
  - intros t (k & r & e & ts & eow & p & H & _ & X). unfold again_after in H. destruct H as [H|[H|[H|[]]]]; try discriminate.
    injection H as _ _ _ <- _ _. destruct X as [X|[]]. discriminate.
  - intros ru' _ [X|[X|[]]]; discriminate.
Qed.

(* ---- cases that meet the hypotheses ---- *)
Example C92_example_numbers :
  map parse_num ["cpu-cores"; "16"; "+08"; "18446744073709551615"] = [Some CpuCores; Some (Fixed 16); Some (Fixed 8); Some (Fixed 18446744073709551615)]%N /\
  map parse_num [""; "+"; "0"; "-1"; "1.5"; "18446744073709551616"; "cores"] = [None; None; None; None; None; None; None] /\
  decimal "16" 16 /\ dec 4096 = "4096"%string /\ runners_to_start 8 CpuCores = 7%N /\ runners_to_start 1 CpuCores = 1%N.
Proof.
  split; [reflexivity|]. split; [reflexivity|]. split; [|repeat split; reflexivity].
  apply (more_digits "1" 1 "6"%char 6); [constructor|]; split; reflexivity.
Qed.
Example C92_example_pool :
  map r_tag (pool (again_with 3 (Fresh true))) = [TRunner 5 1; TRunner 5 2; TRunner 5 3] /\
  map r_manifest (pool (again_with 3 (Fresh true))) = [true; false; false] /\
  map r_singleton (pool (again_with 3 (Fresh true))) = [false; false; false] /\ map r_singleton (pool (again_with 1 (Fresh false))) = [true] /\
  asks_as 5 = TRunner 5 1.
Proof. repeat split. Qed.
(* a run with two workers *)
Example C92_example_manifest :
  assigned_in (history (st_of (connect 0 w1 0 ++ connect 0 w2 1)) 0) = map c_assigned [again_with 2 (Fresh true); again_with 3 (Fresh false)].
Proof. vm_compute. reflexivity. Qed.
(* where tests come from: one of before, two of the queue *)
Definition ex_test (n : nat) : FetchModel.wtest := {| FetchModel.wt_spec := {| FetchModel.sp_id := n; FetchModel.sp_focus := None |}; FetchModel.wt_run := 1 |}.
Definition ex_replies (s : source) : list FetchModel.reply :=
  match s with
  | RetryManifest => [FetchModel.Bundle {| FetchModel.b_work := [ex_test 12]; FetchModel.b_eow := true |}]
  | Queue => [FetchModel.Bundle {| FetchModel.b_work := [ex_test 13; ex_test 14]; FetchModel.b_eow := true |}]
  end.
Example C92_example_sources :
  let ss := map ex_replies (r_sources (set_up (again_with 2 RetryAndContinue) 2)) in
  FetchSpec.proper ss /\ FetchSpec.in_order (FetchModel.start ss 1) [FetchModel.Fetch; FetchModel.Fetch; FetchModel.Fetch] /\
  FetchSpec.handed (run FetchModel.fstep (FetchModel.start ss 1) [FetchModel.Fetch; FetchModel.Fetch; FetchModel.Fetch]) = [ex_test 12; ex_test 13; ex_test 14].
Proof.
  split; [|split; [repeat split|reflexivity]]. split; [discriminate|]. split; cbn.
  - repeat constructor; cbn; intuition discriminate.
  - repeat constructor.
Qed.
(* the worker comes back with two runners *)
Definition again_second_back : entity := {| en_id := 24; en_tag := TRunner 5 2 |}.
Definition again_both : list (event nat nat) :=
  connect 0 again_back 3 ++ [ERetryManifest 0 again_back; ERetryManifest 0 again_second_back].
Example C92_example_started_again :
  history (st_of again_events) 0 = again_before /\
  history (st_of (again_events ++ again_both)) 0 = again_before ++ OAssigned (par 0 again_back) (AssignedRun RetryAndContinue false) ::
    [ORetry 0 again_back (RManifest [wt 10; wt 11] true); ORetry 0 again_second_back (RManifest [wt 12; wt 13] true)] /\
  sent_to again_before (TRunner 5 2) (wt 12).
Proof.
  split; [vm_compute; reflexivity|]. split; [vm_compute; reflexivity|]. exists 2, 0, again_second, [wt 12; wt 13], false, None.
  split; [unfold again_before; do 20 (try (left; reflexivity); right)|]. split; [reflexivity|left; reflexivity].
Qed.
(* the run is over, and its manifest is kept *)
Example C92_example_after_the_end :
  existsb (fun o => match o with OWork 4 0 _ _ true (Some _) => true | _ => false end) (history (st_of (again_events ++ again_rest)) 0) = true.
Proof. vm_compute. reflexivity. Qed.
(* a process is started by the second runner of worker 5 *)
Definition ex_second : runner := set_up (again_with 2 (Fresh true)) 2.
Definition ex_started : NativeModel.ended :=
  {| NativeModel.e_trace := NativeSpec.ex_start (r_params ex_second) 0 false false;
     NativeModel.e_cancel_notified := true; NativeModel.e_ending := NativeModel.Exited NativeModel.cancelled_exit |}.
Example C92_example_process :
  nth_error (pool (again_with 2 (Fresh true))) 1 = Some ex_second /\
  NativeModel.run_async (r_params ex_second) (r_manifest ex_second) [] true ex_started /\
  exists before l ok after, NativeModel.e_trace ex_started = before ++ NativeModel.Ev (NativeModel.Spawn 0 l) ok :: after.
Proof.
  split; [reflexivity|]. split.
  - apply (NativeModel.shut_down _ _ _ _ _ NativeModel.GetInit). cbn. do 3 (right; do 2 eexists; split; [reflexivity|]; cbn). left. split; reflexivity.
  - exists [NativeModel.Ev NativeModel.Bind (Some "127.0.0.1:9"%string)]. do 3 eexists. reflexivity.
Qed.

Print Assumptions C92_number_of_runners.
Print Assumptions C92_at_least_one_runner.
Print Assumptions C92_runners_are_told_apart.
Print Assumptions C92_one_runner_makes_the_manifest.
Print Assumptions C92_processes_know_their_runner.
Print Assumptions C92_processes_can_tell_their_runners_apart.
Print Assumptions C92_where_tests_come_from.
Print Assumptions C92_started_again_partial.
Print Assumptions C92_started_again_after_the_end_partial.
Print Assumptions C92_tests_of_missing_runners_are_left.
Print Assumptions C92_started_again_refuted.
