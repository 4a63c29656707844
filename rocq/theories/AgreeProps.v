(* C84: abq report says of a run what the run's workers said together. *)
From Verif Require Import Base JobQueueModel JobQueueSpec StatusModel FetchModel FetchSpec RunnerModel RunnerSpec SystemModel SystemSpec SystemProofs SystemEnd.
From Verif Require Import ReportModel ReportSpec ReportProofs ReportProps OutcomeModel OutcomeSpec OutcomeProofs OutcomeProps AgreeSpec AgreeProofs.
From Verif Require RunModel PoolModel PoolSpec PoolProofs WorkerModel WorkerSpec WorkerProps SystemProps.
From Coq Require Import Sorting.Sorted.

(* The numbers of tests, of failed and of retried ones are the sums of the workers' numbers,
   and the exit code is the worst of theirs: in whatever order the reports arrived, at the
   queue and at each worker. *)
Theorem C84_report_is_the_sum c ps y n owner l sort ls s (of_worker : nat -> suite) :
  sound c ps -> SystemSpec.reaches c ps y -> all_finished y -> identified (reported y) -> handed_to_workers y n owner l ->
  tells y ls -> clock_kept (flat_map line_results ls) -> no_empty (flat_map line_results ls) -> sorter sort ->
  sums_up (sort (flat_map line_results ls)) s -> (forall p, p < n -> sums_up (l p) (of_worker p)) ->
  s_count s = total_of n (fun p => s_count (of_worker p)) /\
  s_failed s = total_of n (fun p => s_failed (of_worker p)) /\
  s_retried s = total_of n (fun p => s_retried (of_worker p)) /\
  s_exit s = worst (map (fun p => s_exit (of_worker p)) (seq 0 n)).
Proof.
  intros SO RE FI ID HW TE0 CK0 NE0 SR SU SW. pose proof (reach_sinv c ps y SO RE) as I. destruct (SR (flat_map line_results ls)) as [PE ST]. set (ord := sort (flat_map line_results ls)) in *.
  assert (TE : Permutation (map core ord) (reported y)) by (rewrite <- TE0; apply Permutation_map; now symmetry).
  assert (IO : forall a, In a ord -> In a (flat_map line_results ls)) by (intros a A; now apply (Permutation_in _ (Permutation_sym PE))).
  assert (CK : clock_kept ord) by (intros a b r r' A B; apply CK0; auto). assert (NE : no_empty ord) by (intros a A; auto). clearbody ord. clear PE IO TE0 CK0 NE0 SR.
  destruct (sums_up_reaches _ _ SU) as (k & k' & o1 & o2 & R & P1 & P2 & E).
  destruct (C42_counts _ _ _ _ _ _ R P1 P2 E) as ((L1 & H1 & E1) & (L2 & H2 & E2) & (L3 & H3 & E3)).
  destruct (C42_exit_code _ _ _ _ _ _ R P1 P2 E) as (X1 & X2 & X3).
  assert (W : forall p, p < n ->
    (exists L, enumerates (fun t => has_result t (flat (l p))) L /\ s_count (of_worker p) = length L + length (unreplaced (flat (l p)))) /\
    (exists L, enumerates (fun t => taken_for_failed (attempts t (flat (l p)))) L /\ s_failed (of_worker p) = length L + length (unreplaced (flat (l p)))) /\
    (exists L, enumerates (fun t => 2 <= length (attempts t (flat (l p)))) L /\ s_retried (of_worker p) = length L) /\
    (s_exit (of_worker p) = 101 <-> exists e, In e (unreplaced (flat (l p)))) /\
    (s_exit (of_worker p) = 1 <-> unreplaced (flat (l p)) = [] /\ exists t, taken_for_failed (attempts t (flat (l p)))) /\
    (s_exit (of_worker p) = 0 <-> unreplaced (flat (l p)) = [] /\ forall t, ~ taken_for_failed (attempts t (flat (l p))))).
  { intros p P. destruct (sums_up_reaches _ _ (SW p P)) as (kp & kp' & q1 & q2 & Rp & Q1 & Q2 & Ep).
    destruct (C42_counts _ _ _ _ _ _ Rp Q1 Q2 Ep) as (A & B & C). destruct (C42_exit_code _ _ _ _ _ _ Rp Q1 Q2 Ep) as (A' & B' & C'). repeat (split; auto). }
  assert (CH : forall (P : nat -> list nat -> Prop), (forall p, p < n -> exists L, P p L) -> exists f, forall p, p < n -> P p (f p)).
  { clear. induction n as [|m IH]; intros P H; [exists (fun _ => []); intros; lia|]. destruct (IH P) as (f & F); [intros; apply H; lia|]. destruct (H m) as (L & HL); [lia|].
    exists (fun p => if Nat.eqb p m then L else f p). intros p Q. destruct (Nat.eqb_spec p m) as [->|N]; auto. apply F. lia. }
  destruct (CH (fun p L => enumerates (fun t => has_result t (flat (l p))) L /\ s_count (of_worker p) = length L + length (unreplaced (flat (l p))))) as (F1 & G1); [intros p P; apply W; auto|].
  destruct (CH (fun p L => enumerates (fun t => taken_for_failed (attempts t (flat (l p)))) L /\ s_failed (of_worker p) = length L + length (unreplaced (flat (l p))))) as (F2 & G2); [intros p P; apply W; auto|].
  destruct (CH (fun p L => enumerates (fun t => 2 <= length (attempts t (flat (l p)))) L /\ s_retried (of_worker p) = length L)) as (F3 & G3); [intros p P; apply W; auto|].
  pose proof (unreplaced_split c ps y SO I FI n owner l ord HW TE ST CK NE) as UN.
  assert (SUM : forall f g h : nat -> nat, (forall p, p < n -> f p = g p + h p) -> total_of n f = total_of n g + total_of n h).
  { intros f g h H. unfold total_of. assert (H' : forall p, In p (seq 0 n) -> f p = g p + h p) by (intros p P; apply in_seq in P; apply H; lia). revert H'. generalize (seq 0 n). clear.
    induction l as [|p m IH]; intros H; auto. cbn [map]. rewrite !sum_cons, IH, (H p); [lia|now left|]. intros q Q. apply H. now right. }
  assert (NT : ~ taken_for_failed []) by (intros (q1 & q2 & Q & _); destruct q1; discriminate).
  split; [|split; [|split]].
  - rewrite E1, (SUM (fun p => s_count (of_worker p)) (fun p => length (F1 p)) (fun p => length (unreplaced (flat (l p))))) by (intros p P; now apply G1). f_equal; [|exact UN].
    apply (count_split c ps y SO I FI n owner l ord HW TE ST CK NE ID (fun h => h <> [])); [congruence|exact H1|]. intros p P. now apply G1.
  - rewrite E2, (SUM (fun p => s_failed (of_worker p)) (fun p => length (F2 p)) (fun p => length (unreplaced (flat (l p))))) by (intros p P; now apply G2). f_equal; [|exact UN].
    apply (count_split c ps y SO I FI n owner l ord HW TE ST CK NE ID taken_for_failed); [exact NT|exact H2|]. intros p P. now apply G2.
  - rewrite E3, (SUM (fun p => s_retried (of_worker p)) (fun p => length (F3 p)) (fun _ => 0)) by (intros p P; rewrite Nat.add_0_r; now apply G3).
    unfold total_of at 2. rewrite sum_zero by auto. rewrite Nat.add_0_r.
    apply (count_split c ps y SO I FI n owner l ord HW TE ST CK NE ID (fun h => 2 <= length h)); [simpl; lia|exact H3|]. intros p P. now apply G3.
  - unfold worst. assert (IN : forall v, In v (map (fun p => s_exit (of_worker p)) (seq 0 n)) <-> exists p, p < n /\ s_exit (of_worker p) = v).
    { intros v. rewrite in_map_iff. split; [intros (p & Q & P); apply in_seq in P; exists p; split; auto; lia|intros (p & P & Q); exists p; split; auto; apply in_seq; lia]. }
    assert (U : unreplaced (flat ord) = [] <-> forall p, p < n -> unreplaced (flat (l p)) = []).
    { rewrite <- !length_zero_iff_nil, UN. unfold total_of. split.
      - intros Z p P. assert (PI : In p (seq 0 n)) by (apply in_seq; lia). apply length_zero_iff_nil. revert Z PI. generalize (seq 0 n). clear. induction l0 as [|q m IH]; intros Z P; [destruct P|].
        cbn [map] in Z. rewrite sum_cons in Z. destruct P as [->|P]; [lia|]. apply IH; auto. lia.
      - intros H. apply sum_zero. intros p P. apply in_seq in P. rewrite H; auto. lia. }
    assert (T : (exists t, taken_for_failed (attempts t (flat ord))) <-> exists p t, p < n /\ taken_for_failed (attempts t (flat (l p)))).
    { split.
      - intros (t & TF). destruct (attempts_split c ps y SO I FI n owner l ord HW TE ST CK NE ID t) as [(p & P & Q & _)|(Q & _)]; [|rewrite Q in TF; contradiction]. exists p, t. split; auto. now rewrite Q.
      - intros (p & t & P & TF). exists t. destruct (attempts_split c ps y SO I FI n owner l ord HW TE ST CK NE ID t) as [(q & Q & E' & F)|(_ & F)]; [|rewrite (F p P) in TF; contradiction].
        destruct (Nat.eq_dec p q) as [->|N]; [now rewrite <- E'|]. rewrite (F p P N) in TF. contradiction. }
    destruct (existsb (Nat.eqb 101) _) eqn:B1.
    + apply existsb_101, IN in B1 as (p & P & Q). apply X1. apply W in Q as (e & Ie); auto. destruct (unreplaced (flat ord)) as [|e' es'] eqn:UE; [|exists e'; now left].
      exfalso. destruct U as [U _]. rewrite (U eq_refl p P) in Ie. destruct Ie.
    + assert (UO : unreplaced (flat ord) = []).
      { apply U. intros p P. destruct (unreplaced (flat (l p))) as [|e es] eqn:UE; auto. exfalso. assert (Q : existsb (Nat.eqb 101) (map (fun p => s_exit (of_worker p)) (seq 0 n)) = true); [|congruence].
        apply existsb_101, IN. exists p. split; auto. apply W; auto. rewrite UE. exists e. now left. }
      destruct (existsb (Nat.eqb 1) _) eqn:B2.
      * apply existsb_1, IN in B2 as (p & P & Q). apply X2. split; auto. apply T. apply W in Q as (_ & t & TF); auto. eauto.
      * apply X3. split; auto. intros t TF. destruct T as [T _]. destruct (T (ex_intro _ t TF)) as (p & t' & P & TF'). assert (Q : existsb (Nat.eqb 1) (map (fun p => s_exit (of_worker p)) (seq 0 n)) = true); [|congruence].
        apply existsb_1, IN. exists p. split; auto. apply W; auto. split; [|eauto]. now apply U.
Qed.

Lemma workers_no_empty y n owner l ls (code : nat -> nat) : handed_to_workers y n owner l -> tells y ls -> (forall p, p < n -> suite_exit (l p) (Some (code p))) -> no_empty (flat_map line_results ls).
Proof.
  intros [OW H] TE SE a A Z. assert (R : In (core a) (reported y)) by (apply (Permutation_in _ TE); now apply in_map).
  unfold reported in R. apply in_flat_map in R as (sl & S & R). apply In_nth_error in S as (i & N). assert (L : i < length (y_slots y)) by (apply nth_error_Some; congruence).
  destruct (all_handed y _ (l (owner i)) (H _ (OW i L)) i sl (core a) N (Nat.eqb_refl _) R) as (a' & A' & E).
  destruct (suite_zero_iff _ _ (SE (owner i) (OW i L))) as [F _]. rewrite Forall_forall in F. apply (F a' A'). apply (f_equal ar_results) in E. cbn [core ar_results] in E. rewrite Z in E. now apply map_eq_nil in E.
Qed.
Lemma process_suite sort orders push_ok finish_ok ls e calls : sorter sort -> walks orders -> ReportModel.process sort orders push_ok finish_ok ls = (Reported e, calls) ->
  exists s, sums_up (sort (flat_map line_results ls)) s /\ s_exit s = e.
Proof.
  intros SR WA E. unfold ReportModel.process in E. set (ord := sort (flat_map line_results ls)) in *. destruct (negb _); [discriminate|]. set (k := fold_left handle_account ord tracker_new) in *.
  destruct (WA k) as [W1 W2]. destruct (suite_result k _ _) as [k' s] eqn:Q. exists s. split.
  - exists (fst (orders k)), (snd (orders k)). cbv zeta. fold k. rewrite Q. auto.
  - destruct (last_summary ls None) as [[nonce info]|]; [|discriminate]. destruct (Nat.eqb nonce _); [|discriminate]. destruct finish_ok; [|discriminate]. now injection E.
Qed.

(* So if abq report ends with a code, that is the worst of the workers' codes. *)
Theorem C84_code_is_the_worst c ps y n owner l sort orders push_ok finish_ok ls e calls (code : nat -> nat) :
  sound c ps -> SystemSpec.reaches c ps y -> all_finished y -> identified (reported y) -> handed_to_workers y n owner l ->
  tells y ls -> clock_kept (flat_map line_results ls) -> sorter sort -> walks orders ->
  (forall p, p < n -> suite_exit (l p) (Some (code p))) ->
  ReportModel.process sort orders push_ok finish_ok ls = (Reported e, calls) ->
  e = worst (map code (seq 0 n)).
Proof.
  intros SO RE FI ID HW TE CK SR WA SE PR. destruct (process_suite _ _ _ _ _ _ _ SR WA PR) as (s & SU & <-).
  assert (CH : exists f : nat -> suite, forall p, p < n -> sums_up (l p) (f p) /\ s_exit (f p) = code p).
  { assert (H : forall p, p < n -> exists s, sums_up (l p) s /\ s_exit s = code p) by (intros p P; apply suite_sums; auto). clear -H s. induction n as [|m IH]; [exists (fun _ => s); intros; lia|].
    destruct IH as (f & F); [intros; apply H; lia|]. destruct (H m) as (sm & HM); [lia|]. exists (fun p => if Nat.eqb p m then sm else f p). intros p P. destruct (Nat.eqb_spec p m) as [->|]; auto. apply F. lia. }
  destruct CH as (f & F).
  destruct (C84_report_is_the_sum c ps y n owner l sort ls s f SO RE FI ID HW TE CK (workers_no_empty y n owner l ls code HW TE SE) SR SU) as (_ & _ & _ & ->); [intros p P; now apply F|].
  f_equal. apply map_ext_in. intros p P. apply in_seq in P. apply F. lia.
Qed.

Lemma all_works c ps y ls : sound c ps -> SystemSpec.reaches c ps y -> all_finished y -> Exists survives (y_slots y) -> tells y ls ->
  length (nodup Nat.eq_dec (map as_work (flat_map line_results ls))) = length (tests_of c).
Proof.
  intros SO RE FI EX TE. pose proof (SystemProps.C66_all_at_end c ps y SO RE FI EX) as P. destruct (SystemProps.C66_at_most_once c ps y SO RE) as (_ & _ & K).
  apply Permutation_length, NoDup_Permutation; [apply NoDup_nodup|now destruct SO|]. intros w. rewrite nodup_In.
  assert (E : map as_work (flat_map line_results ls) = map ar_work (map core (flat_map line_results ls))) by (now rewrite map_map). rewrite E. split.
  - intros W. apply in_map_iff in W as (r & <- & R). apply (Permutation_in _ TE) in R. unfold reported in R. apply in_flat_map in R as (sl & S & R). now apply (K sl).
  - intros W. apply (Permutation_in _ (Permutation_sym P)) in W. apply in_map_iff in W as (r & <- & R). apply filter_In in R as [R _]. apply in_map. now apply (Permutation_in _ (Permutation_sym TE)).
Qed.

(* It does end with a code, if one native runner has not crashed, the queue's summary has
   the number of tests of the manifest and the reporters work. *)
Theorem C84_report_is_made c ps y n owner l sort orders ls info (code : nat -> nat) :
  sound c ps -> SystemSpec.reaches c ps y -> all_finished y -> identified (reported y) -> handed_to_workers y n owner l ->
  tells y ls -> clock_kept (flat_map line_results ls) -> sorter sort -> walks orders ->
  (forall p, p < n -> suite_exit (l p) (Some (code p))) ->
  Exists survives (y_slots y) -> last_summary ls None = Some (length (tests_of c), info) ->
  fst (ReportModel.process sort orders (fun _ => true) true ls) = Reported (worst (map code (seq 0 n))).
Proof.
  intros SO RE FI ID HW TE CK SR WA SE EX SM.
  assert (Q : exists e calls, ReportModel.process sort orders (fun _ => true) true ls = (Reported e, calls)).
  { unfold ReportModel.process. cbn [negb]. destruct (suite_result _ _ _) as [k' s]. rewrite SM. destruct (SR (flat_map line_results ls)) as [P _].
    assert (L : length (nodup Nat.eq_dec (map as_work (sort (flat_map line_results ls)))) = length (tests_of c)).
    { rewrite <- (all_works c ps y ls SO RE FI EX TE). apply Permutation_length, NoDup_Permutation; try apply NoDup_nodup. intros w. rewrite !nodup_In.
      split; apply Permutation_in, Permutation_map; auto. now symmetry. }
    rewrite L, Nat.eqb_refl. eauto. }
  destruct Q as (e & calls & Q). rewrite Q. cbn [fst]. f_equal. eapply C84_code_is_the_worst; eauto.
Qed.

(* If a native runner has crashed, the report does not end with success, nor with a mere
   test failure. *)
Theorem C84_crash_is_seen c ps y n owner l sort orders push_ok finish_ok ls e calls (code : nat -> nat) :
  sound c ps -> SystemSpec.reaches c ps y -> all_finished y -> identified (reported y) -> handed_to_workers y n owner l ->
  tells y ls -> clock_kept (flat_map line_results ls) -> sorter sort -> walks orders ->
  (forall p, p < n -> suite_exit (l p) (Some (code p))) ->
  Exists (fun sl => crashed (sl_runner sl)) (y_slots y) -> ReportModel.process sort orders push_ok finish_ok ls = (Reported e, calls) -> e = 101.
Proof.
  intros SO RE FI ID HW TE CK SR WA SE EX PR. rewrite (C84_code_is_the_worst c ps y n owner l sort orders push_ok finish_ok ls e calls code) by auto.
  apply Exists_exists in EX as (sl & S & C). apply In_nth_error in S as (i & N). pose proof HW as [OW H]. assert (L : i < length (y_slots y)) by (apply nth_error_Some; congruence). specialize (OW i L).
  pose proof (crash_left y (fun j => Nat.eqb (owner j) (owner i)) (l (owner i)) (facts c ps y SO (reach_sinv c ps y SO RE)) FI (H _ OW) i sl N (Nat.eqb_refl _) C) as U.
  destruct (suite_sums _ _ (SE _ OW)) as (s & SU & E). destruct (sums_up_reaches _ _ SU) as (k & k' & o1 & o2 & R & P1 & P2 & Q).
  destruct (C42_exit_code _ _ _ _ _ _ R P1 P2 Q) as (X & _). unfold worst.
  assert (B : existsb (Nat.eqb 101) (map code (seq 0 n)) = true); [|now rewrite B]. apply existsb_101, in_map_iff. exists (owner i). split; [|apply in_seq; lia].
  rewrite <- E. apply X. destruct (unreplaced _) as [|x xs]; [congruence|]. exists x. now left.
Qed.

(* The report shows the case results that the workers have shown, each once. *)
Theorem C84_same_results c ps y n owner l sort orders finish_ok ls :
  sound c ps -> SystemSpec.reaches c ps y -> all_finished y -> handed_to_workers y n owner l -> tells y ls ->
  clock_kept (flat_map line_results ls) -> no_empty (flat_map line_results ls) -> sorter sort ->
  Permutation (flat_map told_case (snd (ReportModel.process sort orders (fun _ => true) finish_ok ls)))
              (flat_map (fun p => flat_map told_case (flat_map handle_calls (l p))) (seq 0 n)).
Proof.
  intros SO RE FI HW TE0 CK0 NE0 SR. pose proof (reach_sinv c ps y SO RE) as I. destruct (SR (flat_map line_results ls)) as [PE ST].
  assert (T : flat_map told_case (snd (ReportModel.process sort orders (fun _ => true) finish_ok ls)) = flat_map told_case (flat_map handle_calls (sort (flat_map line_results ls)))).
  { unfold ReportModel.process. cbn [negb]. destruct (suite_result _ _ _) as [k' s].
    assert (Z : forall q, flat_map told_case q = [] -> flat_map told_case (flat_map handle_calls (sort (flat_map line_results ls)) ++ q) = flat_map told_case (flat_map handle_calls (sort (flat_map line_results ls)))) by (intros q Q; now rewrite flat_map_app, Q, app_nil_r).
    destruct (last_summary ls None) as [[nonce info]|]; [|now apply Z]. destruct (Nat.eqb nonce _); [|now apply Z]. destruct finish_ok; cbn [snd]; rewrite <- app_assoc; now apply Z. }
  rewrite T, told_core. set (ord := sort (flat_map line_results ls)) in *.
  assert (TE : Permutation (map core ord) (reported y)) by (rewrite <- TE0; apply Permutation_map; now symmetry).
  assert (IO : forall a, In a ord -> In a (flat_map line_results ls)) by (intros a A; now apply (Permutation_in _ (Permutation_sym PE))).
  assert (CK : clock_kept ord) by (intros a b r r' A B; apply CK0; auto). assert (NE : no_empty ord) by (intros a A; auto).
  pose proof (handed_all c ps y SO I FI n owner l ord HW TE ST CK NE) as HA.
  assert (F : flat_map (fun p => flat_map told_case (flat_map handle_calls (l p))) (seq 0 n) = flat_map says (flat_map (fun p => map core (l p)) (seq 0 n))).
  { generalize (seq 0 n). intros m. induction m as [|p m IH]; auto. cbn [flat_map]. rewrite flat_map_app, IH, told_core. reflexivity. }
  rewrite F. apply Permutation_flat_map. now rewrite HA.
Qed.

(* ---- the processes ---- *)

Lemma received_ext y f g m : (forall i, f i = g i) -> received y f m -> received y g m.
Proof. intros H (from & E & F). exists from. split; auto. intros i. rewrite (F i), (H i). reflexivity. Qed.

Lemma zero_suite y p : took_part y p -> exit_status p 0 -> exists m, received y (pr_runners p) m /\ suite_exit m (Some 0).
Proof.
  intros (es1 & k & d & ok & es2 & E & U & TP) X. destruct (WorkerProps.C69_exit_zero _ _ X) as (fs1 & a & ok' & fs2 & F & V & H).
  assert (D : WorkerSpec.decisive (WorkerModel.EAttempt a ok') = true) by (destruct H as [(code & -> & _)|(k' & d' & e & -> & _)]; reflexivity).
  destruct (decisive_unique es1 (WorkerModel.EAttempt (WorkerModel.Got (WorkerModel.MContext k d)) ok) es2 fs1 (WorkerModel.EAttempt a ok') fs2 U V eq_refl D (eq_trans (eq_sym E) F)) as [Q1 <-].
  injection Q1 as <- <-. destruct H as [(code & Q & _)|(k' & d' & e & _ & RE' & CL)]; [discriminate|].
  specialize (TP e RE'). destruct e as [rs [rp|]|]; try destruct CL. destruct TP as (m & RC & SE). cbn [option_map] in SE. exists m. split; auto. now rewrite H0 in SE.
Qed.

(* The processes of the workers: process p has the runners that [owner] says. *)
Definition numbered (y : system) (n : nat) (owner : nat -> nat) (workers : nat -> OutcomeSpec.process) : Prop :=
  (forall i, i < length (y_slots y) -> owner i < n) /\ forall p i, p < n -> pr_runners (workers p) i = Nat.eqb (owner i) p.

(* If the processes of all workers have exited with 0, abq report exits with 0. *)
Theorem C84_all_workers_green c ps y n owner (workers : nat -> OutcomeSpec.process) sort orders ls info :
  sound c ps -> SystemSpec.reaches c ps y -> all_finished y -> ps <> [] -> identified (reported y) ->
  numbered y n owner workers -> (forall p, p < n -> took_part y (workers p) /\ exit_status (workers p) 0) ->
  tells y ls -> clock_kept (flat_map line_results ls) -> sorter sort -> walks orders -> last_summary ls None = Some (length (tests_of c), info) ->
  fst (ReportModel.process sort orders (fun _ => true) true ls) = Reported 0.
Proof.
  intros SO RE FI NP ID [OW PR] TP TE CK SR WA SM.
  assert (LEN : length (y_slots y) = length ps) by (rewrite <- (y_params _ _ _ (reach_sinv c ps y SO RE)); now rewrite map_length).
  assert (CH : exists l, forall p, p < n -> received y (fun i => Nat.eqb (owner i) p) (l p) /\ suite_exit (l p) (Some 0)).
  { assert (H : forall p, p < n -> exists m, received y (fun i => Nat.eqb (owner i) p) m /\ suite_exit m (Some 0)).
    { intros p P. destruct (TP p P) as [T X]. destruct (zero_suite y (workers p) T X) as (m & R & S). exists m. split; auto. eapply received_ext; [|exact R]. intros i. now apply PR. }
    clear -H. induction n as [|m IH]; [exists (fun _ => []); intros; lia|]. destruct IH as (f & F); [intros; apply H; lia|]. destruct (H m) as (lm & HM); [lia|].
    exists (fun p => if Nat.eqb p m then lm else f p). intros p P. destruct (Nat.eqb_spec p m) as [->|]; auto. apply F. lia. }
  destruct CH as (l & L).
  assert (SV : Forall survives (y_slots y)).
  { apply (C70_all_zero c ps y (map workers (seq 0 n)) SO RE FI NP ID).
    - apply Forall_forall. intros q Q. apply in_map_iff in Q as (p & <- & P). apply in_seq in P. apply TP. lia.
    - intros i Li. exists (workers (owner i)). rewrite <- LEN in Li. specialize (OW i Li). split; [apply in_map, in_seq; lia|]. rewrite PR by auto. apply Nat.eqb_refl.
    - apply Forall_forall. intros q Q. apply in_map_iff in Q as (p & <- & P). apply in_seq in P. apply TP. lia. }
  rewrite (C84_report_is_made c ps y n owner l sort orders ls info (fun _ => 0)); auto.
  - f_equal. unfold worst. assert (Z : forall v, v <> 0 -> existsb (Nat.eqb v) (map (fun _ : nat => 0) (seq 0 n)) = false); [|now rewrite !Z by discriminate].
    intros v V. generalize (seq 0 n). intros m. induction m as [|x m IH]; auto. cbn [map existsb]. rewrite IH. destruct (Nat.eqb_spec v 0); [contradiction|reflexivity].
  - split; auto. intros p P. now apply L.
  - intros p P. now apply L.
  - destruct (y_slots y) as [|sl sls]; [destruct ps; [congruence|discriminate]|]. inversion SV; subst. now left.
Qed.

(* The other way round: if abq report exits with 0, so does every worker that was not
   signalled and whose native runners exited with 0. *)
Theorem C84_green_report c ps y n owner l (code : nat -> nat) sort orders push_ok finish_ok ls calls w p es1 k ok es2 rs report x :
  sound c ps -> SystemSpec.reaches c ps y -> all_finished y -> identified (reported y) -> handed_to_workers y n owner l ->
  tells y ls -> clock_kept (flat_map line_results ls) -> sorter sort -> walks orders ->
  (forall q, q < n -> suite_exit (l q) (Some (code q))) ->
  ReportModel.process sort orders push_ok finish_ok ls = (Reported 0, calls) ->
  p < n -> pr_events w = es1 ++ WorkerModel.EAttempt (WorkerModel.Got (WorkerModel.MContext k false)) ok :: es2 -> WorkerSpec.undecided es1 -> ~ In WorkerModel.ESignal (pr_events w) ->
  WorkerSpec.runners_end es2 = Some (WorkerModel.Ended rs report) -> option_map WorkerModel.p_suite report = Some (code p) ->
  Forall (fun r => PoolSpec.exit_code_of r = Some 0%Z) rs -> exit_status w x -> x = 0%Z.
Proof.
  intros SO RE FI ID HW TE CK SR WA SE PR P E U NS RE' SU CO X.
  pose proof (C84_code_is_the_worst c ps y n owner l sort orders push_ok finish_ok ls 0 calls code SO RE FI ID HW TE CK SR WA SE PR) as Wo.
  assert (Z : code p = 0).
  { assert (CP : In (code p) (map code (seq 0 n))) by (apply in_map, in_seq; lia). unfold worst in Wo.
    destruct (existsb (Nat.eqb 101) (map code (seq 0 n))) eqn:B1; [discriminate|]. destruct (existsb (Nat.eqb 1) (map code (seq 0 n))) eqn:B2; [discriminate|].
    destruct (suite_codes _ _ (SE p P)) as [C|[C|C]]; auto; exfalso; rewrite C in CP; [apply existsb_1 in CP|apply existsb_101 in CP]; congruence. }
  rewrite Z in SU. destruct report as [rp|]; [|discriminate]. injection SU as SU.
  destruct (WorkerProps.C69_exit_code _ _ _ X) as (fs1 & a & ok' & fs2 & F & V & D & R).
  destruct (decisive_unique es1 (WorkerModel.EAttempt (WorkerModel.Got (WorkerModel.MContext k false)) ok) es2 fs1 (WorkerModel.EAttempt a ok') fs2 U V eq_refl D (eq_trans (eq_sym E) F)) as [Q1 <-].
  injection Q1 as <- <-. cbn [WorkerSpec.right_code andb] in R. destruct R as (e & Q & [R|[S _]]); [|contradiction]. rewrite RE' in Q. injection Q as <-.
  cbn [WorkerSpec.code_at_end] in R. rewrite SU in R. subst x.
  assert (ST : PoolModel.x_status (PoolModel.shutdown rs) = PoolModel.Completed 0%Z).
  { unfold PoolModel.shutdown. cbn [PoolModel.x_status]. rewrite PoolProofs.loop_errors, PoolProofs.loop_code. cbn [PoolModel.pool_init PoolModel.a_errors PoolModel.a_code app].
    clear -CO. induction CO as [|r rs C _ IH]; [reflexivity|]. destruct r as [c0 m f o i|er o i]; [|discriminate]. injection C as ->.
    cbn [flat_map PoolProofs.last_code]. exact IH. }
  rewrite ST. reflexivity.
Qed.

(* ==== the hypotheses are met ==== *)

Definition at_time (t : nat -> nat) (r : aresult) : assoc :=
  {| as_work := ar_work r; as_run := ar_run r; as_before := []; as_after := None;
     as_results := map (fun x => {| r_id := fst x; r_status := snd x; r_file := None; r_runner := (0, 1); r_time := t (ar_run r) |}) (ar_results r) |}.
(* the reports of the two runners in two lines, those of the second first *)
Definition lines_of (t : nat -> nat) (y : system) : list rline := [Results (map (at_time t) (match y_slots y with [a; b] => reported_by b | _ => [] end)); Results (map (at_time t) (match y_slots y with [a; b] => reported_by a | _ => [] end)); Summary 5 0].
Lemma core_at_time t rs : map core (map (at_time t) rs) = rs.
Proof.
  rewrite map_map. transitivity (map (fun r => r) rs); [|apply map_id]. apply map_ext. intros [w m xs]. unfold core, at_time. cbn. f_equal. rewrite map_map. transitivity (map (fun r => r) xs); [|apply map_id]. apply map_ext. now intros [].
Qed.
Lemma lines_tell t y : length (y_slots y) = 2 -> tells y (lines_of t y).
Proof.
  unfold tells, lines_of, reported. intros L. destruct (y_slots y) as [|a [|b [|? ?]]]; try discriminate. cbn [flat_map line_results app]. rewrite !app_nil_r, map_app, !core_at_time. apply Permutation_app_comm.
Qed.
Lemma lines_clock y : clock_kept (flat_map line_results (lines_of (fun m => m) y)).
Proof.
  assert (T : forall a r, In a (flat_map line_results (lines_of (fun m => m) y)) -> hd_error (as_results a) = Some r -> r_time r = as_run a).
  { intros a r A H. unfold lines_of in A. cbn [flat_map line_results app] in A. rewrite app_nil_r, <- map_app in A. apply in_map_iff in A as (x & <- & _). cbn [at_time as_results as_run] in *.
    destruct (ar_results x); [discriminate|]. now injection H as <-. }
  intros a b r r' A B _ L R R'. rewrite (T a r A R), (T b r' B R'). lia.
Qed.
Lemma two_workers y : length (y_slots y) = 2 -> handed_to_workers y 2 (fun i => i) (handed_to y).
Proof.
  intros L. split; [intros i; lia|]. intros p _. apply (received_ext y (Nat.eqb p)); [intros i; apply Nat.eqb_sym|]. apply handed_received.
Qed.
Example C84_good_run : sound SystemProps.five SystemProps.pair_of_runners /\ SystemSpec.reaches SystemProps.five SystemProps.pair_of_runners good /\ length (y_slots good) = 2 /\
  numbered good 2 (fun i => i) (proc good) /\ (forall p, p < 2 -> took_part good (proc good p) /\ exit_status (proc good p) 0) /\
  last_summary (lines_of (fun m => m) good) None = Some (length (tests_of SystemProps.five), 0) /\
  fst (ReportModel.process isort (fun k => (statuses k, statuses k)) (fun _ => true) true (lines_of (fun m => m) good)) = Reported 0.
Proof.
  split; [exact SystemProps.five_sound|]. split; [apply after_reached|]. split; [vm_compute; reflexivity|]. split; [split; [intros i Hi; exact Hi|intros p i _; apply Nat.eqb_sym]|]. split.
  - intros p P. split; [apply proc_took_part|]. destruct p as [|[|p]]; [| |lia]; unfold exit_status; vm_compute; reflexivity.
  - split; [reflexivity|vm_compute; reflexivity].
Qed.
(* The test 11 fails in both attempts: its worker and the report exit with 1, and the sums
   are the sums. *)
Lemma bad_reported : reported bad = [rep 10 1 Success; rep 11 1 Failure; rep 14 1 Success; rep 11 2 Failure; rep 12 1 Success; rep 13 1 Success].
Proof. unfold reported. rewrite flat_map_concat_map, (proj1 C70_bad_reports). reflexivity. Qed.
Lemma bad_identified : identified (reported bad).
Proof.
  rewrite bad_reported. split; [|split].
  - intros r H. simpl in H. intuition (subst; simpl; repeat constructor; simpl; tauto).
  - intros r r' t H H' T T'. simpl in H, H'. repeat (destruct H as [<-|H]); try destruct H; repeat (destruct H' as [<-|H']); try destruct H'; simpl in T, T'; try reflexivity; exfalso; lia.
  - intros r t H T. simpl in H. intuition (subst r; simpl in T; destruct T as [<-|[]]).
    + exists (rep 10 1 Success); simpl; tauto.
    + exists (rep 11 1 Failure); simpl; tauto.
    + exists (rep 14 1 Success); simpl; tauto.
    + exists (rep 11 1 Failure); simpl; tauto.
    + exists (rep 12 1 Success); simpl; tauto.
    + exists (rep 13 1 Success); simpl; tauto.
Qed.
Definition summed (l : list assoc) : suite := let k := fold_left handle_account l tracker_new in snd (suite_result k (statuses k) (statuses k)).
Lemma summed_up l : sums_up l (summed l).
Proof. exists (statuses (fold_left handle_account l tracker_new)), (statuses (fold_left handle_account l tracker_new)). cbv zeta. repeat split; apply Permutation_refl. Qed.
Example C84_bad_run :
  let s := summed (isort (flat_map line_results (lines_of (fun m => m) bad))) in
  length (y_slots bad) = 2 /\ (s_count s, s_failed s, s_retried s, s_exit s) = (5, 1, 1, 1) /\
  map (fun p => let s := summed (handed_to bad p) in (s_count s, s_failed s, s_retried s, s_exit s)) [0; 1] = [(3, 1, 1, 1); (2, 0, 0, 0)] /\
  fst (ReportModel.process isort (fun k => (statuses k, statuses k)) (fun _ => true) true (lines_of (fun m => m) bad)) = Reported 1.
Proof. vm_compute. auto. Qed.
Lemma first_survives : exists sl, nth_error (y_slots crash) 0 = Some sl /\ survives sl.
Proof. vm_compute. eexists. split; [reflexivity|]. split; [eauto|tauto]. Qed.
(* The native runner of the second runner crashes: 101, although the other worker exits with 0. *)
Example C84_crash_run : length (y_slots crash) = 2 /\ map (fun p => s_exit (summed (handed_to crash p))) [0; 1] = [0; 101] /\
  Exists survives (y_slots crash) /\ Exists (fun sl => crashed (sl_runner sl)) (y_slots crash) /\
  fst (ReportModel.process isort (fun k => (statuses k, statuses k)) (fun _ => true) true (lines_of (fun m => m) crash)) = Reported 101.
Proof.
  split; [vm_compute; reflexivity|]. split; [vm_compute; reflexivity|]. split.
  - destruct first_survives as (sl & N & S). apply Exists_exists. exists sl. split; auto. eapply nth_error_In; eauto.
  - split; [|vm_compute; reflexivity]. destruct (proj1 (proj2 C70_crash)) as (sl & N & C). apply Exists_exists. exists sl. split; auto. eapply nth_error_In; eauto.
Qed.

(* Without the clock: a run in which a test failed in both attempts, and its worker exits
   with 1, but the second attempt has an earlier time (a machine whose clock was set back):
   abq report exits with 0. *)
Theorem C84_clock_set_back_refuted :
  let ls := lines_of (fun m => 10 - m) bad in
  sound SystemProps.five SystemProps.pair_of_runners /\ SystemSpec.reaches SystemProps.five SystemProps.pair_of_runners bad /\ all_finished bad /\ identified (reported bad) /\
  handed_to_workers bad 2 (fun i => i) (handed_to bad) /\ tells bad ls /\
  suite_exit (handed_to bad 0) (Some 1) /\ suite_exit (handed_to bad 1) (Some 0) /\
  forall sort orders, sorter sort -> walks orders -> fst (ReportModel.process sort orders (fun _ => true) true ls) = Reported 0.
Proof.
  intros ls. split; [exact SystemProps.five_sound|]. split; [apply after_reached|]. split; [exact (proj2 C70_bad_reports)|]. split; [exact bad_identified|].
  assert (L : length (y_slots bad) = 2) by (vm_compute; reflexivity). split; [now apply two_workers|]. split; [now apply lines_tell|].
  assert (S0 : suite_code (handed_to bad 0) = Some 1) by (vm_compute; reflexivity). assert (S1 : suite_code (handed_to bad 1) = Some 0) by (vm_compute; reflexivity).
  split; [rewrite <- S0; apply suite_code_ok|]. split; [rewrite <- S1; apply suite_code_ok|]. intros sort orders SR WA.
  rewrite (C41_report_independent sort isort orders (fun k => (statuses k, statuses k)) (fun _ => true) true ls ls);
    [vm_compute; reflexivity|exact SR|apply isort_sorter|exact WA|split; apply Permutation_refl|apply Permutation_refl|reflexivity|].
  assert (E : map key_triple (flat_map line_results ls) = [(12, Some 9, 1); (13, Some 9, 1); (10, Some 9, 1); (11, Some 9, 1); (14, Some 9, 1); (11, Some 8, 2)]) by (vm_compute; reflexivity).
  rewrite E. repeat constructor; simpl; intuition congruence.
Qed.

Print Assumptions C84_report_is_the_sum.
Print Assumptions C84_code_is_the_worst.
Print Assumptions C84_report_is_made.
Print Assumptions C84_crash_is_seen.
Print Assumptions C84_same_results.
Print Assumptions C84_all_workers_green.
Print Assumptions C84_green_report.
Print Assumptions C84_clock_set_back_refuted.
