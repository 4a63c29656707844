(* C82: what the summary at the end of a run tells.  The theorems on reading suppose that no name of a file has a line feed;
   C82_line_feeds_refuted shows that without that the summary can be taken for another. *)
From Verif Require Import Base SummaryModel SummarySpec SummaryProofs.
From Verif Require ReportModel ReportSpec ReportProofs ReportProps.
From Coq Require Import NArith String Sorting.Sorted Permutation Lia.
Open Scope N_scope.

(* who reads the text learns the numbers of tests, failures and retried tests, the times to six milliseconds, and which worker (or
   runner) had how many failures and retried tests in which file *)
Theorem C82_read_back_partial : forall hundredths s, nearest hundredths -> maps s -> one_line s -> wall_time s < 2 ^ 50 * 1000000 -> test_time s < 2 ^ 50 * 1000000 ->
  exists r, read_summary (seen (format_short_suite_summary hundredths s)) = Some r /\
    tests r = num_tests s /\ failing r = num_failing s /\ retried r = num_retried s /\
    about (fst (in_all r)) (wall_time s) /\ about (snd (in_all r)) (test_time s) /\
    tells s retries_per_file (retries r) /\ tells s failures_per_file (failures r).
Proof.
  intros hundredths s H M O L1 L2. rewrite read_all by auto. eexists. split; [reflexivity|]. cbn [tests failing retried in_all retries failures fst snd].
  do 3 (split; [reflexivity|]). split; [now apply about_times|]. split; [now apply about_times|]. split; apply tells_tab; auto.
Qed.

(* two summaries that look the same tell the same *)
Theorem C82_same_text_partial : forall hundredths s s', maps s -> one_line s -> maps s' -> one_line s' ->
  seen (format_short_suite_summary hundredths s) = seen (format_short_suite_summary hundredths s') ->
  num_tests s = num_tests s' /\ num_failing s = num_failing s' /\ num_retried s = num_retried s' /\
  forall sel, sel = failures_per_file \/ sel = retries_per_file -> forall f k,
    let us := filter (belongs (grouped_by s) k) (runner_summaries s) in let us' := filter (belongs (grouped_by s') k) (runner_summaries s') in
    (counted sel f us <-> counted sel f us') /\ total sel f us = total sel f us' /\ (counted sel f us -> grouped_by s = grouped_by s').
Proof.
  intros h s s' M O M' O' E. apply (f_equal read_summary) in E. rewrite !read_all in E by auto. injection E as _ _ E1 E2 E3 E4 E5. do 3 (split; [assumption|]). intros sel W f k us us'.
  assert (T : exists b, tells s sel b /\ tells s' sel b).
  { destruct W as [->| ->].
    - eexists. split; [apply tells_tab; auto|]. rewrite E5. apply tells_tab; auto.
    - eexists. split; [apply tells_tab; auto|]. rewrite E4. apply tells_tab; auto. }
  destruct T as (b & (_ & F & A) & (_ & F' & B)).
  assert (G : counted sel f us -> grouped_by s = grouped_by s').
  { intros C. destruct (A k f (total sel f us)) as [_ A2]. destruct (A2 (conj C eq_refl)) as (rows & I & _). rewrite Forall_forall in F'. apply F' in I as [I _]. exact I. }
  assert (G' : counted sel f us' -> grouped_by s = grouped_by s').
  { intros C. destruct (B k f (total sel f us')) as [_ B2]. destruct (B2 (conj C eq_refl)) as (rows & I & _). rewrite Forall_forall in F. apply F in I as [I _]. symmetry. exact I. }
  assert (X : forall n, counted sel f us /\ n = total sel f us <-> counted sel f us' /\ n = total sel f us').
  { intros n. split; intros C.
    - destruct C as [C D]. pose proof (G C) as GE. apply B. rewrite <- GE. apply A. auto.
    - destruct C as [C D]. pose proof (G' C) as GE. apply A. rewrite GE. apply B. auto. }
  assert (Z : forall l, ~ counted sel f l -> total sel f l = 0).
  { intros l N0. unfold total. induction l as [|u l IH]; auto. cbn. rewrite IH; [|intros C; apply N0; rewrite counted_cons; auto].
    assert (N1 : ~ In f (map fst (sel u))) by (intros I; apply N0; rewrite counted_cons; auto). clear - N1. unfold count_in. induction (sel u) as [|e c IH]; auto. cbn in *. destruct (text_eqb (fst e) f) eqn:E; [apply eqb_iff in E; tauto|]. apply IH. tauto. }
  assert (Y : counted sel f us <-> counted sel f us') by (split; intros C; [apply (X (total sel f us))|apply (X (total sel f us'))]; auto).
  split; auto. split; auto. destruct (X (total sel f us)) as [X1 X2]. 
  assert (D : counted sel f us \/ ~ counted sel f us).
  { unfold counted. clear. induction us as [|u l [IH|IH]].
    - right. intros (u & n & [] & _).
    - left. destruct IH as (v & n & I & J). exists v, n. split; auto. now right.
    - destruct (in_dec (list_eq_dec N.eq_dec) f (map fst (sel u))) as [I|N0].
      + left. apply in_map_iff in I as ([g n] & <- & I). exists u, n. split; auto. now left.
      + right. intros (v & n & [<-|I] & J); [|apply IH; eauto]. apply N0. change f with (fst (f, n)). now apply in_map. }
  destruct D as [D|D]; [now apply X1|]. rewrite (Z us D), (Z us'); auto. now rewrite <- Y.
Qed.

(* the colours: the terminal is left without a colour, no line end is coloured, and something is red if and only if a test failed, yellow
   if and only if one was retried *)
Theorem C82_colours : forall hundredths s, let p := painted None (format_short_suite_summary hundredths s) in
  snd p = None /\ map fst (fst p) = seen (format_short_suite_summary hundredths s) /\
  (forall c, In (10, c) (fst p) -> c = None) /\
  ((exists a c, In (a, Some c) (fst p) /\ fg_of c = Some Red) <-> 0 < num_failing s) /\
  ((exists a c, In (a, Some c) (fst p) /\ fg_of c = Some Yellow) <-> 0 < num_retried s).
Proof.
  intros hundredths s p. split; [|split; [apply painted_seen|]]; unfold p; destruct (painted_all hundredths s) as (A & B & C & D & E & F & G & H & P & -> & NB & ND & _); rewrite P; [reflexivity|]. cbn [fst].
  clear p P.
  assert (M : forall (a : N) (c d : option colour) (x : text), In (a, c) (map (fun a => (a, d)) x) <-> c = d /\ In a x).
  { intros a c d x. rewrite in_map_iff. split; [intros (b & Q & I); injection Q as <- <-; auto|intros [-> I]; eauto]. }
  assert (R : forall a c, In (a, c) (if 0 <? num_retried s then map (fun a => (a, None)) F ++ map (fun a => (a, Some yellow_bold_spec)) (dec (num_retried s) ++ t " retried") ++ [] else []) <->
     0 < num_retried s /\ (c = None /\ In a F \/ c = Some yellow_bold_spec /\ In a (dec (num_retried s) ++ t " retried"))).
  { intros a c. destruct (N.ltb_spec 0 (num_retried s)) as [L|L]; [rewrite app_nil_r, in_app_iff, !M; intuition|]. cbn. lia. }
  set (red := dec (num_failing s) ++ t " failures"). assert (RN : ~ In 10 red) by (unfold red; nolf). set (yel := dec (num_retried s) ++ t " retried") in *. assert (YN : ~ In 10 yel) by (unfold yel; nolf).
  assert (RE : exists a, In a red) by (exists 32; unfold red; apply in_app_iff; right; now left). assert (YE : exists a, In a yel) by (exists 32; unfold yel; apply in_app_iff; right; now left). clearbody red yel.
  assert (FC : forall x, fg_of (failing_spec (num_failing s)) = Some x <-> x = Red /\ 0 < num_failing s).
  { intros x. unfold failing_spec. destruct (N.ltb_spec 0 (num_failing s)) as [L|L]; cbn; split; try easy; [intros Q; injection Q as <-; auto|intros [-> _]; auto|lia]. }
  split; [|split].
  - intros c I. rewrite !in_app_iff, R, !M in I. intuition.
  - split.
    + intros (a & c & I & Q). rewrite !in_app_iff, R, !M in I. repeat match goal with H : _ \/ _ |- _ => destruct H as [H|H] | H : _ /\ _ |- _ => destruct H end; try discriminate;
        match goal with H : Some c = Some _ |- _ => injection H as -> end; cbn in Q; try discriminate. apply FC in Q. tauto.
    + intros L. destruct RE as (a & I). exists a, (failing_spec (num_failing s)). split; [|apply FC; auto]. rewrite !in_app_iff, !M. tauto.
  - split.
    + intros (a & c & I & Q). rewrite !in_app_iff, R, !M in I. repeat match goal with H : _ \/ _ |- _ => destruct H as [H|H] | H : _ /\ _ |- _ => destruct H end; try discriminate; auto;
        match goal with H : Some c = Some _ |- _ => injection H as -> end; cbn in Q; try discriminate. apply FC in Q. now destruct Q.
    + intros L. destruct YE as (a & I). exists a, yellow_bold_spec. split; auto. rewrite !in_app_iff, R, !M. tauto.
Qed.

(* what is printed of the results of a run (C42-C44): read back, every worker (runner) has in every file the number of tests of that
   file that were first run there and failed (were run more than once), and nobody has anything else *)
Theorem C82_run_partial : forall es k o1 o2 k' s name walk hundredths wall test g,
  ReportSpec.reaches es k -> Permutation (ReportModel.statuses k) o1 -> Permutation (ReportModel.statuses k) o2 -> ReportModel.suite_result k o1 o2 = (k', s) ->
  names name -> (forall c, Permutation (walk c) c) ->
  exists r, read_summary (seen (format_short_suite_summary hundredths (of_suite name walk wall test g s))) = Some r /\
    tests r = N.of_nat (ReportModel.s_count s) /\ failing r = N.of_nat (ReportModel.s_failed s) /\ retried r = N.of_nat (ReportModel.s_retried s) /\
    forall k f, exists failed again,
      ReportSpec.enumerates (fun t => ReportSpec.taken_for_failed (ReportSpec.attempts t es) /\ exists e, ReportSpec.first_result t es = Some e /\ of_file_at g k f e) failed /\
      ReportSpec.enumerates (fun t => (2 <= List.length (ReportSpec.attempts t es))%nat /\ exists e, ReportSpec.first_result t es = Some e /\ of_file_at g k f e) again /\
      (forall n, says (failures r) g (N.of_nat k) (name f) n <-> failed <> [] /\ n = N.of_nat (List.length failed)) /\
      (forall n, says (retries r) g (N.of_nat k) (name f) n <-> again <> [] /\ n = N.of_nat (List.length again)).
Proof.
  intros es k o1 o2 k' s name walk hundredths wall test g R P1 P2 E [J L] W. destruct (suite_maps name walk J W k o1 o2 k' wall test g s E) as (M & PF & PR).
  set (ss := of_suite name walk wall test g s). assert (O : one_line ss) by (apply suite_one_line; auto). rewrite read_all by auto. eexists. split; [reflexivity|]. cbn [tests failing retried retries failures].
  do 3 (split; [reflexivity|]). intros kk f.
  destruct (ReportProps.C44_per_runner es k o1 o2 k' s (whose g kk) f R P1 P2 E) as ((failed & EF & TF) & (again & EA & TA)). exists failed, again.
  assert (HW : forall e, (ReportModel.r_file (ReportSpec.e_result e) = Some f /\ whose g kk (ReportModel.r_runner (ReportSpec.e_result e)) = true) <-> of_file_at g kk f e).
  { intros e. unfold of_file_at, whose. rewrite Nat.eqb_eq. destruct g; tauto. }
  assert (EN : forall (Q : nat -> Prop) l, ReportSpec.enumerates (fun t => Q t /\ exists e, ReportSpec.first_result t es = Some e /\ ReportModel.r_file (ReportSpec.e_result e) = Some f /\ whose g kk (ReportModel.r_runner (ReportSpec.e_result e)) = true) l ->
     ReportSpec.enumerates (fun t => Q t /\ exists e, ReportSpec.first_result t es = Some e /\ of_file_at g kk f e) l).
  { intros Q l [N0 I]. split; auto. intros x. rewrite I. split; intros (A & e & B & C); split; auto; exists e; split; auto; now apply HW. }
  split; [now apply EN|]. split; [now apply EN|].
  assert (LZ : forall l : list nat, List.length l <> 0%nat <-> l <> []) by (intros [|? ?]; cbn; split; congruence).
  split; intros n.
  - destruct (tells_tab ss failures_per_file has_failures M) as (_ & _ & T); [now left|]. destruct (suite_total name walk J W failures_per_file ReportModel.u_failures wall test g s kk f) as [A B]; [now left|]. specialize (B PF). fold ss in A, B.
    unfold says. change g with (grouped_by ss) in |- *. rewrite T. change (grouped_by ss) with g. rewrite A, B, TF, LZ. reflexivity.
  - destruct (tells_tab ss retries_per_file has_retries M) as (_ & _ & T); [now right|]. destruct (suite_total name walk J W retries_per_file ReportModel.u_retries wall test g s kk f) as [A B]; [now right|]. specialize (B PR). fold ss in A, B.
    unfold says. change g with (grouped_by ss) in |- *. rewrite T. change (grouped_by ss) with g. rewrite A, B, TA, LZ. reflexivity.
Qed.

(* with line feeds in names of files: two runs of which one has failures in one file and the other in two look the same, also to who
   knows all the numbers *)
Definition one_file : short_summary :=
  {| wall_time := 0; test_time := 0; num_tests := 2; num_failing := 2; num_retried := 0; grouped_by := Worker;
     runner_summaries := [{| runner := (0, 1); failures_per_file := [(t "a.rb" ++ [10] ++ t "        1   b.rb", 1)]; retries_per_file := [] |}] |}.
Definition two_files : short_summary :=
  {| wall_time := 0; test_time := 0; num_tests := 2; num_failing := 2; num_retried := 0; grouped_by := Worker;
     runner_summaries := [{| runner := (0, 1); failures_per_file := [(t "b.rb", 1); (t "a.rb", 1)]; retries_per_file := [] |}] |}.
Theorem C82_line_feeds_refuted : forall hundredths, maps one_file /\ maps two_files /\
  seen (format_short_suite_summary hundredths one_file) = seen (format_short_suite_summary hundredths two_files) /\
  total failures_per_file (t "b.rb") (runner_summaries one_file) = 0 /\ total failures_per_file (t "b.rb") (runner_summaries two_files) = 1.
Proof.
  intros hundredths. split; [|split; [|split; [reflexivity|split; reflexivity]]].
  - intros u [<-|[]]. split; repeat constructor; cbn; tauto.
  - intros u [<-|[]]. split; repeat constructor; cbn; intuition discriminate.
Qed.

(* the premises are met: two workers, three runners, rounding half up *)
Definition round_half_up (ms : N) : N := (ms + 5) / 10.
Definition example : short_summary :=
  {| wall_time := 83456789012; test_time := 123999999; num_tests := 240017; num_failing := 100003; num_retried := 2; grouped_by := Worker;
     runner_summaries :=
      [{| runner := (0, 1); failures_per_file := [(t "z.rb", 2); (t "a b.rb", 100000)]; retries_per_file := [] |};
       {| runner := (1, 1); failures_per_file := []; retries_per_file := [(t "z.rb", 1)] |};
       {| runner := (0, 2); failures_per_file := [(t "z.rb", 1)]; retries_per_file := [(t "    7   x", 1)] |}] |}.
Example C82_example : nearest round_half_up /\ maps example /\ one_line example /\ wall_time example < 2 ^ 50 * 1000000 /\ test_time example < 2 ^ 50 * 1000000 /\
  read_summary (seen (format_short_suite_summary round_half_up example)) =
  Some {| in_all := (8346, 12); tests := 240017; failing := 100003; retried := 2;
          retries := [((Worker, 0), [(t "    7   x", 1)]); ((Worker, 1), [(t "z.rb", 1)])];
          failures := [((Worker, 0), [(t "a b.rb", 100000); (t "z.rb", 3)])] |}.
Proof.
  split; [|split; [|split; [|split; [|split]]]].
  - intros ms _. unfold round_half_up. pose proof (N.div_mod (ms + 5) 10 ltac:(lia)). pose proof (N.mod_lt (ms + 5) 10 ltac:(lia)). set (q := (ms + 5) / 10) in *. set (r := (ms + 5) mod 10) in *. clearbody q r. lia.
  - intros u I. cbn in I. repeat destruct I as [<-|I]; try easy; split; repeat constructor; cbn; intuition discriminate.
  - intros u f n I K. cbn in I. repeat destruct I as [<-|I]; try easy; cbn in K; repeat (destruct K as [K|K]; [injection K as <- <-; cbn; intuition discriminate|]); destruct K.
  - reflexivity.
  - reflexivity.
  - vm_compute. reflexivity.
Qed.

Example C82_names : names (fun n => t "spec/f" ++ dec (N.of_nat n) ++ t ".rb") /\ forall c : counts, Permutation (rev c) c.
Proof.
  split; [split|].
  - intros a b E. apply app_inv_head, app_inv_tail in E. apply (f_equal (fun x => horner x 0)) in E. rewrite !horner_dec in E. lia.
  - intros a. nolf.
  - intros c. apply Permutation_sym, Permutation_rev.
Qed.

Print Assumptions C82_read_back_partial.
Print Assumptions C82_same_text_partial.
Print Assumptions C82_colours.
Print Assumptions C82_run_partial.
Print Assumptions C82_line_feeds_refuted.
