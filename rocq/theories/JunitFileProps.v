(* C91: the JUnit report, as the XML file that others read, tells what was told. *)
From Coq Require Import String.
From Verif Require Import Base StatusModel ReportModel.
From Verif Require Import ReportersModel ReportersSpec ReportersProofs JunitFileModel JunitFileSpec JunitFileProofs.
From Coq Require Import NArith ZArith Lia.
Open Scope N_scope.

(* A program that reads XML reads the file: the results are all there, in their order, each with its name and with
   what went wrong, and so are their numbers.  White space in a text is read as spaces. *)
Theorem C91_file_is_read_partial : forall seconds timestamp strip rs,
  (forall z, Forall plain (seconds z)) -> Forall plain timestamp -> strips strip ->
  (forall r, In r rs -> writable (f_name r)) ->
  (forall r o, In r rs -> f_output r = Some o -> a_string o /\ ~ In 65534 o /\ ~ In 65535 o) ->
  exists d, read_xml (write_xml seconds timestamp (collect strip t_suite rs)) = Some d /\ tells_all as_read strip rs d.
Proof.
  intros seconds timestamp strip rs S T ST N O. apply read_report; auto.
  { unfold t_suite. repeat constructor. }
  intros r I. split; [auto|]. unfold output_text. destruct (f_output r) as [o|] eqn:E.
  - destruct (O r o I E) as (A & B & C). pose proof (string_writable strip r ST) as X. unfold output_text in X. rewrite E in X. apply X; auto.
    intros c J. split; intros ->; auto.
  - apply Forall_forall. intros c J. destruct (ST _ _ J) as [[] _].
Qed.

(* Texts of one line are read as they were told. *)
Theorem C91_texts_of_one_line : forall seconds timestamp strip rs,
  (forall z, Forall plain (seconds z)) -> Forall plain timestamp ->
  (forall r, In r rs -> writable (f_name r) /\ one_line (f_name r)) ->
  (forall r, In r rs -> let o := strip (match f_output r with Some o => o | None => [] end) in writable o /\ one_line o) ->
  exists d, read_xml (write_xml seconds timestamp (collect strip t_suite rs)) = Some d /\ tells_all (fun x => x) strip rs d.
Proof.
  intros seconds timestamp strip rs S T N O. destruct (read_report seconds timestamp strip t_suite rs S T) as (d & R & A).
  { unfold t_suite. repeat constructor. }
  { intros r I. split; [now apply N|now apply O]. }
  exists d. split; auto. eapply tells_ext; [|exact A]. intros r I. destruct (N r I) as [_ N1]. destruct (O r I) as [_ O1]. split; apply as_read_one_line; auto.
Qed.

(* It also tells how long the tests took. *)
Theorem C91_times : forall seconds timestamp strip rs,
  (forall z, Forall plain (seconds z)) -> Forall plain timestamp ->
  forall d, read_xml (write_xml seconds timestamp (collect strip t_suite rs)) = Some d ->
  (forall r, In r rs -> writable (f_name r)) ->
  (forall r, In r rs -> writable (strip (match f_output r with Some o => o | None => [] end))) ->
  tells_times seconds timestamp rs d.
Proof.
  intros seconds timestamp strip rs S T d R N O. destruct (read_times seconds timestamp strip rs S T) as (d' & R' & A); [intros r I; split; auto; now apply O|].
  rewrite R in R'. injection R' as <-. exact A.
Qed.

(* The file that abq test leaves for a reporter with a path is such a file. *)
Theorem C91_file_of_abq_test : forall seconds timestamp strip w fin kinds n batches info fs out,
  (forall z, Forall plain (seconds z)) -> Forall plain timestamp -> strips strip ->
  abq_test strip w fin kinds n batches info fs = Some out ->
  forall i p s0, nth_error (build_reporters kinds n) i = Some (RJUnit p s0) -> fin i = FinOk -> undisturbed fin (build_reporters kinds n) i p ->
  (forall r, In r (results_of (concat batches)) -> writable (f_name r)) ->
  (forall r o, In r (results_of (concat batches)) -> f_output r = Some o -> a_string o /\ ~ In 65534 o /\ ~ In 65535 o) ->
  exists s d, tr_files out p = Some (JUnitFile s) /\ read_xml (write_xml seconds timestamp s) = Some d /\
    tells_all as_read strip (results_of (concat batches)) d.
Proof.
  intros seconds timestamp strip w fin kinds n batches info fs out S T ST. unfold abq_test. destruct (work_forever _ _ _ _) as [reps|] eqn:W; [|discriminate].
  destruct (finish_all fin 0 info reps fs) as [fs' errs] eqn:F. intros [= <-] i p s0 N O U NA OU. cbn [tr_files].
  pose proof (work_grown _ _ _ _ _ W) as G. destruct (Forall2_nth _ _ _ G i _ N) as (rep' & N' & G').
  assert (B0 : s0 = {| j_name := t_suite; j_cases := [] |}).
  { apply nth_error_In in N. destruct (built_from kinds n _ N) as (k & K & _). clear - N. unfold build_reporters in N. revert N. generalize (existsb (outputs_to_stdout n) kinds) as b. intros b.
    induction kinds as [|k kinds IH]; cbn [filter_map]; [intros []|]. destruct k as [| | | | p0|p0]; cbn [reporter_from_kind]; try (destruct b); try (intros [X|X]; [try discriminate X; injection X as _ <-; reflexivity|]); auto. }
  destruct rep' as [k t|q s|q t]; cbn [grown] in G'; try tauto. destruct G' as (<- & EN & EC).
  assert (ES : s = collect strip t_suite (results_of (concat batches))).
  { rewrite collect_is. rewrite attempts_results in EC. subst s0. cbn [j_name j_cases app] in EN, EC. destruct s as [m l]. cbn [j_name j_cases] in EN, EC. now subst. }
  exists s. subst s. destruct (C91_file_is_read_partial seconds timestamp strip (results_of (concat batches)) S T ST NA OU) as (d & R & A). exists d. split; [|split; auto].
  pose proof (finish_all_writes fin info p reps 0 i fs _ N' eq_refl O) as X. rewrite F in X. cbn [fst] in X. rewrite X; [reflexivity|].
  intros j r L Nj Pj. destruct (Forall2_nth_r _ _ _ G j r Nj) as (r0 & Nj0 & Gj). apply (U j r0); auto. rewrite (grown_path _ _ _ _ _ Gj). exact Pj.
Qed.

(* But the names of tests are written as they are.  A character in a name that XML does not know, as the one that
   begins a change of colour, and the file is no XML: nobody reads a result of it. *)
Theorem C91_unknown_character_in_a_name : forall seconds timestamp strip rs r c,
  In r rs -> In c (f_name r) -> xml_char c = false ->
  read_xml (write_xml seconds timestamp (collect strip t_suite rs)) = None.
Proof. intros seconds timestamp strip rs r c I C X. exact (refused_name seconds timestamp strip t_suite rs r c I C X). Qed.

Definition keep (x : text) : text := filter (fun c => (32 <=? c) || (c =? 10)) x.
Lemma keep_strips : strips keep.
Proof. intros x c I. apply filter_In in I as [A B]. split; auto. apply orb_true_iff in B as [B|B]; [left; now apply N.leb_le|right; now apply N.eqb_eq]. Qed.
Definition told (name : text) (s : rstatus) (output : text) : full :=
  {| f_res := {| r_id := 1; r_status := s; r_file := None; r_runner := (0, 0)%nat; r_time := 1%nat |}; f_name := name; f_output := Some output;
     f_stdout := None; f_stderr := None; f_runtime := Nanoseconds 5 |}.
Definition zero : Z -> text := fun _ => lit "0".

Theorem C91_file_is_read_refuted :
  ~ forall seconds timestamp strip rs,
      (forall z, Forall plain (seconds z)) -> Forall plain timestamp -> strips strip ->
      (forall r, In r rs -> a_string (f_name r) /\ forall o, f_output r = Some o -> a_string o) ->
      exists d, read_xml (write_xml seconds timestamp (collect strip t_suite rs)) = Some d /\ tells_all as_read strip rs d.
Proof.
  intros H. destruct (H zero (lit "T") keep [told ([27] ++ lit "[31mred") Success []]) as (d & R & _).
  - intros z. repeat constructor; discriminate.
  - repeat constructor; discriminate.
  - exact keep_strips.
  - intros r [<-|[]]. cbn [told f_name f_output]. split; [apply Forall_forall; intros c I; left; cbn in I; intuition subst; reflexivity|]. intros o [= <-]. constructor.
  - vm_compute in R. discriminate.
Qed.

(* the ends of lines of what a failing test printed are lost *)
Theorem C91_lines_are_kept_refuted :
  ~ forall seconds timestamp strip rs,
      (forall z, Forall plain (seconds z)) -> Forall plain timestamp -> strips strip ->
      (forall r, In r rs -> writable (f_name r) /\ forall o, f_output r = Some o -> writable o) ->
      exists d, read_xml (write_xml seconds timestamp (collect strip t_suite rs)) = Some d /\ tells_all (fun x => x) strip rs d.
Proof.
  intros H. destruct (H zero (lit "T") keep [told (lit "a") Failure (lit "x" ++ [10] ++ lit "y")]) as (d & R & A).
  - intros z. repeat constructor; discriminate.
  - repeat constructor; discriminate.
  - exact keep_strips.
  - intros r [<-|[]]. cbn [told f_name f_output]. split; [repeat constructor|]. intros o [= <-]. repeat constructor.
  - vm_compute in R. injection R as <-. destruct A as [_ (s & [= <-] & _ & D & _)]. cbn [children] in D. inversion D as [|? ? ? ? T _]; subst.
    destruct T as (_ & _ & p & [= <-] & _ & _ & M & _). vm_compute in M. discriminate.
Qed.

(* a run with all kinds of texts: marks of XML in names and output, colours in the output *)
Example C91_example : exists d,
  let rs := [told (lit "a<b & ""c""") Success []; told (lit "two") Failure (lit "1 > 2" ++ [10] ++ [27] ++ lit "it's"); told (lit "3") TimedOut (lit ""); told (lit "4") Todo (lit "-"); told (lit "5") Error (lit "e")] in
  read_xml (write_xml zero (lit "T") (collect keep t_suite rs)) = Some d /\ tells_all as_read keep rs d /\
  (exists s c1 c2 p more, children d = [s] /\ children s = c1 :: c2 :: more /\ attribute "name" c1 = Some (lit "a<b & ""c""") /\ children c2 = [p] /\ attribute "message" p = Some (lit "1 > 2 it's") /\
     attribute "errors" s = Some (lit "2")).
Proof.
  set (rs := [_; _; _; _; _]). destruct (C91_file_is_read_partial zero (lit "T") keep rs) as (d & R & A).
  - intros z. repeat constructor; discriminate.
  - repeat constructor; discriminate.
  - exact keep_strips.
  - intros r I. repeat (destruct I as [<-|I]; [repeat constructor|]). destruct I.
  - intros r o I. repeat (destruct I as [<-|I]; [intros [= <-]; split; [apply Forall_forall; intros c J; left; cbn in J; intuition subst; reflexivity|split; cbn; intuition discriminate]|]). destruct I.
  - exists d. cbv zeta. split; [exact R|]. split; [exact A|]. vm_compute in R. injection R as <-. eexists _, _, _, _, _. repeat split; reflexivity.
Qed.

Print Assumptions C91_file_is_read_partial.
Print Assumptions C91_texts_of_one_line.
Print Assumptions C91_times.
Print Assumptions C91_file_of_abq_test.
Print Assumptions C91_unknown_character_in_a_name.
Print Assumptions C91_file_is_read_refuted.
Print Assumptions C91_lines_are_kept_refuted.
