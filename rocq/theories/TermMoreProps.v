(* More of what is given on the command line for reporters, and of what they show (C45, C79). *)
From Verif Require Import Base StatusModel TermModel TermSpec TermProofs ReportersModel ReportersSpec ReportersProofs.
From Coq Require Import NArith Ascii String.
Open Scope nat_scope. Open Scope list_scope.

(* The characters with the Unicode property White_Space *)
Definition unicode_white_space : list N :=
  [9; 10; 11; 12; 13; 32; 133; 160; 5760; 8192; 8193; 8194; 8195; 8196; 8197; 8198; 8199; 8200; 8201; 8202; 8232; 8233; 8239; 8287; 12288]%N.

Lemma white_space_spec c : white_space c = true <-> In c unicode_white_space.
Proof.
  unfold white_space, unicode_white_space. rewrite !Bool.orb_true_iff, !Bool.andb_true_iff, !N.leb_le, !N.eqb_eq. cbn [In]. lia.
Qed.
Lemma blank_spec s : blank s = true <-> forall c, In c s -> In c unicode_white_space.
Proof. unfold blank. rewrite forallb_forall. split; intros H c I; apply white_space_spec; auto. Qed.

(* A path of a file reporter that is blank is the default path; any other without '=' is taken as it is. *)
Theorem C45_blank_path : forall p, ~ In 61%N p ->
  ((forall c, In c p -> In c unicode_white_space) ->
     parse_kind (t_junit ++ 61%N :: p) = Some (RkJUnitXml DEFAULT_XML_PATH) /\ parse_kind (t_rwx ++ 61%N :: p) = Some (RkRwxV1Json DEFAULT_JSON_PATH)) /\
  ((exists c, In c p /\ ~ In c unicode_white_space) ->
     parse_kind (t_junit ++ 61%N :: p) = Some (RkJUnitXml p) /\ parse_kind (t_rwx ++ 61%N :: p) = Some (RkRwxV1Json p)).
Proof.
  intros p N.
  assert (S1 : split_eq (t_junit ++ 61%N :: p) = [t_junit; p]) by (rewrite split_eq_cut, (split_eq_plain p N); [reflexivity|apply no_eq; reflexivity]).
  assert (S2 : split_eq (t_rwx ++ 61%N :: p) = [t_rwx; p]) by (rewrite split_eq_cut, (split_eq_plain p N); [reflexivity|apply no_eq; reflexivity]).
  assert (X1 : parse_kind (t_junit ++ 61%N :: p) = Some (RkJUnitXml (match not_blank (Some p) with Some q => q | None => DEFAULT_XML_PATH end))) by (unfold parse_kind; cbv zeta; rewrite S1; reflexivity).
  assert (X2 : parse_kind (t_rwx ++ 61%N :: p) = Some (RkRwxV1Json (match not_blank (Some p) with Some q => q | None => DEFAULT_JSON_PATH end))) by (unfold parse_kind; cbv zeta; rewrite S2; reflexivity).
  rewrite X1, X2. unfold not_blank. split.
  - intros H. apply blank_spec in H. rewrite H. split; reflexivity.
  - intros (c & I & W). destruct (blank p) eqn:E; [|split; reflexivity]. destruct W. exact (proj1 (blank_spec p) E c I).
Qed.

(* The words for the reporters, and the files that are written if no path is given *)
Definition word (s : String.string) : list N := map N_of_ascii (String.list_ascii_of_string s).
Arguments word s%string_scope.
Theorem C45_words :
  parse_kind (word "default") = Some RkDefault /\ parse_kind (word "line") = Some RkLine /\
  parse_kind (word "dot") = Some RkDot /\ parse_kind (word "progress") = Some RkProgress /\
  parse_kind (word "junit-xml") = Some (RkJUnitXml (word "abq-test-results.xml")) /\
  parse_kind (word "rwx-v1-json") = Some (RkRwxV1Json (word "abq-test-results.json")) /\
  (forall p, (forall c, In c p -> In c unicode_white_space) -> ~ In 61%N p ->
     parse_kind (word "junit-xml=" ++ p) = Some (RkJUnitXml (word "abq-test-results.xml")) /\
     parse_kind (word "rwx-v1-json=" ++ p) = Some (RkRwxV1Json (word "abq-test-results.json"))).
Proof.
  repeat (split; [vm_compute; reflexivity|]). intros p B N.
  destruct (C45_blank_path p N) as [H _]. destruct (H B) as [H1 H2]. split; [exact H1|exact H2].
Qed.

(* Something is on the terminal exactly if a reporter for it was asked for, or the default one where there are several runners. *)
Theorem C79_who_is_on_terminal : forall kinds n,
  (exists rep, In rep (build_reporters kinds n) /\ on_terminal rep) <->
  (exists k, In k kinds /\ (k = RkDot \/ k = RkLine \/ k = RkProgress \/ (k = RkDefault /\ n <> 1))).
Proof.
  intros kinds n. rewrite built_terminal. unfold has_stdout_reporters. rewrite existsb_exists. split; intros (k & I & H); exists k; split; auto.
  - destruct k; cbn in H; try discriminate; auto. destruct (Nat.eqb_spec n 1); [discriminate|auto].
  - destruct H as [->|[->|[->|[-> H]]]]; try reflexivity. cbn. now apply Nat.eqb_neq in H as ->.
Qed.

(* Each result has lines of its own in what the line reporter writes. *)
Theorem C79_line_by_line : forall rs1 r rs2, exists more,
  flat_map line_push (rs1 ++ r :: rs2) = flat_map line_push rs1 ++ result_line r ++ more /\
  whole_lines (flat_map line_push rs1) /\ whole_lines (result_line r) /\ whole_lines (flat_map line_push (rs1 ++ r :: rs2)).
Proof.
  assert (L : forall r, exists t, result_line r = t ++ [10%N]) by (intros r; unfold result_line; rewrite !app_assoc; now eexists).
  assert (P : forall r, exists t, line_push r = t ++ [10%N]).
  { intros r. unfold line_push. destruct (L r) as [t E]. rewrite E. destruct (f_status r); try (exists t; now rewrite app_nil_r).
    rewrite app_assoc. now eexists. }
  assert (W : forall rs, whole_lines (flat_map line_push rs)).
  { intros rs. destruct rs as [|x rs _] using rev_ind; [now left|]. right. rewrite flat_map_app. cbn [flat_map]. rewrite app_nil_r.
    destruct (P x) as [t ->]. rewrite app_assoc. now eexists. }
  intros rs1 r rs2. eexists. split; [|split; [apply W|split; [right; apply L|apply W]]].
  rewrite flat_map_app. cbn [flat_map]. unfold line_push at 2. rewrite <- app_assoc. reflexivity.
Qed.

(* Whether a result counts as written by a reporter on the terminal is whether that reporter could write it then. *)
Lemma tell_all_sinks strip w n r reps : forall i, 
  (forall j k told x y, nth_error reps j = Some (RStdout k told) -> nth_error told x = Some y -> snd y = w (i + j) x) ->
  (forall j k told x y, nth_error (tell_all strip w i n r reps) j = Some (RStdout k told) -> nth_error told x = Some y -> snd y = w (i + j) x).
Proof.
  induction reps as [|rep t IH]; intros i H j k told x y; [destruct j; discriminate|].
  destruct j as [|j]; cbn [tell_all nth_error].
  - destruct rep as [k' told'|p s|p l]; cbn [push fst]; intros E; try discriminate. injection E as <- <-. intros X.
    destruct (Nat.lt_ge_cases x (List.length told')) as [C|C].
    + rewrite nth_error_app1 in X by exact C. exact (H 0 k' told' x y eq_refl X).
    + rewrite nth_error_app2 in X by exact C. destruct (x - List.length told') as [|z] eqn:D; [|destruct z; discriminate].
      injection X as <-. cbn [snd told_before]. rewrite Nat.add_0_r. f_equal. lia.
  - intros E X. replace (i + S j) with (S i + j) by lia. refine (IH (S i) _ j k told x y E X).
    intros j' k' told' x' y' E' X'. replace (S i + j') with (i + S j') by lia. exact (H (S j') k' told' x' y' E' X').
Qed.
Definition sinks_ok (w : sink) (reps : list reporter) : Prop :=
  forall j k told x y, nth_error reps j = Some (RStdout k told) -> nth_error told x = Some y -> snd y = w j x.
Lemma fold_tell_sinks strip w n rs : forall reps, sinks_ok w reps -> sinks_ok w (fold_left (fun reps r => tell_all strip w 0 n r reps) rs reps).
Proof. induction rs as [|r rs IH]; intros reps H; [exact H|]. cbn [fold_left]. apply IH. exact (tell_all_sinks strip w n r reps 0 H). Qed.
Lemma batch_sinks strip w l : forall reps reps', handle_batch strip w reps l = Some reps' -> sinks_ok w reps -> sinks_ok w reps'.
Proof.
  induction l as [|a l IH]; intros reps reps'; cbn [handle_batch]; [intros [= ->]; auto|].
  destruct (handle_associated strip w reps a) as [reps1|] eqn:E; [|discriminate]. intros H S. apply (IH _ _ H).
  unfold handle_associated in E. destruct (fa_results a) as [|r rs] eqn:F; [discriminate|]. injection E as <-. exact (fold_tell_sinks strip w (fa_run a) (r :: rs) reps S).
Qed.
Lemma work_sinks strip w bs : forall reps reps', work_forever strip w reps bs = Some reps' -> sinks_ok w reps -> sinks_ok w reps'.
Proof.
  induction bs as [|b bs IH]; intros reps reps'; cbn [work_forever]; [intros [= ->]; auto|].
  destruct (handle_batch strip w reps b) as [reps1|] eqn:E; [|discriminate]. intros H S. exact (IH _ _ H (batch_sinks _ _ _ _ _ E S)).
Qed.
Theorem C79_own_terminal : forall strip w fin kinds n batches info fs out, abq_test strip w fin kinds n batches info fs = Some out ->
  forall i k told x r ok, nth_error (tr_reporters out) i = Some (RStdout k told) -> nth_error told x = Some (r, ok) -> ok = w i x.
Proof.
  intros strip w fin kinds n batches info fs out. unfold abq_test. destruct (work_forever _ _ _ _) as [reps|] eqn:W; [|discriminate].
  destruct (finish_all fin 0 info reps fs) as [fs' errs]. intros [= <-] i k told x r ok N X. cbn [tr_reporters] in N.
  refine (work_sinks _ _ _ _ _ W _ i k told x (r, ok) N X).
  intros j k' told' x' y' E X'. assert (F : fresh (RStdout k' told')) by (pose proof (built_fresh kinds n) as B; rewrite Forall_forall in B; apply B; eapply nth_error_In; eauto).
  cbn in F. subst told'. destruct x'; discriminate.
Qed.

Example C45_blank_example : parse_kind (t_junit ++ [61; 32; 12288; 9]%N) = Some (RkJUnitXml DEFAULT_XML_PATH) /\ parse_kind (t_rwx ++ [61; 32; 8203]%N) = Some (RkRwxV1Json [32; 8203]%N).
Proof. split; vm_compute; reflexivity. Qed.
Example C79_default_example : (exists rep, In rep (build_reporters [RkDefault; RkJUnitXml [97%N]] 2) /\ on_terminal rep) /\
  ~ (exists rep, In rep (build_reporters [RkDefault; RkJUnitXml [97%N]] 1) /\ on_terminal rep).
Proof.
  split; [exists (RStdout SDot []); split; [now left|eexists _, _; reflexivity]|].
  intros (rep & [<-|[]] & k & told & E). discriminate.
Qed.

Print Assumptions C45_blank_path.
Print Assumptions C79_who_is_on_terminal.
Print Assumptions C79_line_by_line.
Print Assumptions C79_own_terminal.
Print Assumptions C45_words.
