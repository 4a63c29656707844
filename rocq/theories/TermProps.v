From Verif Require Import Base StatusModel TermModel TermSpec TermProofs.
From Coq Require Import NArith.
Open Scope N_scope.

(* ---- C45 ---- *)

(* Refuted: a printed option does not always parse to itself: what follows a second '=' is dropped *)
Theorem C45_round_trip_refuted : exists p, (exists c, In c p /\ white_space c = false) /\
  parse_kind (show_kind (RkJUnitXml p)) <> Some (RkJUnitXml p).
Proof. exists [97; 61; 98]. split; [exists 97; split; [now left|reflexivity]|vm_compute; discriminate]. Qed.

(* Missing from the claim: paths that contain '=', or nothing but white space.  What holds: all
   other options, and only they, come back. *)
Theorem C45_round_trip_partial : forall k,
  (path_of k = None -> parse_kind (show_kind k) = Some k) /\
  (forall p, path_of k = Some p -> plain_path p -> parse_kind (show_kind k) = Some k) /\
  (forall p, path_of k = Some p -> In 61 p -> parse_kind (show_kind k) <> Some k).
Proof.
  intros k. split; [|split].
  - destruct k; cbn [path_of]; try discriminate; intros _; reflexivity.
  - intros p P [N B]. apply blank_false in B. destruct k as [| | | |q|q]; cbn [path_of] in P; try discriminate; injection P as ->; unfold parse_kind, show_kind.
    + assert (S : split_eq (t_junit ++ [c_eq] ++ p) = [t_junit; p]).
      { change ([c_eq] ++ p) with (61 :: p). rewrite split_eq_cut, (split_eq_plain p N); [reflexivity|]. apply no_eq. reflexivity. }
      cbv zeta. rewrite S. cbn [nth_error]. assert (NB : not_blank (Some p) = Some p) by (unfold not_blank; now rewrite B). rewrite NB. reflexivity.
    + assert (S : split_eq (t_rwx ++ [c_eq] ++ p) = [t_rwx; p]).
      { change ([c_eq] ++ p) with (61 :: p). rewrite split_eq_cut, (split_eq_plain p N); [reflexivity|]. apply no_eq. reflexivity. }
      cbv zeta. rewrite S. cbn [nth_error]. assert (NB : not_blank (Some p) = Some p) by (unfold not_blank; now rewrite B). rewrite NB. reflexivity.
  - intros p P I E.
    assert (Q : forall q, ~ In 61 q -> p = q -> False) by (intros q Hq ->; auto).
    destruct (split_eq p) as [|p1 ps] eqn:Sp; [now apply split_eq_nonempty in Sp|].
    destruct (split_eq_spec p p1 ps Sp) as (N1 & _ & _).
    destruct k as [| | | |q|q]; cbn [path_of] in P; try discriminate; injection P as ->; unfold parse_kind, show_kind in E.
    + assert (S : split_eq (t_junit ++ [c_eq] ++ p) = t_junit :: p1 :: ps).
      { change ([c_eq] ++ p) with (61 :: p). rewrite split_eq_cut, Sp; [reflexivity|]. apply no_eq. reflexivity. }
      cbv zeta in E. rewrite S in E. cbn [nth_error] in E.
      assert (NB : not_blank (Some p1) = None \/ not_blank (Some p1) = Some p1) by (unfold not_blank; destruct (blank p1); auto).
      destruct NB as [NB|NB]; rewrite NB in E; vm_compute in E; injection E as E.
      * apply (Q DEFAULT_XML_PATH); [apply no_eq; reflexivity|symmetry; exact E].
      * apply (Q _ N1 (eq_sym E)).
    + assert (S : split_eq (t_rwx ++ [c_eq] ++ p) = t_rwx :: p1 :: ps).
      { change ([c_eq] ++ p) with (61 :: p). rewrite split_eq_cut, Sp; [reflexivity|]. apply no_eq. reflexivity. }
      cbv zeta in E. rewrite S in E. cbn [nth_error] in E.
      assert (NB : not_blank (Some p1) = None \/ not_blank (Some p1) = Some p1) by (unfold not_blank; destruct (blank p1); auto).
      destruct NB as [NB|NB]; rewrite NB in E; vm_compute in E; injection E as E.
      * apply (Q DEFAULT_JSON_PATH); [apply no_eq; reflexivity|symmetry; exact E].
      * apply (Q _ N1 (eq_sym E)).
Qed.

(* which texts are options: the four words, and the names of the two file reporters, alone or
   followed by '=' and anything *)
Theorem C45_accepted : forall s, parse_kind s <> None <->
  In s [t_default; t_line; t_dot; t_progress; t_junit; t_rwx] \/ exists t, s = t_junit ++ 61 :: t \/ s = t_rwx ++ 61 :: t.
Proof.
  intros s. split.
  - unfold parse_kind. destruct (text_eqb s t_default) eqn:E1; [apply text_eqb_spec in E1; subst; intros _; left; now left|].
    destruct (text_eqb s t_line) eqn:E2; [apply text_eqb_spec in E2; subst; intros _; left; right; now left|].
    destruct (text_eqb s t_dot) eqn:E3; [apply text_eqb_spec in E3; subst; intros _; left; do 2 right; now left|].
    destruct (text_eqb s t_progress) eqn:E4; [apply text_eqb_spec in E4; subst; intros _; left; do 3 right; now left|].
    cbv zeta. destruct (split_eq s) as [|p ps] eqn:Sp; [now apply split_eq_nonempty in Sp|].
    destruct (split_eq_spec s p ps Sp) as (N & A & B). cbn [nth_error]. unfold not_blank at 1.
    destruct (blank p); [intros X; now contradiction X|].
    assert (D : s = p \/ exists t, s = p ++ 61 :: t).
    { destruct ps as [|x ps]; [left; auto|right]. destruct B as (t & B & _); [discriminate|]. now exists t. }
    destruct (text_eqb p t_junit) eqn:J; [apply text_eqb_spec in J; subst p|].
    + intros _. destruct D as [->|[t D]]; [left; cbn; auto 10|right; exists t; auto].
    + destruct (text_eqb p t_rwx) eqn:R; [apply text_eqb_spec in R; subst p|intros X; now contradiction X].
      intros _. destruct D as [->|[t D]]; [left; cbn; auto 10|right; exists t; auto].
  - intros [H|[t H]].
    + cbn [In] in H. destruct H as [<-|[<-|[<-|[<-|[<-|[<-|[]]]]]]]; vm_compute; discriminate.
    + destruct H as [->| ->]; unfold parse_kind; cbv zeta.
      * rewrite split_eq_cut by (apply no_eq; reflexivity). cbn [nth_error]. change (not_blank (Some t_junit)) with (Some t_junit). cbn [text_eqb]. vm_compute. discriminate.
      * rewrite split_eq_cut by (apply no_eq; reflexivity). cbn [nth_error]. change (not_blank (Some t_rwx)) with (Some t_rwx). vm_compute. discriminate.
Qed.

Example C45_example : plain_path DEFAULT_XML_PATH /\ parse_kind t_junit = Some (RkJUnitXml DEFAULT_XML_PATH) /\
  parse_kind (t_rwx ++ [61; 32]) = Some (RkRwxV1Json DEFAULT_JSON_PATH) /\ parse_kind [32; 61] = None.
Proof.
  split; [|repeat split].
  split; [apply no_eq; reflexivity|]. exists 97. split; [now left|reflexivity].
Qed.

(* ---- C56 ---- *)

(* one mark per result, in order, a line break after each 80th and one at the end *)
Theorem C56_marks : forall rs, exists marks lines,
  Forall2 (fun r c => mark_for (tr_status r) c) rs marks /\ laid_out marks lines /\
  filter (fun c => match c with Text _ => false | _ => true end) (dot_report rs) = flat_map (fun l => map Mark l ++ [Break]) lines.
Proof.
  intros rs. destruct (dot_lines rs) as (ls & L & E). exists (map (fun r => dot_of (tr_status r)) rs), ls. split; [|split; [exact L|]].
  - clear. induction rs as [|r rs IH]; cbn [map]; constructor; [now destruct (tr_status r)|exact IH].
  - rewrite <- (filter_ext (fun c => negb (is_text c))); [exact E|]. now intros [].
Qed.

(* the message of a failure of the native runner itself follows its mark, whole *)
Theorem C56_native_errors : forall rs,
  filter (fun c => match c with Break => false | _ => true end) (dot_report rs) =
  flat_map (fun r => Mark (dot_of (tr_status r)) ::
    match tr_status r with
    | PrivateNativeRunnerError => [Text (match tr_output r with Some o => o | None => no_output end ++ [10])]
    | _ => [] end) rs.
Proof.
  intros rs. rewrite <- dot_no_break. unfold no_break. apply filter_ext. now intros [].
Qed.

(* the report ends on a complete line *)
Theorem C56_complete_line : forall rs, rs <> [] -> exists t, flat_map chunk_text (dot_report rs) = t ++ [10].
Proof.
  intros rs H. destruct rs as [|r rs] using rev_ind; [now contradiction H|]. clear H IHrs.
  unfold dot_report, dot_after_all. rewrite fold_left_app. cbn [fold_left].
  set (d := fold_left dot_push rs dot_new). rewrite dot_push_num. rewrite dot_push_out. unfold DOT_REPORTER_LINE_LIMIT.
  assert (K : forall l c x, chunk_text c = x ++ [10] -> exists t, flat_map chunk_text (l ++ [c]) = t ++ [10]).
  { intros l c x E. rewrite flat_map_app. cbn [flat_map]. rewrite app_nil_r, E, app_assoc. now eexists. }
  destruct ((dr_num_results d + 1) mod 80 =? 0); [rewrite app_nil_r|apply (K _ Break []); reflexivity].
  assert (B : forall l, exists t, flat_map chunk_text (dr_out d ++ [Mark l] ++ [Break] ++ []) = t ++ [10]).
  { intros l. cbn [app]. change [Mark l; Break] with ([Mark l] ++ [Break]). rewrite app_assoc. apply (K _ Break []). reflexivity. }
  destruct (tr_status r); try apply B. rewrite !app_assoc. eapply K. reflexivity.
Qed.

(* the summaries of failing tests that the reporter collects are not part of its report *)
Theorem C56_summaries_not_shown : forall rs c, In c (dot_report rs) ->
  match c with Text s => exists r, In r rs /\ tr_status r = PrivateNativeRunnerError | _ => True end.
Proof.
  intros rs c I. destruct c as [m| |s]; try exact Logic.I.
  assert (F : In (Text s) (filter (fun c => match c with Break => false | _ => true end) (dot_report rs))) by (apply filter_In; split; [exact I|reflexivity]).
  rewrite C56_native_errors in F. apply in_flat_map in F as (r & Hr & F). exists r. split; [exact Hr|].
  destruct F as [F|F]; [discriminate F|]. destruct (tr_status r); try (destruct F; fail). reflexivity.
Qed.

Example C56_example : let ok := {| tr_status := Success; tr_name := []; tr_output := None |} in
  flat_map chunk_text (dot_report (repeat ok 81)) = repeat 46 80 ++ [10; 46; 10] /\
  flat_map chunk_text (dot_report [{| tr_status := PrivateNativeRunnerError; tr_name := []; tr_output := Some [33] |}; ok]) = [69; 33; 10; 46; 10].
Proof. split; reflexivity. Qed.

(* ---- C62 ---- *)

(* whatever the order of results and ticks: each failing result is shown once, in order *)
Theorem C62_failures_shown : forall bar cs,
  flat_map (fun i => match i with IFailing r => [r] | _ => [] end) (pr_out (fold_left progress_step cs (progress_new bar))) = failing_in cs.
Proof. intros bar cs. apply (progress_inv_holds bar cs). Qed.

(* the numbers shown are those of the results received so far, and they add up *)
Theorem C62_numbers : forall bar cs c,
  let before := pr_out (fold_left progress_step cs (progress_new bar)) in
  let after := pr_out (fold_left progress_step (cs ++ [c]) (progress_new bar)) in
  exists new, after = before ++ new /\ forall i, In i new ->
  match i with
  | IProgress t p f | IBar t p f =>
      t = N.of_nat (length (results_in (cs ++ [c]))) /\ f = N.of_nat (length (failing_in (cs ++ [c]))) /\ p + f = t
  | IFailing r => c = PResult r /\ is_fail_like (tr_status r) = true
  | INewline => True
  | IUnderflow => False
  end.
Proof.
  intros bar cs c. cbv zeta. rewrite fold_left_app. cbn [fold_left].
  assert (I := progress_inv_holds bar cs). set (p := fold_left progress_step cs (progress_new bar)) in *. clearbody p.
  assert (L := failing_le (cs ++ [c])).
  destruct I as [I1 I2 I3 I4 I5 I6 I7 I8 I9]. destruct c as [r|]; cbn [progress_step].
  - assert (Hr : pr_results p + 1 = N.of_nat (length (results_in (cs ++ [PResult r])))).
    { rewrite results_app, app_length, I2. cbn [results_in flat_map app length]. lia. }
    assert (Hf : pr_failing p + (if is_fail_like (tr_status r) then 1 else 0) = N.of_nat (length (failing_in (cs ++ [PResult r])))).
    { rewrite failing_app, app_length, I3. change (failing_in [PResult r]) with (if is_fail_like (tr_status r) then [r] else []). destruct (is_fail_like _); cbn [length]; lia. }
    assert (X : forall i, In i (if is_fail_like (tr_status r) then (if pr_wrote_first p then [INewline] else []) ++ [IFailing r] else []) ->
      match i with INewline => True | IFailing r' => PResult r = PResult r' /\ is_fail_like (tr_status r') = true | _ => False end).
    { destruct (is_fail_like (tr_status r)) eqn:F; [|intros i []]. intros i Hi. apply in_app_iff in Hi as [Hi|[<-|[]]]; [|auto].
      destruct (pr_wrote_first p); [destruct Hi as [<-|[]]; exact Logic.I|destruct Hi]. }
    unfold progress_push, tick_progress. cbn [pr_bar pr_results pr_failing pr_ticks pr_out pr_wrote_first andb]. rewrite Hr, Hf. destruct (pr_bar p); cbn [pr_out].
    + eexists. split; [rewrite <- app_assoc; reflexivity|]. intros i Hi. apply in_app_iff in Hi as [Hi|[<-|[]]].
      * specialize (X i Hi). destruct i; try contradiction; auto.
      * rewrite progress_item_ok. split; [reflexivity|]. split; [reflexivity|]. lia.
    + eexists. split; [reflexivity|]. intros i Hi. specialize (X i Hi). destruct i; try contradiction; auto.
  - assert (Hr : pr_results p = N.of_nat (length (results_in (cs ++ [PTick])))) by (rewrite results_app; cbn; now rewrite app_nil_r).
    assert (Hf : pr_failing p = N.of_nat (length (failing_in (cs ++ [PTick])))) by (rewrite failing_app; cbn; now rewrite app_nil_r).
    unfold tick_progress. rewrite Hr, Hf. destruct (pr_bar p); [|destruct (true && _)]; cbn [pr_out].
    + eexists. split; [reflexivity|]. intros i [<-|[]]. rewrite progress_item_ok. split; [reflexivity|]. split; [reflexivity|]. lia.
    + eexists. split; [reflexivity|]. intros i Hi. apply in_app_iff in Hi as [Hi|[<-|[]]].
      * destruct (pr_wrote_first p); [destruct Hi as [<-|[]]; exact Logic.I|destruct Hi].
      * rewrite progress_item_ok. split; [reflexivity|]. split; [reflexivity|]. lia.
    + exists []. rewrite app_nil_r. split; [reflexivity|]. intros i [].
Qed.

(* without a progress bar the progress is written at the first of every ten ticks; with one, never *)
Theorem C62_rate : forall bar cs,
  length (filter (fun i => match i with IProgress _ _ _ => true | _ => false end) (pr_out (fold_left progress_step cs (progress_new bar))))
  = if bar then 0%nat else ((ticks_in cs + 9) / 10)%nat.
Proof. intros bar cs. apply (progress_inv_holds bar cs). Qed.

(* what is written to the output is separated by single blank lines *)
Theorem C62_separated : forall bar cs, let out := pr_out (fold_left progress_step cs (progress_new bar)) in
  let lines := filter (fun i => match i with IBar _ _ _ => false | _ => true end) out in
  lines = separated (filter (fun i => match i with INewline => false | _ => true end) lines).
Proof.
  intros bar cs. cbv zeta. destruct (progress_inv_holds bar cs) as [_ _ _ _ _ _ _ S _]. unfold written, content in S.
  assert (E1 : forall l, filter (fun i => match i with IBar _ _ _ => false | _ => true end) l = filter (fun i => negb (is_bar i)) l) by (intros l; apply filter_ext; now intros []).
  assert (E2 : forall l, filter (fun i => match i with INewline => false | _ => true end) l = filter (fun i => negb (is_newline i)) l) by (intros l; apply filter_ext; now intros []).
  rewrite E1, E2. exact S.
Qed.

Example C62_example : let bad := {| tr_status := Failure; tr_name := [1]; tr_output := None |} in
  let ok := {| tr_status := Success; tr_name := [2]; tr_output := None |} in
  pr_out (fold_left progress_step [PResult ok; PTick; PResult bad; PTick] (progress_new false)) = [IProgress 1 1 0; INewline; IFailing bad] /\
  pr_out (fold_left progress_step [PResult bad; PTick] (progress_new true)) = [IFailing bad; IBar 1 0 1; IBar 1 0 1].
Proof. split; reflexivity. Qed.

(* ---- C63 ---- *)

(* the captured output of a failing test is shown in full, under its heading *)
Theorem C63_output_in_full : forall title output stdout stderr,
  (forall o, stdout = Some o -> is_blank o = false -> exists a b, format_test_result_summary title output stdout stderr = a ++ h_stdout ++ o ++ b) /\
  (forall o, stderr = Some o -> is_blank o = false -> exists a b, format_test_result_summary title output stdout stderr = a ++ h_stderr ++ o ++ b) /\
  (forall o, output = Some o -> is_blank o = false -> exists a b, format_test_result_summary title output stdout stderr = a ++ o ++ [10] ++ b).
Proof.
  intros title output stdout stderr. unfold format_test_result_summary. split; [|split]; intros o -> B; unfold section; rewrite B.
  - match goal with |- exists a b, _ ++ _ ++ ?M ++ (_ ++ _ ++ ?P) ++ ?Q = _ => exists (title ++ [nl] ++ M), (P ++ Q) end. now rewrite <- !app_assoc.
  - match goal with |- exists a b, _ ++ _ ++ ?M ++ ?N ++ (_ ++ _ ++ ?P) = _ => exists (title ++ [nl] ++ M ++ N), P end. now rewrite <- !app_assoc.
  - match goal with |- exists a b, _ ++ _ ++ (_ ++ _) ++ ?P = _ => exists (title ++ [nl]), P end. now rewrite <- !app_assoc.
Qed.

(* Refuted: the heading of stderr does not always start a line *)
Theorem C63_heading_starts_line_refuted : exists title stdout stderr,
  is_blank stderr = false /\
  ~ exists a b, whole_lines a /\ format_test_result_summary title None (Some stdout) (Some stderr) = a ++ h_stderr ++ stderr ++ b.
Proof.
  exists [120], [97; 10; 32], [98]. split; [reflexivity|]. intros (a & b & W & E).
  match type of E with ?l = _ => let v := eval vm_compute in l in change l with v in E end.
  (* the text is x NL -…- STDOUT NL a NL space -…- STDERR NL b NL *)
  destruct W as [->|[a' ->]]; [cbn in E; discriminate E|]. rewrite <- app_assoc in E.
  repeat (destruct a' as [|? a']; cbn [app] in E; [cbn in E; discriminate E|injection E as _ E]).
  destruct a'; discriminate E.
Qed.

(* Missing from the claim: a stdout that ends with a line break and then blanks.  What holds:
   otherwise both headings start a line, and so does what follows the summary. *)
Theorem C63_heading_starts_line_partial : forall title output stdout stderr,
  (forall o, stdout = Some o -> ~ ends_with_newline_then_blanks o) ->
  exists a, whole_lines a /\ format_test_result_summary title output stdout stderr = a ++ section h_stderr stderr /\
  (exists b, whole_lines b /\ a = b ++ section h_stdout stdout) /\
  ((forall o, stderr = Some o -> ~ ends_with_newline_then_blanks o) -> whole_lines (a ++ section h_stderr stderr)).
Proof.
  intros title output stdout stderr H.
  set (head := title ++ [nl] ++ match output with Some o => if is_blank o then [] else o ++ [nl] | None => [] end).
  assert (Wh : whole_lines head).
  { right. unfold head. destruct output as [o|]; [destruct (is_blank o)|]; rewrite ?app_nil_r; try (now exists title). exists (title ++ [nl] ++ o). now rewrite <- !app_assoc. }
  assert (K : forall pre h o, whole_lines pre -> (exists h', h = h' ++ [10]) -> (forall x, o = Some x -> ~ ends_with_newline_then_blanks x) -> whole_lines (pre ++ section h o)).
  { intros pre h o Wp Hh Ho. destruct o as [x|]; cbn [section]; [|now rewrite app_nil_r]. destruct (is_blank x); [now rewrite app_nil_r|].
    specialize (Ho x eq_refl). apply push_newline_spec in Ho. right. destruct Ho as [Ho|[y Ho]].
    - apply app_eq_nil in Ho as [-> Ho]. discriminate Ho.
    - rewrite Ho. exists (pre ++ h ++ y). now rewrite <- !app_assoc. }
  exists (head ++ section h_stdout stdout). split; [|split; [|split]].
  - apply K; [exact Wh|now exists (removelast h_stdout)|exact H].
  - unfold format_test_result_summary, head. now rewrite <- !app_assoc.
  - now exists head.
  - intros H2. apply K; [|now exists (removelast h_stderr)|exact H2]. apply K; [exact Wh|now exists (removelast h_stdout)|exact H].
Qed.

Example C63_example : ~ ends_with_newline_then_blanks [97; 10; 10] /\
  format_test_result_summary [120] (Some [121]) (Some [97]) (Some [32]) = [120; 10; 121; 10] ++ h_stdout ++ [97; 10].
Proof.
  split; [|reflexivity]. intros (a & b & E & N & _ & I). destruct b as [|y b] using rev_ind; [now apply N|].
  rewrite !app_assoc in E. apply (app_inj_tail [97; 10]) in E as [_ <-]. apply I. rewrite in_app_iff. right. now left.
Qed.

Print Assumptions C45_round_trip_refuted.
Print Assumptions C45_round_trip_partial.
Print Assumptions C45_accepted.
Print Assumptions C56_marks.
Print Assumptions C56_native_errors.
Print Assumptions C56_complete_line.
Print Assumptions C56_summaries_not_shown.
Print Assumptions C62_failures_shown.
Print Assumptions C62_numbers.
Print Assumptions C62_rate.
Print Assumptions C62_separated.
Print Assumptions C63_output_in_full.
Print Assumptions C63_heading_starts_line_refuted.
Print Assumptions C63_heading_starts_line_partial.
