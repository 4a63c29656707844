(* C86: the JSON report as a file. *)
From Coq Require Import String NArith.
From Verif Require Import Base JsonModel JsonProofs JsonlModel JsonCut RunStateModel CodecModel CodecProofs RwxFileModel RwxFileSpec RwxFileProofs.
Local Open Scope list_scope.

Section Props.
Context (lossy : list N -> bytes) (millis : bytes -> N).
Implicit Types (rs : list test_result) (spec : option (bytes * bytes)) (f : bytes) (j : json).
Notation written_file := (written_file lossy millis).
Notation results_ok := (results_ok millis).

Lemma file_of rs spec f : written_file rs spec f -> results_ok rs -> exists vals,
  Permutation (map snd (c_tests (collected lossy millis rs))) vals /\
  f = write (c_enc c_document (test_results vals (c_errors (collected lossy millis rs)) spec)) /\
  json_ok (c_enc c_document (test_results vals (c_errors (collected lossy millis rs)) spec)) /\
  read_json f = Some (c_enc c_document (test_results vals (c_errors (collected lossy millis rs)) spec)).
Proof.
  intros (vals & Pe & ->) (F & T & M). exists vals. split; [exact Pe|]. split; [reflexivity|].
  destruct (cgood_all lossy millis rs M F) as (G & L). fold (collected lossy millis rs).
  destruct (document_ok vals (c_errors (collected lossy millis rs)) spec) as (D1 & D2).
  - apply Forall_forall. intros t X. apply (Permutation_in _ (Permutation_sym Pe)) in X. apply in_map_iff in X as ((i & t') & <- & X). apply (G i), X.
  - apply Permutation_length in Pe. rewrite map_length in Pe. fold (collected lossy millis rs) in Pe. rewrite <- Pe. eapply N.le_lt_trans; [|exact T]. lia.
  - apply (written _ lawful_document) in D1 as (J & _). split; [exact J|]. apply read_json_write; [exact J|exact D2].
Qed.

(* The file is read as JSON, ... *)
Theorem C86_readable rs spec f : written_file rs spec f -> results_ok rs -> exists j, read_json f = Some j.
Proof. intros W R. destruct (file_of rs spec f W R) as (vals & _ & _ & _ & E). eauto. Qed.

(* ... and no beginning of it, as is left if writing it fails, is. *)
Theorem C86_cut rs spec f p q : written_file rs spec f -> results_ok rs -> f = p ++ q -> q <> [] -> read_json p = None.
Proof.
  intros W R E Q. destruct (file_of rs spec f W R) as (vals & _ & E' & J & _).
  replace p with (firstn (List.length p) f) by (rewrite E, firstn_app, Nat.sub_diag, firstn_all, app_nil_r; reflexivity).
  rewrite E'. apply read_json_prefix; [eexists; reflexivity|exact J|]. rewrite <- E', E, app_length. destruct q; [congruence|cbn; lia].
Qed.

(* The report names its schema and the framework: those that the schema knows by their names, others
   as other, with what the native runner calls them. *)
Theorem C86_framework rs spec f j : written_file rs spec f -> results_ok rs -> read_json f = Some j ->
  get "$schema" j = word "https://raw.githubusercontent.com/rwx-research/test-results-schema/main/v1.json" /\
  exists w, get "framework" j = Some w /\
    match spec with
    | None => get "kind" w = word "other" /\ get "language" w = word "other" /\ get "providedKind" w = None /\ get "providedLanguage" w = None
    | Some (language, framework) =>
        (language = text "ruby" /\ framework = text "rspec" /\
           get "kind" w = word "RSpec" /\ get "language" w = word "Ruby" /\ get "providedKind" w = None /\ get "providedLanguage" w = None) \/
        (language = text "javascript" /\ framework = text "jest" /\
           get "kind" w = word "Jest" /\ get "language" w = word "JavaScript" /\ get "providedKind" w = None /\ get "providedLanguage" w = None) \/
        (~ (language = text "ruby" /\ framework = text "rspec") /\ ~ (language = text "javascript" /\ framework = text "jest") /\
           get "kind" w = word "other" /\ get "language" w = word "other" /\
           get "providedKind" w = Some (JStr framework) /\ get "providedLanguage" w = Some (JStr language))
    end.
Proof.
  intros W R E. destruct (file_of rs spec f W R) as (vals & _ & _ & _ & E'). assert (j = c_enc c_document (test_results vals (c_errors (collected lossy millis rs)) spec)) as -> by congruence.
  destruct (get_document (test_results vals (c_errors (collected lossy millis rs)) spec)) as (G1 & G2 & _). split; [exact G1|].
  eexists. split; [exact G2|]. cbn [test_results d_framework]. destruct spec as [(l, w)|].
  - destruct (get_framework (framework_of l w)) as (F1 & F2 & F3 & F4). rewrite F1, F2, F3, F4. unfold framework_of.
    destruct (beqb_spec l (text "ruby")), (beqb_spec w (text "rspec")), (beqb_spec l (text "javascript")), (beqb_spec w (text "jest")); cbn [andb];
      first [left; repeat split; assumption | right; left; repeat split; assumption | right; right; repeat split; tauto].
  - destruct (get_framework framework_other) as (F1 & F2 & F3 & F4). rewrite F1, F2, F3, F4. repeat split.
Qed.

Lemma get_tests rs spec f j : written_file rs spec f -> results_ok rs -> read_json f = Some j -> exists vals,
  Permutation (map snd (c_tests (collected lossy millis rs))) vals /\
  j = c_enc c_document (test_results vals (c_errors (collected lossy millis rs)) spec) /\
  elements (get "tests" j) = map (c_enc c_test) vals /\
  elements (get "otherErrors" j) = map (fun m => c_enc c_other_error (from_message m)) (c_errors (collected lossy millis rs)).
Proof.
  intros W R E. destruct (file_of rs spec f W R) as (vals & Pe & _ & _ & E'). assert (j = c_enc c_document (test_results vals (c_errors (collected lossy millis rs)) spec)) as -> by congruence.
  exists vals. split; [exact Pe|]. split; [reflexivity|].
  destruct (get_document (test_results vals (c_errors (collected lossy millis rs)) spec)) as (_ & _ & _ & G4 & G5). rewrite G4, G5.
  cbn [elements test_results d_tests d_errors]. split; [reflexivity|]. now rewrite map_map.
Qed.

Lemma attempts_enc t : attempts (c_enc c_test t) = map (c_enc c_attempt) (opt_list (te_past t) ++ [te_attempt t]).
Proof.
  unfold attempts. destruct (get_test t) as (_ & _ & _ & _ & -> & ->). rewrite map_app. destruct (te_past t); reflexivity.
Qed.

(* A test of which results were told, all plain and the first not a failure without a file, is in the
   report, as its first result names it, with every attempt that was told, in the order told, each as
   it was told and with the worker and the runner that told it. *)
Theorem C86_tests_partial rs spec f j i r0 rest : written_file rs spec f -> results_ok rs -> read_json f = Some j ->
  about i rs = r0 :: rest -> (forall r, In r (about i rs) -> plain r) -> placed r0 ->
  exists t, In t (elements (get "tests" j)) /\ names_test (snd r0) t /\
    Forall2 (fun a y => shows lossy millis (fst y) (snd y) a) (attempts t) (flat_map timeline (about i rs)).
Proof.
  intros W R E A P1 P2. destruct (get_tests rs spec f j W R E) as (vals & Pe & _ & -> & _).
  destruct (collected_plain lossy millis rs i r0 rest A P1 P2) as (t & G & (N1 & N2 & N3 & N4) & F). exists (c_enc c_test t). split; [|split].
  - apply in_map. apply (Permutation_in _ Pe). apply bget_In in G. apply in_map_iff. exists (i, t). auto.
  - destruct (get_test t) as (T1 & T2 & T3 & T4 & _). unfold names_test. destruct (snd r0) as [k past rr]. cbn [core_of] in *.
    rewrite T1, T2, T3, T4, N1, N2, N3, N4. repeat split. destruct (k_location k) as [l|]; cbn [option_map]; [apply get_place|exact I].
  - rewrite attempts_enc. clear -F. induction F; cbn [map]; constructor; assumption.
Qed.

(* The report has each test once, and only tests of which results were told. *)
Theorem C86_ids rs spec f j : written_file rs spec f -> results_ok rs -> read_json f = Some j ->
  NoDup (map (get "id") (elements (get "tests" j))) /\
  forall t, In t (elements (get "tests" j)) -> exists r, In r rs /\ get "id" t = Some (JStr (id_of r)).
Proof.
  intros W R E. destruct (get_tests rs spec f j W R E) as (vals & Pe & _ & -> & _). destruct (cok_all lossy millis rs) as (N & H).
  assert (I' : map (get "id") (map (c_enc c_test) (map snd (c_tests (collected lossy millis rs)))) = map (fun i => Some (JStr i)) (map fst (c_tests (collected lossy millis rs)))).
  { rewrite !map_map. apply map_ext_in. intros (i, t) X. cbn [fst snd]. destruct (get_test t) as (-> & _). apply H in X as (-> & _). reflexivity. }
  split.
  - apply (Permutation_NoDup (Permutation_map (get "id") (Permutation_map (c_enc c_test) Pe))). rewrite I'.
    clear -N. induction N as [|x l NI N IH]; cbn [map]; constructor; [|exact IH]. intros X. apply in_map_iff in X as (y & Y & X). injection Y as ->. contradiction.
  - intros t X. apply in_map_iff in X as (u & <- & X). apply (Permutation_in _ (Permutation_sym Pe)) in X. apply in_map_iff in X as ((i & u') & Eu & X). cbn in Eu. subst u'.
    apply H in X as (Ei & A). destruct (about i rs) as [|r l] eqn:Ea; [congruence|]. exists r.
    assert (Ir : In r (about i rs)) by (rewrite Ea; now left). unfold about in Ir. apply filter_In in Ir as (Ir & Id).
    split; [exact Ir|]. destruct (get_test u) as (-> & _). rewrite Ei. destruct (list_eq_dec _ _ _) as [->|]; [reflexivity|discriminate].
Qed.

Lemma last_kind_enc t : last_kind (c_enc c_test t) = word (kind_word (at_status (te_attempt t))).
Proof.
  unfold last_kind. destruct (get_test t) as (_ & _ & _ & _ & -> & _). destruct (get_attempt (te_attempt t)) as (_ & _ & -> & _). apply get_kind.
Qed.
Lemma of_kind_enc w t : of_kind w (c_enc c_test t) = has_kind w t.
Proof.
  unfold of_kind, has_kind. rewrite last_kind_enc. unfold word. destruct (list_eq_dec _ _ _) as [E|E].
  - apply text_inj in E. rewrite E. symmetry. apply String.eqb_refl.
  - symmetry. apply String.eqb_neq. congruence.
Qed.
Lemma how_many_enc (g : json -> bool) h vals : (forall t, g (c_enc c_test t) = h t) -> how_many g (map (c_enc c_test) vals) = number (num h vals).
Proof.
  intros H. unfold how_many, num. f_equal. f_equal. induction vals as [|t vals IH]; [reflexivity|]. cbn [map filter]. rewrite H.
  destruct (h t); cbn [List.length]; rewrite IH; reflexivity.
Qed.

(* The summary counts the tests of the report by how their last attempts ended, those with more than
   one attempt, and the errors; it says failed if a last attempt failed, timed out or was canceled,
   or if there is an error, and successful otherwise. *)
Theorem C86_summary rs spec f j : written_file rs spec f -> results_ok rs -> read_json f = Some j ->
  let tests := elements (get "tests" j) in let errors := elements (get "otherErrors" j) in
  exists s, get "summary" j = Some s /\
    get "tests" s = Some (number (N.of_nat (List.length tests))) /\
    get "otherErrors" s = Some (number (N.of_nat (List.length errors))) /\
    get "retries" s = Some (how_many (fun t => Nat.ltb 1 (List.length (attempts t))) tests) /\
    (forall w, In w ["canceled"; "failed"; "pended"; "skipped"; "successful"; "timedOut"; "todo"]%string -> get w s = Some (how_many (of_kind w) tests)) /\
    get "quarantined" s = Some (number 0) /\
    (forall t, In t tests -> exists w, In w ["failed"; "pended"; "skipped"; "successful"; "timedOut"; "todo"; "canceled"]%string /\ last_kind t = word w) /\
    exists st, get "status" s = Some st /\
      (get "kind" st = word "failed" \/ get "kind" st = word "successful") /\
      (get "kind" st = word "failed" <->
         errors <> [] \/ exists t, In t tests /\ (last_kind t = word "failed" \/ last_kind t = word "timedOut" \/ last_kind t = word "canceled")).
Proof.
  intros W R E tests errors. destruct (get_tests rs spec f j W R E) as (vals & Pe & Ej & Et & Ee). fold tests in Et. fold errors in Ee.
  clearbody tests errors. subst j. clear W R E Pe.
  destruct (get_document (test_results vals (c_errors (collected lossy millis rs)) spec)) as (_ & _ & -> & _).
  eexists. split; [reflexivity|]. cbn [test_results d_summary].
  set (errs := c_errors (collected lossy millis rs)) in *. clearbody errs.
  set (s := account_errors (fold_left account vals summary_new) (N.of_nat (List.length errs))).
  destruct (get_summary s) as (S1 & S2 & S3 & S4 & S5 & S6 & S7 & S8 & S9 & S10 & S11 & S12).
  destruct (account_all vals summary_new) as ((I1 & I2 & I3 & I4 & I5 & I6 & I7 & I8 & I9 & I10 & I11) & I12). cbn zeta in *.
  assert (Ln : List.length tests = List.length vals) by (rewrite Et; apply map_length).
  assert (Le : List.length errors = List.length errs) by (rewrite Ee; apply map_length).
  assert (K : forall w, how_many (of_kind w) tests = number (num (has_kind w) vals)) by (intros w; rewrite Et; apply how_many_enc; intros; apply of_kind_enc).
  split; [rewrite S2; subst s; cbn [account_errors su_tests]; rewrite I1, Ln; reflexivity|].
  split; [rewrite S3; subst s; cbn [account_errors su_other_errors]; rewrite I2, Le; reflexivity|].
  split.
  { rewrite S4. subst s. cbn [account_errors su_retries]. rewrite I3, Et. f_equal. symmetry. apply how_many_enc. intros t. rewrite attempts_enc, map_length, app_length.
    unfold retried. destruct (opt_list (te_past t)) as [|x l]; [reflexivity|]. cbn [List.length]. apply Nat.ltb_lt. lia. }
  split.
  { intros w [<-|[<-|[<-|[<-|[<-|[<-|[<-|[]]]]]]]]; rewrite K.
    - rewrite S5. subst s. cbn [account_errors su_canceled]. rewrite I4. reflexivity.
    - rewrite S6. subst s. cbn [account_errors su_failed]. rewrite I5. reflexivity.
    - rewrite S7. subst s. cbn [account_errors su_pended]. rewrite I6. reflexivity.
    - rewrite S9. subst s. cbn [account_errors su_skipped]. rewrite I8. reflexivity.
    - rewrite S10. subst s. cbn [account_errors su_successful]. rewrite I9. reflexivity.
    - rewrite S11. subst s. cbn [account_errors su_timed_out]. rewrite I10. reflexivity.
    - rewrite S12. subst s. cbn [account_errors su_todo]. rewrite I11. reflexivity. }
  split; [rewrite S8; subst s; cbn [account_errors su_quarantined]; rewrite I7; reflexivity|].
  split.
  { intros t X. rewrite Et in X. apply in_map_iff in X as (u & <- & _). exists (kind_word (at_status (te_attempt u))). split; [|apply last_kind_enc].
    destruct (at_status (te_attempt u)); cbn; auto 10. }
  eexists. split; [exact S1|]. subst s. cbn [account_errors su_status]. rewrite I12. cbn [summary_new su_status].
  assert (B : existsb (fun t => bad_status (at_status (te_attempt t))) vals = true <->
    exists t, In t tests /\ (last_kind t = word "failed" \/ last_kind t = word "timedOut" \/ last_kind t = word "canceled")).
  { rewrite existsb_exists, Et. split.
    - intros (t & X & Y). exists (c_enc c_test t). split; [now apply in_map|]. rewrite last_kind_enc.
      destruct (at_status (te_attempt t)); try discriminate Y; cbn [kind_word]; [right; right|left|right; left]; reflexivity.
    - intros (x & X & Y). apply in_map_iff in X as (t & <- & X). exists t. split; [exact X|]. rewrite last_kind_enc in Y.
      destruct (at_status (te_attempt t)); [reflexivity|reflexivity| | | |reflexivity|]; exfalso; destruct Y as [Y|[Y|Y]]; vm_compute in Y; discriminate Y. }
  rewrite <- B. assert (En : errors <> [] <-> errs <> []) by (rewrite Ee; destruct errs; cbn; intuition congruence). rewrite En. clear.
  destruct errs as [|e errs].
  - cbn [List.length N.of_nat N.ltb N.compare]. destruct (existsb _ vals).
    + change (get "kind" (c_enc c_summary_status SFailed)) with (word "failed"). intuition.
    + change (get "kind" (c_enc c_summary_status SSuccessful)) with (word "successful"). split; [now right|]. split; [vm_compute; discriminate|]. intuition congruence.
  - replace (N.ltb 0 (N.of_nat (List.length (e :: errs)))) with true by (symmetry; apply N.ltb_lt; cbn [List.length]; lia).
    change (get "kind" (c_enc c_summary_status SFailed)) with (word "failed"). split; [now left|]. split; [|reflexivity]. intros _. left. discriminate.
Qed.

(* An error of a native runner itself is among the errors, and a failure without a file of a test of
   which nothing was told before is, by the name of the test.  If all results are plain and none is
   such a failure there are no errors. *)
Theorem C86_errors rs spec f j : written_file rs spec f -> results_ok rs -> read_json f = Some j ->
  (forall r, In r rs -> status_of r = PrivateNativeRunnerError -> exists e, In e (elements (get "otherErrors" j)) /\
     get "message" e = Some (JStr (match output_of r with Some o => o | None => text "ABQ native runner error. No output was provided." end))) /\
  (forall before r after, rs = before ++ r :: after -> about (id_of r) before = [] -> plain r -> ~ located r -> failing (status_of r) ->
     exists e name, In e (elements (get "otherErrors" j)) /\ (let '(Res k _ _) := snd r in name = k_display_name k) /\
       get "message" e = Some (JStr (text "'" ++ name ++ text "': " ++ match output_of r with Some m => m | None => text "failed outside the test suite" end))) /\
  (Forall (fun r => plain r /\ placed r) rs -> elements (get "otherErrors" j) = []).
Proof.
  intros W R E. destruct (get_tests rs spec f j W R E) as (vals & _ & _ & _ & ->). split; [|split].
  - intros r I' S'. eexists. split; [|apply get_message]. apply (in_map (fun m => c_enc c_other_error (from_message m))). apply (error_listed lossy millis rs r collector_new I' S').
  - intros before r after -> A P L Fl. eexists _, _. split; [|split; [|apply get_message]].
    + apply (in_map (fun m => c_enc c_other_error (from_message m))). apply (error_outside lossy millis before r A P L Fl after).
    + destruct (snd r). reflexivity.
  - intros F. now rewrite (no_errors lossy millis rs F).
Qed.

Definition bad (r : test_result) : Prop := match status_of r with Failure _ | Error _ | TimedOut => True | _ => False end.

Lemma about_split i rs : about i rs <> [] -> exists before r after,
  rs = before ++ r :: after /\ id_of r = i /\ about i after = [] /\ about i rs = about i before ++ [r].
Proof.
  induction rs as [|x rs IH] using rev_ind; [intros []; reflexivity|]. rewrite about_app. destruct (list_eq_dec Nat.eq_dec (id_of x) i) as [E|N].
  - intros _. exists rs, x, []. auto.
  - rewrite app_nil_r. intros H. destruct (IH H) as (b & r & a & -> & E & A & Es). exists b, r, (a ++ [x]). split; [now rewrite <- app_assoc|]. split; [exact E|].
    split; [|exact Es]. rewrite about_app, A. destruct (list_eq_dec _ _ _); [contradiction|reflexivity].
Qed.

Lemma shown_kind t r a : get "attempt" t = Some a -> shows lossy millis (rm_runner (fst r)) (snd r) a ->
  (bad r <-> last_kind t = word "failed" \/ last_kind t = word "timedOut" \/ last_kind t = word "canceled").
Proof.
  intros G H. unfold last_kind, bad, status_of. rewrite G. destruct (snd r) as [k past rr]. destruct H as (_ & _ & _ & _ & _ & (s & -> & Sh) & _).
  unfold shows_status in Sh. destruct (k_status k); try contradiction; repeat match goal with H : _ /\ _ |- _ => destruct H end;
    match goal with H : get "kind" s = _ |- _ => rewrite H end; (split; [intros []; first [left; reflexivity|right; left; reflexivity]|first [intros _; exact I|intros [X|[X|X]]; vm_compute in X; discriminate X]]).
Qed.

(* The last attempt of a test is what was last told of it. *)
Lemma last_told rs spec f j before r after : written_file rs spec f -> results_ok rs -> read_json f = Some j ->
  Forall (fun r => plain r /\ placed r) rs -> rs = before ++ r :: after -> about (id_of r) after = [] ->
  exists t, In t (elements (get "tests" j)) /\ get "id" t = Some (JStr (id_of r)) /\
    (bad r <-> last_kind t = word "failed" \/ last_kind t = word "timedOut" \/ last_kind t = word "canceled").
Proof.
  intros W R E F Er A. rewrite Forall_forall in F.
  assert (Ea : about (id_of r) rs = about (id_of r) before ++ [r]).
  { rewrite Er. unfold about. rewrite filter_app. cbn [filter]. destruct (list_eq_dec Nat.eq_dec (id_of r) (id_of r)) as [_|]; [|congruence].
    f_equal. f_equal. exact A. }
  destruct (about (id_of r) rs) as [|r0 rest] eqn:Eb; [destruct (about (id_of r) before); discriminate|].
  assert (In_rs : forall x, In x (about (id_of r) rs) -> In x rs) by (intros x X; unfold about in X; apply filter_In in X; tauto).
  destruct (C86_tests_partial rs spec f j (id_of r) r0 rest W R E Eb) as (t & It & Nt & Sh).
  - intros x X. apply F, In_rs, X.
  - apply F, In_rs. rewrite Eb. now left.
  - exists t. split; [exact It|]. split.
    + assert (Id : id_of r0 = id_of r).
      { assert (X : In r0 (about (id_of r) rs)) by (rewrite Eb; now left). unfold about in X. apply filter_In in X as (_ & X). destruct (list_eq_dec _ _ _); [assumption|discriminate]. }
      rewrite <- Id. unfold id_of, names_test in *. destruct (snd r0). apply Nt.
    + destruct (get_tests rs spec f j W R E) as (vals & _ & _ & Et & _). rewrite Et in It. apply in_map_iff in It as (u & <- & _).
      destruct (get_test u) as (_ & _ & _ & _ & G & _). apply (shown_kind _ _ _ G).
      rewrite attempts_enc, map_app in Sh. rewrite Eb, Ea, flat_map_app in Sh. cbn [flat_map] in Sh. rewrite app_nil_r in Sh. unfold timeline in Sh at 2.
      rewrite map_app, app_assoc in Sh. apply Forall2_app_inv_l in Sh as (l1 & l2 & _ & F2 & El). inversion F2 as [|x y ? ? Sh F3]; subst. inversion F3; subst.
      apply app_inj_tail in El as (_ & <-). exact Sh.
Qed.

(* If all results are plain and none is a failure without a file, the report is failed exactly if the
   last that was told of some test is a failure, an error or a timeout. *)
Theorem C86_verdict_partial rs spec f j s st : written_file rs spec f -> results_ok rs -> read_json f = Some j ->
  Forall (fun r => plain r /\ placed r) rs -> get "summary" j = Some s -> get "status" s = Some st ->
  (get "kind" st = word "failed" <->
   exists before r after, rs = before ++ r :: after /\ about (id_of r) after = [] /\
     match status_of r with Failure _ | Error _ | TimedOut => True | _ => False end).
Proof.
  intros W R E F Gs Gt. destruct (C86_summary rs spec f j W R E) as (s' & Gs' & _ & _ & _ & _ & _ & _ & st' & Gt' & _ & K).
  assert (s' = s) as -> by congruence. assert (st' = st) as -> by congruence. rewrite K. clear K Gs' Gt'.
  destruct (C86_errors rs spec f j W R E) as (_ & _ & NE). rewrite (NE F). destruct (C86_ids rs spec f j W R E) as (ND & Ids). split.
  - intros [X|(t & It & B)]; [congruence|]. destruct (Ids t It) as (x & Ix & Gx).
    destruct (about_split (id_of x) rs) as (b & r & a & Er & Id & A & _).
    { intros X. assert (Y : In x (about (id_of x) rs)); [|rewrite X in Y; exact Y]. unfold about. apply filter_In. split; [exact Ix|]. destruct (list_eq_dec _ _ _); congruence. }
    exists b, r, a. split; [exact Er|]. split; [rewrite Id; exact A|]. rewrite <- Id in *.
    destruct (last_told rs spec f j b r a W R E F Er A) as (t' & It' & Gt' & Bt).
    enough (t' = t) by (subst t'; apply Bt, B).
    assert (J : forall (l : list json) x y, NoDup (map (get "id") l) -> In x l -> In y l -> get "id" x = get "id" y -> x = y).
    { clear. induction l as [|z l IH]; [intros ? ? ? []|]. intros u v N. inversion N as [|? ? N1 N2]; subst. intros [->|U] [->|V] Q; auto.
      - exfalso. apply N1. rewrite Q. now apply in_map.
      - exfalso. apply N1. rewrite <- Q. now apply in_map. }
    apply (J _ _ _ ND It' It). congruence.
  - intros (b & r & a & Er & A & Br). right. destruct (last_told rs spec f j b r a W R E F Er A) as (t & It & _ & Bt). exists t. split; [exact It|]. apply Bt, Br.
Qed.
End Props.

(* ---- concrete results ---- *)

Definition ex_lossy (l : list N) : bytes := map N.to_nat l.
Definition ex_millis (f : bytes) : N := 1500000.
Definition ex_core (id : string) (s : status) (place : option location) (meta : metadata) (out : option bytes) (run : runtime) : core :=
  {| k_status := s; k_id := text id; k_display_name := text id ++ text "!"; k_output := out; k_runtime := run; k_meta := meta; k_location := place;
     k_started := None; k_finished := Some (text "2023"); k_lineage := Some [text "a"; text id] |}.
Definition ex_rest : rest := {| k_errors := None; k_stderr := None; k_stdout := Some [104; 105]%N; k_timestamp := 7 |}.
Definition ex_meta (w r : N) : runner_meta := {| rm_runner := (w, r); rm_singleton := false; rm_stdout_reporters := true |}.
Definition ex_place : option location := Some {| l_file := text "a.rb"; l_line := Some 3%N; l_column := None |}.
Definition ex_trouble : trouble := {| tr_exception := Some (text "E"); tr_backtrace := Some [text "l1"; text "l2"] |}.
Definition ex_user : metadata := [(text "tag", JStr (text "slow"))].

Definition ex_one (w : N) s past meta : test_result :=
  (ex_meta w 1, Res (ex_core "t1" s ex_place meta (Some (text "oops")) (Milliseconds (text "1.5"))) past ex_rest).
Definition ex_old : result_spec := Res (ex_core "t1" (Error ex_trouble) ex_place [] None (Nanoseconds 5)) None ex_rest.
Definition ex_two : test_result := (ex_meta 2 1, Res (ex_core "t2" Skipped None [] None (Nanoseconds 9)) None ex_rest).
Definition ex_crash : test_result := (ex_meta 2 2, Res (ex_core "t9" PrivateNativeRunnerError None [] None (Nanoseconds 9)) None ex_rest).
Definition ex_rs : list test_result := [ex_one 1 (Failure ex_trouble) (Some [ex_old]) ex_user; ex_two; ex_one 2 TimedOut None []; ex_one 3 Success None []].

Lemma checked_one r : from_text c_test_result (to_text c_test_result r) = Some r -> Nat.leb (nesting (c_enc c_result_spec (snd r))) 123 = true ->
  c_ok c_test_result r /\ nesting (c_enc c_result_spec (snd r)) <= 123.
Proof.
  intros E H. split; [|apply Nat.leb_le, H]. apply (text_sound _ _ _ lawful_test_result) in E as (j & _ & OK & _). exact OK.
Qed.
Lemma checked_ok rs : Forall (fun r => from_text c_test_result (to_text c_test_result r) = Some r /\ Nat.leb (nesting (c_enc c_result_spec (snd r))) 123 = true) rs ->
  N.ltb (N.of_nat (total rs)) (2 ^ 64) = true -> results_ok ex_millis rs.
Proof.
  intros F T. split; [|split; [apply N.ltb_lt, T|intros f; apply N.ltb_lt; vm_compute; reflexivity]].
  eapply Forall_impl; [|exact F]. intros r (H1 & H2). apply checked_one; assumption.
Qed.
Ltac check := apply checked_ok; [repeat (apply Forall_cons || apply Forall_nil); split; vm_compute; reflexivity|vm_compute; reflexivity].

Definition ex_file (rs : list test_result) (spec : option (bytes * bytes)) : bytes :=
  report_bytes (map snd (c_tests (collected ex_lossy ex_millis rs))) (c_errors (collected ex_lossy ex_millis rs)) spec.
Lemma ex_written rs spec : written_file ex_lossy ex_millis rs spec (ex_file rs spec).
Proof. eexists. split; [apply Permutation_refl|reflexivity]. Qed.

Definition see (f : bytes) : option (list (option json * nat * option json) * option json * option json * list (option json)) :=
  match read_json f with
  | Some j => Some (map (fun t => (get "id" t, List.length (attempts t), last_kind t)) (elements (get "tests" j)),
                    match get "summary" j with Some s => match get "status" s with Some k => get "kind" k | None => None end | None => None end,
                    match get "summary" j with Some s => get "retries" s | None => None end,
                    map (get "message") (elements (get "otherErrors" j)))
  | None => None
  end.

Example ex_c86_ok : results_ok ex_millis ex_rs.
Proof. check. Qed.
Example ex_c86_seen : see (ex_file ex_rs (Some (text "ruby", text "rspec"))) =
  Some ([(Some (JStr (text "t1")), 4, word "successful"); (Some (JStr (text "t2")), 1, word "skipped")], word "successful", Some (number 1), []).
Proof. vm_compute. reflexivity. Qed.
Example ex_c86_plain : Forall (fun r => plain r /\ placed r) ex_rs.
Proof.
  repeat apply Forall_cons; try apply Forall_nil; (split; [split; [discriminate|]|]).
  - intros t [<-|[]]. split; [discriminate|reflexivity].
  - left. discriminate.
  - intros t [].
  - right. intros [].
  - intros t [].
  - left. discriminate.
  - intros t [].
  - left. discriminate.
Qed.
Example ex_c86_hyp : exists rest, about (text "t1") ex_rs = ex_one 1 (Failure ex_trouble) (Some [ex_old]) ex_user :: rest /\ List.length rest = 2.
Proof. eexists. split; [vm_compute; reflexivity|reflexivity]. Qed.
Example ex_c86_error : see (ex_file [ex_crash; ex_two] None) =
  Some ([(Some (JStr (text "t2")), 1, word "skipped")], word "failed", Some (number 0), [Some (JStr (text "ABQ native runner error. No output was provided."))]).
Proof. vm_compute. reflexivity. Qed.

(* What a result says of itself under the name that ABQ uses is lost. *)
Definition ex_clash : list test_result := [ex_one 1 Success None [(text "abq_metadata", JStr (text "mine"))]].
Theorem C86_metadata_refuted : results_ok ex_millis ex_clash /\ Forall (fun r => plain r /\ placed r) ex_clash /\
  exists j t a m, read_json (ex_file ex_clash None) = Some j /\ elements (get "tests" j) = [t] /\ attempts t = [a] /\ get "meta" a = Some m /\
    get "abq_metadata" m <> Some (JStr (text "mine")).
Proof.
  split; [unfold ex_clash; check|]. split; [apply Forall_cons; [split; [split; [discriminate|intros t []]|left; discriminate]|apply Forall_nil]|].
  eexists _, _, _, _. split; [vm_compute; reflexivity|]. split; [vm_compute; reflexivity|]. split; [vm_compute; reflexivity|]. split; [vm_compute; reflexivity|].
  vm_compute. discriminate.
Qed.

(* A test that failed without a file and then succeeded is in the report with one attempt only, and
   the report is failed although every test of it succeeded. *)
Definition ex_outside : list test_result :=
  [(ex_meta 1 1, Res (ex_core "t1" (Failure ex_trouble) None [] None (Nanoseconds 1)) None ex_rest);
   (ex_meta 1 1, Res (ex_core "t1" Success None [] None (Nanoseconds 1)) None ex_rest)].
Theorem C86_failed_outside_refuted : results_ok ex_millis ex_outside /\ Forall plain ex_outside /\
  see (ex_file ex_outside None) =
    Some ([(Some (JStr (text "t1")), 1, word "successful")], word "failed", Some (number 0), [Some (JStr (text "'t1!': failed outside the test suite"))]).
Proof.
  split; [unfold ex_outside; check|]. split; [|vm_compute; reflexivity].
  repeat apply Forall_cons; try apply Forall_nil; (split; [discriminate|intros t []]).
Qed.

(* The metadata of a result may be nested as deep as a native runner's message, less what is around
   it; in the report there is more around it, and a reader with serde_json's limit does not read it. *)
Fixpoint deep (n : nat) : json := match n with O => JNull | S n => JArr [deep n] end.
Theorem C86_deep_refuted : exists r,
  c_ok c_test_result r /\ (exists t, from_text c_test_result t = Some r) /\ nesting (c_enc c_result_spec (snd r)) = 125 /\ read_json (ex_file [r] None) = None.
Proof.
  exists (ex_one 1 Success None [(text "m", deep 123)]).
  assert (E : from_text c_test_result (to_text c_test_result (ex_one 1 Success None [(text "m", deep 123)])) = Some (ex_one 1 Success None [(text "m", deep 123)])) by (vm_compute; reflexivity).
  split; [apply (text_sound _ _ _ lawful_test_result) in E as (j & _ & OK & _); exact OK|]. split; [eexists; exact E|]. split; vm_compute; reflexivity.
Qed.

Print Assumptions C86_readable.
Print Assumptions C86_cut.
Print Assumptions C86_framework.
Print Assumptions C86_tests_partial.
Print Assumptions C86_ids.
Print Assumptions C86_summary.
Print Assumptions C86_errors.
Print Assumptions C86_verdict_partial.
Print Assumptions C86_metadata_refuted.
Print Assumptions C86_failed_outside_refuted.
Print Assumptions C86_deep_refuted.
