(* Texts that users meet, spelt out: the forms of tokens (C47), the headings of a failure's output (C63), what stands for
   the output of a failed native runner that said nothing (C56), the names in the URL of a hosted queue (C61). *)
From Coq Require Import String Ascii NArith.
From Verif Require Import Base AuthModel AuthSpec AuthProofs AuthProps UtilModel UtilSpec UtilProofs UtilProps StatusModel TermModel TermSpec TermProofs TermProps.
Local Open Scope nat_scope. Local Open Scope list_scope.

Definition spelt (s : string) : list nat := map nat_of_ascii (list_ascii_of_string s).
Definition spelt_N (s : string) : list N := map N_of_ascii (list_ascii_of_string s).
Arguments spelt s%string_scope. Arguments spelt_N s%string_scope.

(* A token is printed behind abqs_ if it is a user's and behind abqadmin_ if it is an administrator's; what is printed of
   the one is never taken for the other. *)
Theorem C47_forms : forall t, token t ->
  show_user t = spelt "abqs_" ++ t /\ show_admin t = spelt "abqadmin_" ++ t /\
  parse_user (spelt "abqs_" ++ t) = Some t /\ parse_admin (spelt "abqadmin_" ++ t) = Some t /\
  parse_admin (spelt "abqs_" ++ t) = None /\ parse_user (spelt "abqadmin_" ++ t) = None.
Proof.
  intros t T. split; [reflexivity|]. split; [reflexivity|].
  assert (U : forall s u, parse_user s = Some u -> exists r, s = 97 :: 98 :: 113 :: 115 :: r).
  { intros s u H. apply user_parse in H as (r & -> & _). exists (95 :: u ++ r). reflexivity. }
  assert (A : forall s u, parse_admin s = Some u -> exists r, s = 97 :: 98 :: 113 :: 97 :: r).
  { intros s u H. apply admin_parse in H as (r & -> & _). exists (100 :: 109 :: 105 :: 110 :: 95 :: u ++ r). reflexivity. }
  split; [apply (C47_other_text_partial (spelt "abqs_" ++ t) t); split; [exact T|left; reflexivity]|].
  split; [apply (C47_other_text_partial (spelt "abqadmin_" ++ t) t); split; [exact T|left; reflexivity]|].
  split.
  - destruct (parse_admin (spelt "abqs_" ++ t)) as [u|] eqn:E; [|reflexivity]. apply A in E as [r E]. discriminate.
  - destruct (parse_user (spelt "abqadmin_" ++ t)) as [u|] eqn:E; [|reflexivity]. apply U in E as [r E]. discriminate.
Qed.

(* What was captured of a failing test stands under headings that tell which stream it was. *)
Theorem C63_headings : forall title output stdout stderr o,
  is_blank o = false ->
  (stdout = Some o -> exists a b, format_test_result_summary title output stdout stderr = a ++ spelt_N "------ STDOUT" ++ [10%N] ++ o ++ b) /\
  (stderr = Some o -> exists a b, format_test_result_summary title output stdout stderr = a ++ spelt_N "------ STDERR" ++ [10%N] ++ o ++ b).
Proof.
  intros title output stdout stderr o B. destruct (C63_output_in_full title output stdout stderr) as (H1 & H2 & _).
  split; intros E; [exact (H1 o E B)|exact (H2 o E B)].
Qed.

(* The dots: what a failed native runner said follows its mark, and <no output> if it said nothing. *)
Theorem C56_native_errors_spelt : forall rs,
  filter (fun c => match c with Break => false | _ => true end) (dot_report rs) =
  flat_map (fun r => Mark (dot_of (tr_status r)) ::
    match tr_status r with
    | PrivateNativeRunnerError => [Text (match tr_output r with Some o => o | None => spelt_N "<no output>" end ++ [10%N])]
    | _ => [] end) rs.
Proof. exact C56_native_errors. Qed.

(* The token and the run are those that the URL of the queue names as token and run_id. *)
Theorem C61_names : forall run_id r addr id tok cert kind,
  from_api_response run_id r = inl (CfgSuccess addr id tok cert kind) <->
  id = run_id /\ token tok /\ exists queries text,
  r = HSuccess (Some [addr]) queries cert kind /\
  query_get (spelt "token") queries = Some text /\ parse_user text = Some tok /\ query_get (spelt "run_id") queries = Some run_id.
Proof. exact C61_hosted_config. Qed.

Example C47_forms_ex : token (spelt "0123456789abcdefghijABCDEFGHIJ") /\
  parse_user (spelt "abqs_0123456789abcdefghijABCDEFGHIJ") = Some (spelt "0123456789abcdefghijABCDEFGHIJ").
Proof.
  split; [|vm_compute; reflexivity]. split; [reflexivity|].
  apply Forall_forall. intros x H. vm_compute in H. unfold is_alnum. repeat (destruct H as [<-|H]; [lia|]). destruct H.
Qed.
Example C63_headings_ex : let o := spelt_N "boom" in is_blank o = false /\
  exists a b, format_test_result_summary [] None None (Some o) = a ++ spelt_N "------ STDERR" ++ [10%N] ++ o ++ b.
Proof. split; [reflexivity|]. apply (C63_headings [] None None (Some (spelt_N "boom")) (spelt_N "boom")); reflexivity. Qed.

Print Assumptions C47_forms.
Print Assumptions C63_headings.
Print Assumptions C56_native_errors_spelt.
Print Assumptions C61_names.
