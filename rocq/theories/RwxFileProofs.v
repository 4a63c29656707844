From Coq Require Import String NArith.
From Verif Require Import Base JsonModel JsonProofs JsonlModel JsonCut RunStateModel CodecModel CodecProofs RwxFileModel RwxFileSpec.
Local Open Scope list_scope.

(* ---- the JSON forms are lawful ---- *)

Lemma kinded_read {A} name (p : part A) a : NoDup ("kind"%string :: p_names p) -> lawful_part p -> p_ok p a ->
  json_ok (kinded name (p_slots p a)) /\
  exists ms, kinded name (p_slots p a) = JObj ms /\ find_field "kind" ms = One (JStr (text name)) /\ p_dec p ms = Some a.
Proof.
  intros N [NA SA RA PA] H. unfold kinded. set (l := ("kind"%string, Some (JStr (text name))) :: p_slots p a).
  assert (N' : NoDup (map fst l)) by (unfold l; cbn; rewrite NA; exact N).
  split; [apply obj_ok; constructor; [exact I|apply SA, H]|]. exists (members l). split; [reflexivity|]. split.
  - apply (find_member "kind" (Some (JStr (text name))) l N'). left. reflexivity.
  - apply RA; [exact H|apply incl_tl, incl_refl|exact N'].
Qed.
Lemma kinded_le {A} name (p : part A) ms a : lawful_part p -> Forall (fun kv => json_ok (snd kv)) ms -> p_dec p ms = Some a ->
  p_ok p a /\ nesting (kinded name (p_slots p a)) <= nesting (JObj ms).
Proof.
  intros [NA SA RA PA] OK H. destruct (PA _ _ OK H) as (P1 & P2). split; [exact P1|].
  apply obj_le. constructor; [cbn; lia|exact P2].
Qed.

Lemma lawful_framework : lawful c_framework. Proof. struct. Qed.
#[export] Hint Resolve lawful_framework : codecs.

Lemma kinded_plain name ms : nesting (kinded name []) <= nesting (JObj ms).
Proof. cbn. lia. Qed.

Lemma lawful_summary_status : lawful c_summary_status.
Proof.
  constructor; cbn [c_summary_status c_enc c_dec c_ok].
  - intros [] _; (split; [cbn; auto|]; split; [vm_compute; reflexivity|discriminate]).
  - intros [] a OK H; try discriminate. split; [exact I|apply kinded_plain].
Qed.
#[export] Hint Resolve lawful_summary_status : codecs.
Lemma lawful_report_summary : lawful c_report_summary. Proof. struct. Qed.
Lemma lawful_report_location : lawful c_report_location. Proof. struct. Qed.
#[export] Hint Resolve lawful_report_summary lawful_report_location : codecs.

Lemma lawful_failed : lawful_part p_failed. Proof. unfold p_failed. auto 40 with codecs. Qed.
Lemma lawful_message : lawful_part p_message. Proof. unfold p_message. auto 40 with codecs. Qed.

Lemma failed_ok x : p_ok p_failed x.
Proof.
  destruct x as ([e|] & [m|] & [b|]); cbn; repeat split; auto; apply Forall_forall; intros; exact I.
Qed.
Lemma message_ok x : p_ok p_message x.
Proof. destruct x; exact I. Qed.

Lemma lawful_attempt_status : lawful c_attempt_status.
Proof.
  constructor.
  - intros s _. destruct s as [|e m b|m|m| | |m].
    + split; [cbn; auto|]. split; [vm_compute; reflexivity|discriminate].
    + destruct (kinded_read "failed" p_failed (e, (m, b)) ltac:(distinct) lawful_failed (failed_ok _)) as (J & ms & E & F & D).
      cbn [c_attempt_status c_enc c_dec]. split; [exact J|]. split; [|discriminate]. rewrite E, F, D, !eqb_text. reflexivity.
    + destruct (kinded_read "pended" p_message m ltac:(distinct) lawful_message (message_ok _)) as (J & ms & E & F & D).
      cbn [c_attempt_status c_enc c_dec]. split; [exact J|]. split; [|discriminate]. rewrite E, F, D, !eqb_text. reflexivity.
    + destruct (kinded_read "skipped" p_message m ltac:(distinct) lawful_message (message_ok _)) as (J & ms & E & F & D).
      cbn [c_attempt_status c_enc c_dec]. split; [exact J|]. split; [|discriminate]. rewrite E, F, D, !eqb_text. reflexivity.
    + split; [cbn; auto|]. split; [vm_compute; reflexivity|discriminate].
    + split; [cbn; auto|]. split; [vm_compute; reflexivity|discriminate].
    + destruct (kinded_read "todo" p_message m ltac:(distinct) lawful_message (message_ok _)) as (J & ms & E & F & D).
      cbn [c_attempt_status c_enc c_dec]. split; [exact J|]. split; [|discriminate]. rewrite E, F, D, !eqb_text. reflexivity.
  - intros [] a OK H; try discriminate. cbn [c_attempt_status c_dec c_ok c_enc] in *. split; [exact I|]. apply json_ok_obj in OK.
    destruct (find_field "kind" l) as [|[| | |n| |]|]; try discriminate.
    repeat match type of H with
    | (if ?c then _ else _) = _ => destruct c
    | Some _ = Some _ => injection H as <-
    | None = Some _ => discriminate H
    end; try apply kinded_plain.
    + destruct (p_dec p_failed l) as [(e & m & b)|] eqn:D; [|discriminate]. injection H as <-. exact (proj2 (kinded_le _ _ _ _ lawful_failed OK D)).
    + destruct (p_dec p_message l) as [m|] eqn:D; [|discriminate]. injection H as <-. exact (proj2 (kinded_le _ _ _ _ lawful_message OK D)).
    + destruct (p_dec p_message l) as [m|] eqn:D; [|discriminate]. injection H as <-. exact (proj2 (kinded_le _ _ _ _ lawful_message OK D)).
    + destruct (p_dec p_message l) as [m|] eqn:D; [|discriminate]. injection H as <-. exact (proj2 (kinded_le _ _ _ _ lawful_message OK D)).
Qed.
#[export] Hint Resolve lawful_attempt_status : codecs.
Lemma lawful_attempt : lawful c_attempt. Proof. struct. Qed.
#[export] Hint Resolve lawful_attempt : codecs.
Lemma lawful_test : lawful c_test. Proof. struct. Qed.
#[export] Hint Resolve lawful_test : codecs.
Lemma lawful_other_error : lawful c_other_error. Proof. struct. Qed.
#[export] Hint Resolve lawful_other_error : codecs.
Lemma lawful_document : lawful c_document. Proof. struct. Qed.

(* ---- members of objects ---- *)

Lemma eqb_dec (a b : bytes) : bytes_eqb a b = (if list_eq_dec Nat.eq_dec a b then true else false).
Proof. unfold bytes_eqb. destruct (list_eq_dec Nat.eq_dec a b); reflexivity. Qed.

Lemma getb_cons key k v ms : getb key (JObj ((k, v) :: ms)) = if list_eq_dec Nat.eq_dec k key then Some v else getb key (JObj ms).
Proof. unfold getb. cbn [find fst]. destruct (list_eq_dec Nat.eq_dec k key); reflexivity. Qed.
Lemma getb_missing key ms : ~ In key (map fst ms) -> getb key (JObj ms) = None.
Proof.
  induction ms as [|(k, v) ms IH]; intros H; [reflexivity|]. rewrite getb_cons. cbn in H. destruct (list_eq_dec Nat.eq_dec k key); [tauto|]. apply IH. tauto.
Qed.

Lemma get_obj (name : string) (v : option json) (l : list slot) : NoDup (map fst l) -> In (name, v) l -> get name (obj l) = v.
Proof.
  unfold get, obj. induction l as [|(k, w) l IH]; intros N H; [destruct H|]. cbn in N. inversion N as [|? ? N1 N2]; subst.
  unfold members. cbn [flat_map fst snd]. fold (members l). destruct H as [H|H].
  - injection H as -> ->. destruct v as [j|]; cbn [List.app].
    + rewrite getb_cons. destruct (list_eq_dec _ _ _); [reflexivity|congruence].
    + apply getb_missing. intros I'. apply in_map_iff in I' as ((k & j) & E & I'). cbn in E. subst k.
      unfold members in I'. apply in_flat_map in I' as ((k & [w|]) & I1 & I2); cbn in I2; [|tauto]. destruct I2 as [I2|[]].
      injection I2 as E _. apply text_inj in E. subst. apply N1. apply in_map_iff. eexists. split; [|exact I1]. reflexivity.
  - assert (K : k <> name). { intros ->. apply N1. apply in_map_iff. exists (name, v). auto. }
    destruct w as [j|]; cbn [List.app]; [|now apply IH]. rewrite getb_cons.
    destruct (list_eq_dec _ _ _) as [E|]; [apply text_inj in E; contradiction|now apply IH].
Qed.

Lemma getb_insert_same k v l : getb k (JObj (insert_key k v l)) = Some v.
Proof.
  induction l as [|(k', v') l IH]; cbn [insert_key].
  - rewrite getb_cons. destruct (list_eq_dec _ _ _); congruence.
  - destruct (bytes_ltb k k') eqn:E1; [|destruct (bytes_ltb k' k) eqn:E2]; rewrite getb_cons; destruct (list_eq_dec _ _ _) as [E|E]; try congruence.
Qed.
Lemma getb_insert_other k v l key : key <> k -> getb key (JObj (insert_key k v l)) = getb key (JObj l).
Proof.
  intros N. induction l as [|(k', v') l IH]; cbn [insert_key].
  - rewrite getb_cons. destruct (list_eq_dec _ _ _); congruence.
  - destruct (bytes_ltb k k') eqn:E1; [|destruct (bytes_ltb k' k) eqn:E2]; rewrite !getb_cons; try rewrite IH; try reflexivity.
    + destruct (list_eq_dec Nat.eq_dec k key); congruence.
    + assert (k = k') as <- by (apply ltb_total; assumption). destruct (list_eq_dec Nat.eq_dec k key); congruence.
Qed.

(* ---- the metadata of an attempt ---- *)

Definition source_of (runner : N * N) : json :=
  JObj (insert_key (text "runner") (JNum (nat_text (snd runner))) (insert_key (text "worker") (JNum (nat_text (fst runner))) [])).

Lemma meta_parts m : canon (JObj m) = JObj m -> sorted m /\ forall k v, In (k, v) m -> canon v = v.
Proof.
  rewrite canon_obj. intro H. injection H as E. split.
  - rewrite <- E. apply merge_sorted. constructor.
  - intros k v I'. rewrite <- E in I'. apply merge_in in I' as [I'|[]]. apply in_map_iff in I' as ((k0, v0) & E' & _). cbn in E'.
    injection E' as <- <-. apply canon_idem.
Qed.
Lemma meta_canon m : sorted m -> (forall k v, In (k, v) m -> canon v = v) -> canon (JObj m) = JObj m.
Proof.
  intros S' H. rewrite canon_obj. f_equal. replace (map _ m) with m; [apply (merge_id m []), S'|].
  rewrite <- (map_id m) at 1. apply map_ext_in. intros (k, v) I'. cbn. rewrite (H _ _ I'). reflexivity.
Qed.

Lemma source_canon runner : canon (source_of runner) = source_of runner.
Proof. reflexivity. Qed.

Lemma num_text_ok n : json_ok (JNum (nat_text n)).
Proof. apply (written _ (lawful_uint (N.succ n)) n). cbn. lia. Qed.

Lemma with_source_ok runner m : c_ok c_meta m -> c_ok c_meta (with_source runner m).
Proof.
  cbn [c_meta c_ok]. intros (J & C). apply meta_parts in C as (S' & C). apply json_ok_obj in J. rewrite Forall_forall in J. unfold with_source. fold (source_of runner). split.
  - apply json_ok_obj, Forall_forall. intros x X. apply insert_in in X as [->|X]; [|apply J, X]. cbn [snd]. unfold source_of.
    apply json_ok_obj. repeat constructor; apply num_text_ok.
  - apply meta_canon; [apply insert_sorted, S'|]. intros k v X. apply insert_in in X as [X|X]; [|apply (C k), X].
    injection X as -> ->. apply source_canon.
Qed.
Lemma with_source_deep runner m : nesting (JObj (with_source runner m)) <= Nat.max 2 (nesting (JObj m)).
Proof.
  rewrite nesting_top. set (x := nesting (JObj m)). enough (top (with_source runner m) <= Nat.max 1 (top m)) by (subst x; rewrite nesting_top; lia).
  apply top_le, Forall_forall. intros y Y. apply insert_in in Y as [->|Y]; [transitivity 1; [exact (le_n 1)|lia]|]. pose proof (top_in _ _ Y). lia.
Qed.

(* ---- slots of the report's parts ---- *)

Ltac report_slots := cbn [p_framework p_summary p_report_location p_failed p_message p_attempt p_test p_other_error p_document
  both_parts as_record req opt p_slots fst snd app].
Ltac member := match goal with |- get ?n ?j = _ => apply get_obj; [repeat constructor; cbn; intuition discriminate|report_slots; cbn [In]; auto 20] end.

Lemma enc_attempt a : c_enc c_attempt a = obj (p_slots p_attempt a). Proof. reflexivity. Qed.
Lemma enc_test t : c_enc c_test t = obj (p_slots p_test t). Proof. reflexivity. Qed.
Lemma enc_document d : c_enc c_document d = obj (p_slots p_document d). Proof. reflexivity. Qed.
Lemma enc_summary s : c_enc c_report_summary s = obj (p_slots p_summary s). Proof. reflexivity. Qed.
Lemma enc_error e : c_enc c_other_error e = obj (p_slots p_other_error e). Proof. reflexivity. Qed.
Lemma enc_place l : c_enc c_report_location l = obj (p_slots p_report_location l). Proof. reflexivity. Qed.
Lemma enc_framework x : c_enc c_framework x = obj (p_slots p_framework x). Proof. reflexivity. Qed.

Lemma get_attempt a :
  get "durationInNanoseconds" (c_enc c_attempt a) = Some (number (at_duration a)) /\
  get "meta" (c_enc c_attempt a) = option_map JObj (at_meta a) /\
  get "status" (c_enc c_attempt a) = Some (c_enc c_attempt_status (at_status a)) /\
  get "stderr" (c_enc c_attempt a) = option_map JStr (at_stderr a) /\
  get "stdout" (c_enc c_attempt a) = option_map JStr (at_stdout a) /\
  get "startedAt" (c_enc c_attempt a) = option_map JStr (at_started a) /\
  get "finishedAt" (c_enc c_attempt a) = option_map JStr (at_finished a).
Proof. rewrite enc_attempt. repeat split; member. Qed.
Lemma get_test t :
  get "id" (c_enc c_test t) = option_map JStr (te_id t) /\
  get "name" (c_enc c_test t) = Some (JStr (te_name t)) /\
  get "lineage" (c_enc c_test t) = option_map texts (te_lineage t) /\
  get "location" (c_enc c_test t) = option_map (c_enc c_report_location) (te_location t) /\
  get "attempt" (c_enc c_test t) = Some (c_enc c_attempt (te_attempt t)) /\
  get "pastAttempts" (c_enc c_test t) = option_map (fun l => JArr (map (c_enc c_attempt) l)) (te_past t).
Proof. rewrite enc_test. repeat split; member. Qed.
Lemma get_place l :
  get "file" (c_enc c_report_location l) = Some (JStr (l_file l)) /\ get "line" (c_enc c_report_location l) = option_map number (l_line l) /\
  get "column" (c_enc c_report_location l) = option_map number (l_column l).
Proof. rewrite enc_place. repeat split; member. Qed.
Lemma get_document d :
  get "$schema" (c_enc c_document d) = Some (JStr (d_schema d)) /\
  get "framework" (c_enc c_document d) = Some (c_enc c_framework (d_framework d)) /\
  get "summary" (c_enc c_document d) = Some (c_enc c_report_summary (d_summary d)) /\
  get "tests" (c_enc c_document d) = Some (JArr (map (c_enc c_test) (d_tests d))) /\
  get "otherErrors" (c_enc c_document d) = Some (JArr (map (c_enc c_other_error) (d_errors d))).
Proof. rewrite enc_document. repeat split; member. Qed.
Lemma get_message m : get "message" (c_enc c_other_error (from_message m)) = Some (JStr m).
Proof. rewrite enc_error. member. Qed.
Lemma get_framework x :
  get "kind" (c_enc c_framework x) = Some (JStr (fw_kind x)) /\ get "language" (c_enc c_framework x) = Some (JStr (fw_language x)) /\
  get "providedKind" (c_enc c_framework x) = option_map JStr (fw_provided_kind x) /\
  get "providedLanguage" (c_enc c_framework x) = option_map JStr (fw_provided_language x).
Proof. rewrite enc_framework. repeat split; member. Qed.
Lemma get_summary s :
  get "status" (c_enc c_report_summary s) = Some (c_enc c_summary_status (su_status s)) /\
  get "tests" (c_enc c_report_summary s) = Some (number (su_tests s)) /\
  get "otherErrors" (c_enc c_report_summary s) = Some (number (su_other_errors s)) /\
  get "retries" (c_enc c_report_summary s) = Some (number (su_retries s)) /\
  get "canceled" (c_enc c_report_summary s) = Some (number (su_canceled s)) /\
  get "failed" (c_enc c_report_summary s) = Some (number (su_failed s)) /\
  get "pended" (c_enc c_report_summary s) = Some (number (su_pended s)) /\
  get "quarantined" (c_enc c_report_summary s) = Some (number (su_quarantined s)) /\
  get "skipped" (c_enc c_report_summary s) = Some (number (su_skipped s)) /\
  get "successful" (c_enc c_report_summary s) = Some (number (su_successful s)) /\
  get "timedOut" (c_enc c_report_summary s) = Some (number (su_timed_out s)) /\
  get "todo" (c_enc c_report_summary s) = Some (number (su_todo s)).
Proof. rewrite enc_summary. repeat split; member. Qed.

Definition kind_word (s : attempt_status) : string :=
  match s with
  | ACanceled => "canceled" | AFailed _ _ _ => "failed" | APended _ => "pended" | ASkipped _ => "skipped" | ASuccessful => "successful"
  | ATimedOut => "timedOut" | ATodo _ => "todo"
  end.
Lemma get_kind s : get "kind" (c_enc c_attempt_status s) = word (kind_word s).
Proof. destruct s; cbn [c_attempt_status c_enc kind_word]; unfold kinded, word; member. Qed.

Section Proofs.
Context (lossy : list N -> bytes) (millis : bytes -> N).
Notation this_attempt := (this_attempt lossy millis).
Notation attempt_from := (attempt_from lossy millis).
Notation push_result := (push_result lossy millis).
Notation shows := (shows lossy millis).

(* ---- what Attempt::from yields ---- *)

Lemma status_shown k s : conv_status (k_status k) (k_output k) = inl s -> shows_status k (c_enc c_attempt_status s).
Proof.
  unfold shows_status. destruct (k_status k); cbn [conv_status]; intro H; try discriminate; injection H as <-;
    repeat split; try apply get_kind; cbn [c_attempt_status c_enc]; unfold kinded;
    destruct (k_output k); member.
Qed.

Lemma attempt_shown runner s k past r : conv_status (k_status k) (k_output k) = inl s ->
  shows runner (Res k past r) (c_enc c_attempt (this_attempt runner s k r)).
Proof.
  intros H. destruct (get_attempt (this_attempt runner s k r)) as (G1 & G2 & G3 & G4 & G5 & G6 & G7). cbn [this_attempt
    at_duration at_meta at_status at_stderr at_stdout at_started at_finished option_map RwxFileModel.this_attempt] in *.
  unfold RwxFileSpec.shows. rewrite G1, G4, G5, G6, G7.
  split; [unfold conv_runtime; destruct (k_runtime k); reflexivity|]. split; [reflexivity|]. split; [reflexivity|]. repeat apply conj.
  - destruct (k_stdout r); reflexivity.
  - destruct (k_stderr r); reflexivity.
  - eexists. split; [exact G3|]. apply status_shown, H.
  - eexists _, (source_of runner). split; [exact G2|]. unfold get, with_source. fold (source_of runner). split; [apply getb_insert_same|].
    split; [unfold source_of; rewrite getb_insert_other by (intro E; apply text_inj in E; discriminate); apply getb_insert_same|].
    split; [unfold source_of; apply getb_insert_same|]. intros key K. apply getb_insert_other, K.
Qed.

Fixpoint past_from (runner : N * N) (l : list result_spec) : list attempt * list bytes :=
  match l with
  | [] => ([], [])
  | x :: l' =>
      let '(atts, errs) := past_from runner l' in
      match attempt_from runner x with
      | Synthetic m => (atts, m :: errs)
      | AnAttempt a p e => (a :: opt_list p ++ atts, e ++ errs)
      end
  end.
Lemma attempt_from_eq runner k past r : attempt_from runner (Res k past r) =
  match conv_status (k_status k) (k_output k) with
  | inr m => Synthetic m
  | inl s =>
      match past with
      | None => AnAttempt (this_attempt runner s k r) None []
      | Some l => let '(atts, errs) := past_from runner l in AnAttempt (this_attempt runner s k r) (Some atts) errs
      end
  end.
Proof.
  cbn [RwxFileModel.attempt_from]. destruct (conv_status (k_status k) (k_output k)) as [x|m]; [|reflexivity]. destruct past as [past|]; [|reflexivity].
  match goal with |- match ?x with _ => _ end = _ => replace x with (past_from runner past); [reflexivity|] end.
  induction past as [|y l IH]; [reflexivity|]. cbn [past_from]. rewrite IH. reflexivity.
Qed.

(* an attempt that can be written and read *)
Definition good (a : attempt) : Prop := c_ok c_attempt a /\ nesting (c_enc c_attempt a) <= 123.

Lemma this_good runner s k past r : (forall f, millis f < 2 ^ 64)%N -> c_ok c_result_spec (Res k past r) -> nesting (c_enc c_result_spec (Res k past r)) <= 123 ->
  good (this_attempt runner s k r).
Proof.
  intros Hm OK D. cbn [c_result_spec c_tree c_ok c_enc] in *. apply tree_ok_eq in OK as (K & R & _). split.
  - cbn [c_attempt c_struct c_ok p_attempt as_record both_parts req opt p_ok RwxFileModel.this_attempt at_duration at_meta at_status at_stderr at_stdout at_started at_finished fst snd].
    cbn [p_core as_record both_parts req opt p_ok] in K. destruct K as (_ & _ & _ & _ & K5 & K6 & _). repeat split.
    + unfold conv_runtime. destruct (k_runtime k); [apply Hm|exact K5].
    + apply (with_source_ok _ _ K6).
    + apply (with_source_ok _ _ K6).
    + destruct (k_stderr r); exact I.
    + destruct (k_stdout r); exact I.
    + destruct (k_started k); exact I.
    + destruct (k_finished k); exact I.
  - rewrite enc_attempt. rewrite enc_res_eq in D.
    assert (M : nesting (JObj (k_meta k)) < nesting (obj (tree_slots p_core p_rest k past r))).
    { eapply (obj_in "meta"). unfold tree_slots. apply in_app_iff. left. slots. cbn [In]. auto 10. }
    change 123 with (S 122). apply obj_deep. report_slots. cbn [RwxFileModel.this_attempt at_duration at_meta at_status at_stderr at_stdout at_started at_finished].
    repeat match goal with |- Forall _ (_ :: _) => constructor | |- Forall _ [] => constructor end; try apply strs_le.
    + unfold slot_le. cbn [snd if_some]. rewrite flat_u64. lia.
    + unfold slot_le. cbn [snd if_some option_map c_meta c_enc]. pose proof (with_source_deep runner (k_meta k)). lia.
    + unfold slot_le. cbn [snd if_some]. transitivity 2; [|lia]. destruct s; cbn [c_attempt_status c_enc]; unfold kinded; apply obj_deep; repeat constructor; try apply strs_le.
      report_slots. repeat constructor; try apply strs_le. destruct backtrace as [l|]; [|exact I]. unfold slot_le. cbn [snd if_some option_map]. 
      cbn [c_vec c_enc]. apply arr_deep, Forall_forall. intros x X. apply in_map_iff in X as (y & <- & _). cbn. lia.
Qed.

Definition fits (t : result_spec) : Prop := c_ok c_result_spec t /\ nesting (c_enc c_result_spec t) <= 123.

Lemma fits_past k l r : fits (Res k (Some l) r) -> Forall fits l.
Proof.
  intros (OK & D). cbn [c_result_spec c_tree c_ok c_enc] in *. apply tree_ok_eq in OK as (_ & _ & P). cbn [if_some] in P. rewrite Forall_forall in *.
  intros x X. split; [apply P, X|]. cbn [c_result_spec c_tree c_enc]. rewrite enc_res_eq in D.
  assert (G : nesting (JArr (map (enc_tree p_core p_rest) l)) < nesting (obj (tree_slots p_core p_rest k (Some l) r))).
  { eapply (obj_in "past_attempts"). unfold tree_slots. apply in_app_iff. right. left. reflexivity. }
  pose proof (nesting_arr _ _ (in_map (enc_tree p_core p_rest) _ _ X)). lia.
Qed.

Lemma from_good runner t : (forall f, millis f < 2 ^ 64)%N -> fits t ->
  match attempt_from runner t with
  | Synthetic _ => True
  | AnAttempt a p errs => good a /\ Forall good (opt_list p) /\ S (List.length errs) <= size t
  end.
Proof.
  intros Hm. induction t as [k past r IH] using tree_ind'. intros Ft. rewrite attempt_from_eq.
  destruct (conv_status (k_status k) (k_output k)) as [s|m]; [|exact I].
  assert (G : good (this_attempt runner s k r)) by (apply (this_good runner s k past r Hm); apply Ft).
  destruct past as [l|]; [|cbn [opt_list size List.length]; auto].
  pose proof (fits_past _ _ _ Ft) as Fl. cbn [if_some] in IH. destruct (past_from runner l) as (atts, errs) eqn:E. cbn [size opt_list].
  enough (Forall good atts /\ List.length errs <= list_sum (map size l)) by (split; [exact G|split; [tauto|lia]]).
  clear G Ft s. revert atts errs E. induction l as [|x l IHl]; cbn [past_from map]; intros atts errs E.
  - injection E as <- <-. split; [constructor|cbn; lia].
  - inversion IH as [|? ? I1 I2]; subst. inversion Fl as [|? ? F1 F2]; subst. destruct (past_from runner l) as (atts', errs').
    destruct (IHl I2 F2 _ _ eq_refl) as (A1 & A2). specialize (I1 F1). cbn [list_sum fold_right].
    destruct (attempt_from runner x) as [m|a p e].
    + injection E as <- <-. split; [exact A1|]. cbn [List.length]. assert (1 <= size x) by (destruct x; cbn; lia). unfold list_sum in *. lia.
    + injection E as <- <-. destruct I1 as (B1 & B2 & B3). split; [constructor; [exact B1|apply Forall_app; tauto]|].
      rewrite app_length. unfold list_sum in *. lia.
Qed.

(* ---- the map of tests ---- *)

Lemma beqb_spec a b : reflect (a = b) (bytes_eqb a b).
Proof. rewrite eqb_dec. destruct (list_eq_dec Nat.eq_dec a b); constructor; assumption. Qed.

Lemma bget_bput_eq i v m : bget i (bput i v m) = Some v.
Proof.
  induction m as [|(j, w) m IH]; cbn [bput bget].
  - destruct (beqb_spec i i); congruence.
  - destruct (beqb_spec i j) as [->|N]; cbn [bget]; [destruct (beqb_spec j j); congruence|]. destruct (beqb_spec i j); congruence.
Qed.
Lemma bget_bput_neq i j v m : i <> j -> bget j (bput i v m) = bget j m.
Proof.
  intros N. induction m as [|(k, w) m IH]; cbn [bput bget].
  - destruct (beqb_spec j i); congruence.
  - destruct (beqb_spec i k) as [->|]; cbn [bget]; destruct (beqb_spec j k); congruence.
Qed.
Lemma bput_keys i v m : NoDup (map fst m) -> NoDup (map fst (bput i v m)) /\ forall k, In k (map fst (bput i v m)) <-> k = i \/ In k (map fst m).
Proof.
  induction m as [|(j, w) m IH]; cbn [bput map fst]; intros N.
  - split; [repeat constructor; cbn; tauto|]. cbn. intuition congruence.
  - inversion N as [|? ? Nj Nm]; subst. destruct (beqb_spec i j) as [->|]; cbn [map fst].
    + split; [now constructor|]. cbn. intuition congruence.
    + destruct (IH Nm) as (A & B). split.
      * constructor; [|exact A]. rewrite B. intuition congruence.
      * intros k. cbn [In]. rewrite B. intuition congruence.
Qed.
Lemma bget_In i v m : bget i m = Some v -> In (i, v) m.
Proof.
  induction m as [|(j, w) m IH]; cbn [bget]; [discriminate|]. destruct (beqb_spec i j) as [->|].
  - intros H. injection H as ->. now left.
  - intros H. right. auto.
Qed.
Lemma bget_of_In i v m : NoDup (map fst m) -> In (i, v) m -> bget i m = Some v.
Proof.
  induction m as [|(j, w) m IH]; cbn [map fst bget]; [intros _ []|]. intros N [H|H].
  - injection H as -> ->. destruct (beqb_spec i i); congruence.
  - inversion N as [|? ? Nj Nm]; subst. destruct (beqb_spec i j) as [->|]; auto.
    exfalso. apply Nj. apply in_map_iff. now exists (j, v).
Qed.
Lemma bput_in i v m x : In x (bput i v m) -> x = (i, v) \/ In x m.
Proof.
  induction m as [|(j, w) m IH]; cbn [bput]; [cbn; intuition congruence|]. destruct (beqb_spec i j) as [->|]; cbn [In]; intuition congruence.
Qed.
Lemma bput_length i v m : List.length (bput i v m) = match bget i m with Some _ => List.length m | None => S (List.length m) end.
Proof.
  induction m as [|(j, w) m IH]; cbn [bput bget]; [reflexivity|]. destruct (beqb_spec i j); cbn [List.length]; [reflexivity|].
  rewrite IH. destruct (bget i m); reflexivity.
Qed.

Lemma id_core r : id_of r = k_id (core_of (snd r)).
Proof. unfold id_of. destruct (snd r). reflexivity. Qed.
Lemma about_app i rs r : about i (rs ++ [r]) = about i rs ++ (if list_eq_dec Nat.eq_dec (id_of r) i then [r] else []).
Proof. unfold about. rewrite filter_app. cbn [filter]. destruct (list_eq_dec Nat.eq_dec (id_of r) i); reflexivity. Qed.

Definition collected rs := fold_left push_result rs collector_new.
Lemma collected_snoc rs r : collected (rs ++ [r]) = push_result (collected rs) r.
Proof. unfold collected. now rewrite fold_left_app. Qed.

(* Induction over what is pushed: [P] is kept by errors and by tests. *)
Definition first_test (r : test_result) (a : attempt) (past : option (list attempt)) : test :=
  let k := core_of (snd r) in
  {| te_id := Some (k_id k); te_name := k_display_name k; te_lineage := k_lineage k; te_location := k_location k; te_attempt := a; te_past := past |}.
Definition next_test (t : test) (a : attempt) (past : option (list attempt)) : test :=
  {| te_id := te_id t; te_name := te_name t; te_lineage := te_lineage t; te_location := te_location t;
     te_attempt := a; te_past := Some (opt_list (te_past t) ++ [te_attempt t] ++ opt_list past) |}.
Definition is_failed (s : attempt_status) : bool := match s with AFailed _ _ _ => true | _ => false end.

Lemma push_cases c r :
  (exists m, attempt_from (rm_runner (fst r)) (snd r) = Synthetic m /\
     push_result c r = {| c_tests := c_tests c; c_errors := c_errors c ++ [m] |}) \/
  (exists a p errs, attempt_from (rm_runner (fst r)) (snd r) = AnAttempt a p errs /\
     ((exists t, bget (id_of r) (c_tests c) = Some t /\
         push_result c r = {| c_tests := bput (id_of r) (next_test t a p) (c_tests c); c_errors := c_errors c ++ errs |}) \/
      (bget (id_of r) (c_tests c) = None /\ (k_location (core_of (snd r)) <> None \/ is_failed (at_status a) = false) /\
         push_result c r = {| c_tests := bput (id_of r) (first_test r a p) (c_tests c); c_errors := c_errors c ++ errs |}) \/
      (bget (id_of r) (c_tests c) = None /\ k_location (core_of (snd r)) = None /\ exists e m b, at_status a = AFailed e m b /\
         push_result c r = {| c_tests := c_tests c; c_errors := c_errors c ++ errs ++ [outside (k_display_name (core_of (snd r))) m] |}))).
Proof.
  unfold RwxFileModel.push_result. rewrite id_core. cbn zeta.
  destruct (bget (k_id (core_of (snd r))) (c_tests c)) as [t|] eqn:G.
  - destruct (attempt_from (rm_runner (fst r)) (snd r)) as [m|a p errs].
    + left. eauto.
    + right. exists a, p, errs. split; [reflexivity|]. left. exists t. split; reflexivity.
  - destruct (attempt_from (rm_runner (fst r)) (snd r)) as [m|a p errs].
    + left. eauto.
    + right. exists a, p, errs. split; [reflexivity|]. right. cbn [te_location te_name].
      destruct (k_location (core_of (snd r))) eqn:L.
      * left. split; [reflexivity|]. split; [left; discriminate|]. unfold first_test. rewrite L. reflexivity.
      * destruct (at_status a) eqn:Es; [left|right|left|left|left|left|left];
        try (split; [reflexivity|]; split; [right; reflexivity|]; unfold first_test; rewrite L; reflexivity).
        split; [reflexivity|]. split; [reflexivity|]. eexists _, _, _. split; reflexivity.
Qed.

(* ---- ids ---- *)

Definition cok (rs : list test_result) (c : collector) : Prop :=
  NoDup (map fst (c_tests c)) /\ forall i t, In (i, t) (c_tests c) -> te_id t = Some i /\ about i rs <> [].

Lemma about_more i rs r : about i rs <> [] -> about i (rs ++ [r]) <> [].
Proof. rewrite about_app. intros H X. apply app_eq_nil in X. tauto. Qed.
Lemma about_last rs r : about (id_of r) (rs ++ [r]) <> [].
Proof. rewrite about_app. destruct (list_eq_dec _ _ _); [|congruence]. intros X. apply app_eq_nil in X. destruct X. discriminate. Qed.
Lemma cok_put rs r c t errs : cok rs c -> te_id t = Some (id_of r) -> cok (rs ++ [r]) {| c_tests := bput (id_of r) t (c_tests c); c_errors := errs |}.
Proof.
  intros (N & H) E. destruct (bput_keys (id_of r) t (c_tests c) N) as (N' & K). split; [exact N'|]. cbn [c_tests].
  intros j u Hu. apply bput_in in Hu as [Hu|Hu].
  - injection Hu as -> ->. split; [exact E|apply about_last].
  - apply H in Hu as (A & B). split; [exact A|apply about_more, B].
Qed.
Lemma cok_more rs r c errs : cok rs c -> cok (rs ++ [r]) {| c_tests := c_tests c; c_errors := errs |}.
Proof. intros (N & H). split; [exact N|]. cbn [c_tests]. intros i t Hi. destruct (H _ _ Hi). split; [assumption|now apply about_more]. Qed.

Lemma cok_all rs : cok rs (collected rs).
Proof.
  induction rs as [|r rs IH] using rev_ind.
  - split; [constructor|]. intros i t [].
  - rewrite collected_snoc. destruct (push_cases (collected rs) r) as [(m & _ & ->)|(a & p & errs & _ & [(t & G & ->)|[(G & _ & ->)|(G & _ & e & m & b & _ & ->)]])].
    + now apply cok_more.
    + apply cok_put; [exact IH|]. cbn [next_test te_id]. apply bget_In in G. now apply IH in G.
    + apply cok_put; [exact IH|]. cbn [first_test te_id]. now rewrite id_core.
    + now apply cok_more.
Qed.

(* ---- everything that is collected can be written ---- *)

Definition good_test (t : test) : Prop :=
  good (te_attempt t) /\ Forall good (opt_list (te_past t)) /\ if_some (c_ok c_report_location) (te_location t).
Definition fit_result (r : test_result) : Prop := c_ok c_test_result r /\ nesting (c_enc c_result_spec (snd r)) <= 123.

Lemma fit_fits r : fit_result r -> fits (snd r).
Proof. intros (H & D). split; [|exact D]. cbn [c_test_result c_struct c_ok both_parts req p_ok] in H. tauto. Qed.

Lemma total_snoc rs r : total (rs ++ [r]) = total rs + size (snd r).
Proof. unfold total. rewrite map_app, list_sum_app. cbn [map]. rewrite (plus_n_O (size (snd r))) at 2. reflexivity. Qed.
Lemma size_pos t : 1 <= size t.
Proof. destruct t. cbn. lia. Qed.

Lemma place_ok (r : test_result) : fits (snd r) -> if_some (c_ok c_report_location) (k_location (core_of (snd r))).
Proof.
  destruct (snd r) as [k past rr]. intros (OK & _). cbn [c_result_spec c_tree c_ok] in OK. apply tree_ok_eq in OK as (K & _).
  cbn [p_core as_record both_parts req opt p_ok fst snd core_of] in K |- *. destruct K as (_ & _ & _ & _ & _ & _ & K & _). destruct (k_location k); exact K.
Qed.

Lemma cgood_all rs : (forall f, millis f < 2 ^ 64)%N -> Forall fit_result rs ->
  (forall i t, In (i, t) (c_tests (collected rs)) -> good_test t) /\
  List.length (c_tests (collected rs)) + List.length (c_errors (collected rs)) <= total rs.
Proof.
  intros Hm. induction rs as [|r rs IH] using rev_ind; intros F.
  - split; [intros i t []|cbn; lia].
  - apply Forall_app in F as (F & Fr). inversion Fr as [|? ? Fr' _]; subst. destruct (IH F) as (G & L). clear IH.
    pose proof (from_good (rm_runner (fst r)) (snd r) Hm (fit_fits _ Fr')) as A. rewrite total_snoc, collected_snoc. pose proof (size_pos (snd r)) as S1.
    destruct (push_cases (collected rs) r) as [(m & E & ->)|(a & p & errs & E & [(t & Gt & ->)|[(Gt & _ & ->)|(Gt & _ & e & m & b & _ & ->)]])];
      rewrite E in A; cbn [c_tests c_errors]; rewrite ?app_length; cbn [List.length].
    + split; [exact G|lia].
    + destruct A as (A1 & A2 & A3). split.
      * intros i u Hu. apply bput_in in Hu as [Hu|Hu]; [|apply (G i), Hu]. injection Hu as -> ->.
        apply bget_In in Gt. apply G in Gt as (G1 & G2 & G3). unfold good_test. cbn [next_test te_attempt te_past te_location opt_list].
        split; [exact A1|]. split; [|exact G3]. apply Forall_app. split; [exact G2|]. constructor; assumption.
      * rewrite bput_length, Gt. lia.
    + destruct A as (A1 & A2 & A3). split.
      * intros i u Hu. apply bput_in in Hu as [Hu|Hu]; [|apply (G i), Hu]. injection Hu as -> ->.
        unfold good_test. cbn [first_test te_attempt te_past te_location]. split; [exact A1|]. split; [exact A2|]. apply place_ok, fit_fits, Fr'.
      * rewrite bput_length, Gt. lia.
    + destruct A as (A1 & A2 & A3). split; [exact G|]. cbn [List.length]. lia.
Qed.

(* ---- the summary ---- *)

Definition bad_status (s : attempt_status) : bool := match s with ACanceled | AFailed _ _ _ | ATimedOut => true | _ => false end.
Definition has_kind (w : string) (t : test) : bool := String.eqb (kind_word (at_status (te_attempt t))) w.
Definition retried (t : test) : bool := match opt_list (te_past t) with [] => false | _ => true end.
Definition num {A} (f : A -> bool) (l : list A) : N := N.of_nat (List.length (filter f l)).
Lemma num_cons {A} (f : A -> bool) x l : num f (x :: l) = ((if f x then 1 else 0) + num f l)%N.
Proof. unfold num. cbn [filter]. destruct (f x); cbn [List.length]; lia. Qed.

Lemma account_all (vals : list test) s0 : let s := fold_left account vals s0 in
  (su_tests s = su_tests s0 + N.of_nat (List.length vals) /\
  su_other_errors s = su_other_errors s0 /\
  su_retries s = su_retries s0 + num retried vals /\
  su_canceled s = su_canceled s0 + num (has_kind "canceled") vals /\
  su_failed s = su_failed s0 + num (has_kind "failed") vals /\
  su_pended s = su_pended s0 + num (has_kind "pended") vals /\
  su_quarantined s = su_quarantined s0 /\
  su_skipped s = su_skipped s0 + num (has_kind "skipped") vals /\
  su_successful s = su_successful s0 + num (has_kind "successful") vals /\
  su_timed_out s = su_timed_out s0 + num (has_kind "timedOut") vals /\
  su_todo s = su_todo s0 + num (has_kind "todo") vals)%N /\
  su_status s = if existsb (fun t => bad_status (at_status (te_attempt t))) vals then SFailed else su_status s0.
Proof.
  revert s0. induction vals as [|t vals IH]; intros s0; cbn [fold_left].
  - unfold num. cbn. repeat split; lia.
  - specialize (IH (account s0 t)). cbn zeta in IH. rewrite !num_cons. cbn [List.length existsb].
    destruct IH as ((I1 & I2 & I3 & I4 & I5 & I6 & I7 & I8 & I9 & I10 & I11) & I12).
    rewrite I1, I2, I3, I4, I5, I6, I7, I8, I9, I10, I11, I12. clear.
    unfold account, retried, has_kind. destruct (opt_list (te_past t)), (at_status (te_attempt t)); cbn -[N.add N.of_nat N.succ num];
      (split; [repeat split; lia|]); destruct (existsb _ vals); reflexivity.
Qed.

Lemma num_le {A} (f : A -> bool) l : (num f l <= N.of_nat (List.length l))%N.
Proof. unfold num. induction l as [|x l IH]; cbn [filter List.length]; [lia|]. destruct (f x); cbn [List.length]; lia. Qed.

(* ---- the document ---- *)

Lemma strs_ok (o : option bytes) : if_some (c_ok c_str) o.
Proof. destruct o; exact I. Qed.
Lemma vec_str_ok (o : option (list bytes)) : if_some (c_ok (c_vec c_str)) o.
Proof. destruct o; [|exact I]. apply Forall_forall. intros; exact I. Qed.

Lemma test_ok t : good_test t -> c_ok c_test t /\ nesting (c_enc c_test t) <= 125.
Proof.
  intros ((A1 & A2) & F & L). split.
  - cbn [c_test c_struct c_ok p_test as_record both_parts req opt p_ok fst snd].
    split; [apply strs_ok|]. split; [exact I|]. split; [apply vec_str_ok|]. split; [exact L|]. split; [exact A1|].
    destruct (te_past t) as [l|]; [|exact I]. cbn [if_some opt_list c_vec c_ok] in *. eapply Forall_impl; [|exact F]. intros a H. apply H.
  - rewrite enc_test. change 125 with (S 124). apply obj_deep. report_slots.
    repeat match goal with |- Forall _ (_ :: _) => constructor | |- Forall _ [] => constructor end; try apply strs_le; try apply str_le.
    + destruct (te_lineage t) as [l|]; [|exact I]. unfold slot_le. cbn [snd if_some option_map c_vec c_enc].
      transitivity 1; [|lia]. apply arr_deep, Forall_forall. intros x X. apply in_map_iff in X as (y & <- & _). cbn. lia.
    + destruct (te_location t) as [l|]; [|exact I]. unfold slot_le. cbn [snd if_some option_map]. rewrite enc_place. transitivity 1; [|lia].
      apply obj_deep. report_slots. repeat match goal with |- Forall _ (_ :: _) => constructor | |- Forall _ [] => constructor end; try apply str_le.
      * destruct (l_line l); [|exact I]. unfold slot_le. cbn [snd if_some option_map]. rewrite flat_u64. lia.
      * destruct (l_column l); [|exact I]. unfold slot_le. cbn [snd if_some option_map]. rewrite flat_u64. lia.
    + unfold slot_le. cbn [snd if_some]. lia.
    + destruct (te_past t) as [l|]; [|exact I]. unfold slot_le. cbn [snd if_some option_map c_vec c_enc].
      apply arr_deep, Forall_forall. intros x X. apply in_map_iff in X as (y & <- & Y). cbn [opt_list] in F. rewrite Forall_forall in F. apply F, Y.
Qed.

Lemma summary_ok vals errors : (N.of_nat (List.length vals + List.length (A := bytes) errors) < 2 ^ 64)%N ->
  c_ok c_report_summary (account_errors (fold_left account vals summary_new) (N.of_nat (List.length errors))).
Proof.
  intros B. destruct (account_all vals summary_new) as ((I1 & I2 & I3 & I4 & I5 & I6 & I7 & I8 & I9 & I10 & I11) & I12). cbn zeta in *.
  cbn [c_report_summary c_struct c_ok p_summary as_record both_parts req p_ok fst snd account_errors su_status su_tests su_other_errors su_retries
       su_canceled su_failed su_pended su_quarantined su_skipped su_successful su_timed_out su_todo].
  rewrite I1, I2, I3, I4, I5, I6, I7, I8, I9, I10, I11. cbn [summary_new su_status su_tests su_other_errors su_retries
       su_canceled su_failed su_pended su_quarantined su_skipped su_successful su_timed_out su_todo].
  pose proof (num_le retried vals). pose proof (fun w => num_le (has_kind w) vals) as K.
  pose proof (K "canceled"%string). pose proof (K "failed"%string). pose proof (K "pended"%string). pose proof (K "skipped"%string).
  pose proof (K "successful"%string). pose proof (K "timedOut"%string). pose proof (K "todo"%string).
  repeat match goal with |- _ /\ _ => split end; try exact I;
    match goal with |- c_ok u64 ?n => change (n < 2 ^ 64)%N; set (lim := (2 ^ 64)%N) in *; assert (0 < lim)%N by reflexivity; clearbody lim; lia end.
Qed.

Lemma document_ok vals errors spec : Forall good_test vals -> (N.of_nat (List.length vals + List.length errors) < 2 ^ 64)%N ->
  c_ok c_document (test_results vals errors spec) /\ nesting (c_enc c_document (test_results vals errors spec)) < 128.
Proof.
  intros G B. split.
  - cbn [c_document c_struct c_ok p_document as_record both_parts req p_ok fst snd test_results d_schema d_framework d_summary d_tests d_errors].
    split; [exact I|]. split.
    { cbn [c_framework c_struct c_ok p_framework as_record both_parts req opt p_ok fst snd]. repeat split; try exact I; apply strs_ok. }
    split; [apply summary_ok, B|]. split.
    + eapply Forall_impl; [|exact G]. intros t H. apply test_ok, H.
    + apply Forall_forall. intros x X. apply in_map_iff in X as (m & <- & _). repeat split; exact I.
  - apply PeanoNat.Nat.lt_succ_r. rewrite enc_document. apply obj_deep. report_slots. cbn [test_results d_schema d_framework d_summary d_tests d_errors].
    repeat match goal with |- Forall _ (_ :: _) => constructor | |- Forall _ [] => constructor end; try apply str_le; unfold slot_le; cbn [snd if_some].
    + rewrite enc_framework. transitivity 1; [|lia]. apply obj_deep. report_slots. repeat constructor; try apply strs_le; try apply str_le.
    + rewrite enc_summary. transitivity 2; [|lia]. apply obj_deep. report_slots.
      repeat match goal with |- Forall _ (_ :: _) => constructor | |- Forall _ [] => constructor end; unfold slot_le; cbn [snd if_some]; rewrite ?flat_u64; try lia.
      cbn [c_summary_status c_enc]. unfold kinded. apply obj_deep. repeat constructor.
    + cbn [c_vec c_enc]. apply arr_deep, Forall_forall. intros x X. apply in_map_iff in X as (t & <- & T). rewrite Forall_forall in G. apply test_ok, G, T.
    + cbn [c_vec c_enc]. apply arr_deep, Forall_forall. intros x X. apply in_map_iff in X as (e & <- & E). apply in_map_iff in E as (m & <- & _).
      rewrite enc_error. transitivity 1; [|lia]. apply obj_deep. report_slots. repeat constructor.
Qed.

(* ---- the attempts of a test ---- *)

Definition shown (a : attempt) (y : (N * N) * result_spec) : Prop := shows (fst y) (snd y) (c_enc c_attempt a).

Lemma material_conv t runner : material t ->
  exists a p errs, attempt_from runner t = AnAttempt a p errs /\ shows runner t (c_enc c_attempt a) /\
    match past_of t with [] => errs = [] /\ opt_list p = [] | _ => True end /\
    (is_failed (at_status a) = true -> failing (k_status (core_of t))).
Proof.
  destruct t as [k past r]. cbn [material past_of core_of]. intros M. rewrite attempt_from_eq.
  destruct (conv_status (k_status k) (k_output k)) as [s|m] eqn:C.
  - assert (Fl : is_failed s = true -> failing (k_status k)).
    { destruct (k_status k); cbn in C; try discriminate; injection C as <-; cbn; auto; discriminate. }
    destruct past as [l|].
    + destruct (past_from runner l) as (atts, errs) eqn:E. eexists _, _, _. split; [reflexivity|]. split; [apply attempt_shown, C|]. split; [|exact Fl].
      destruct l; [|exact I]. cbn in E. injection E as <- <-. split; reflexivity.
    + eexists _, _, _. split; [reflexivity|]. split; [apply attempt_shown, C|]. split; [split; reflexivity|exact Fl].
  - destruct (k_status k); cbn in C; try discriminate. congruence.
Qed.

Lemma past_plain runner l : (forall t, In t l -> material t /\ past_of t = []) ->
  exists atts, past_from runner l = (atts, []) /\ Forall2 shown atts (map (pair runner) l).
Proof.
  induction l as [|t l IH]; intros H; cbn [past_from map].
  - exists []. auto.
  - destruct IH as (atts & -> & F); [intros; apply H; now right|]. destruct (H t) as (M & P); [now left|].
    destruct (material_conv t runner M) as (a & p & errs & -> & Sh & X & _). rewrite P in X. destruct X as (-> & ->). exists (a :: atts).
    split; [reflexivity|]. constructor; assumption.
Qed.

Lemma attempt_plain r : plain r ->
  exists a p, attempt_from (rm_runner (fst r)) (snd r) = AnAttempt a p [] /\ Forall2 shown (opt_list p ++ [a]) (timeline r) /\
    (is_failed (at_status a) = true -> failing (status_of r)).
Proof.
  intros (M & H). destruct (material_conv (snd r) (rm_runner (fst r)) M) as (a & p & errs & E & Sh & X & Fl). exists a, p.
  unfold timeline, status_of in *. destruct (snd r) as [k past rr] eqn:Er. cbn [past_of core_of] in *. rewrite attempt_from_eq in E |- *.
  destruct (conv_status (k_status k) (k_output k)) as [s|m]; [|discriminate]. destruct past as [l|].
  - destruct (past_plain (rm_runner (fst r)) l H) as (atts & EP & F). rewrite EP in *. injection E as <- <- <-. split; [reflexivity|]. split; [|exact Fl].
    cbn [opt_list]. rewrite map_app. apply Forall2_app; [exact F|]. constructor; [exact Sh|constructor].
  - injection E as <- <- <-. split; [reflexivity|]. split; [|exact Fl]. cbn [opt_list app map]. constructor; [exact Sh|constructor].
Qed.

Definition names_first (r : test_result) (t : test) : Prop :=
  let k := core_of (snd r) in
  te_id t = Some (k_id k) /\ te_name t = k_display_name k /\ te_lineage t = k_lineage k /\ te_location t = k_location k.

Lemma located_core r : located r -> k_location (core_of (snd r)) <> None.
Proof. unfold located. destruct (snd r). auto. Qed.

Lemma collected_plain rs i r0 rest : about i rs = r0 :: rest -> (forall r, In r (about i rs) -> plain r) -> placed r0 ->
  exists t, bget i (c_tests (collected rs)) = Some t /\ names_first r0 t /\
    Forall2 shown (opt_list (te_past t) ++ [te_attempt t]) (flat_map timeline (about i rs)).
Proof.
  revert rest. induction rs as [|r rs IH] using rev_ind; intros rest0 HN HP HF; [discriminate|].
  rewrite collected_snoc. rewrite about_app in *. destruct (list_eq_dec Nat.eq_dec (id_of r) i) as [E|Ne].
  - assert (Pr : plain r) by (apply HP, in_or_app; right; now left).
    destruct (attempt_plain r Pr) as (a & p & EA & F & Fl). rewrite flat_map_app. cbn [flat_map]. rewrite app_nil_r.
    destruct (push_cases (collected rs) r) as [(m & E' & _)|(a' & p' & errs & E' & Cs)]; [congruence|].
    assert (a' = a /\ p' = p /\ errs = []) as (-> & -> & ->) by (rewrite EA in E'; injection E' as <- <- <-; auto). rewrite E in Cs.
    destruct (about i rs) as [|r1 l] eqn:ER.
    + (* the first result *)
      cbn [app] in HN. injection HN as -> <-.
      assert (G : bget i (c_tests (collected rs)) = None).
      { destruct (bget i (c_tests (collected rs))) as [t|] eqn:G; auto. apply bget_In in G. destruct (cok_all rs) as (_ & H). apply H in G as (_ & G). congruence. }
      destruct Cs as [(t & G' & _)|[(_ & _ & ->)|(_ & L & e & m & b & Es & _)]].
      * congruence.
      * exists (first_test r0 a p). cbn [c_tests]. split; [apply bget_bput_eq|]. split; [repeat split|exact F].
      * exfalso. destruct HF as [HF|HF]; [apply located_core in HF; congruence|]. apply HF, Fl. rewrite Es. reflexivity.
    + cbn [app] in HN. injection HN as -> <-. destruct (IH l eq_refl) as (t & G & Nt & Mt).
      { intros r' H. apply HP, in_or_app. now left. }
      { exact HF. }
      destruct Cs as [(t' & G' & ->)|[(G' & _)|(G' & _)]]; try congruence.
      assert (t' = t) as -> by congruence. exists (next_test t a p). cbn [c_tests]. split; [apply bget_bput_eq|].
      split; [exact Nt|]. cbn [next_test te_past te_attempt opt_list]. rewrite <- app_assoc. cbn [app].
      change (te_attempt t :: opt_list p ++ [a]) with ([te_attempt t] ++ (opt_list p ++ [a])). rewrite app_assoc.
      apply Forall2_app; assumption.
  - rewrite app_nil_r in *. destruct (IH rest0 HN HP HF) as (t & G & X). exists t. split; [|exact X].
    destruct (push_cases (collected rs) r) as [(m & _ & ->)|(a & p & errs & _ & [(t' & _ & ->)|[(_ & _ & ->)|(_ & _ & e & m & b & _ & ->)]])];
      cbn [c_tests]; rewrite ?bget_bput_neq by assumption; exact G.
Qed.

(* ---- errors ---- *)

Lemma errors_grow c r x : In x (c_errors c) -> In x (c_errors (push_result c r)).
Proof.
  intros H. destruct (push_cases c r) as [(m & _ & ->)|(a & p & errs & _ & [(t & _ & ->)|[(_ & _ & ->)|(_ & _ & e & m & b & _ & ->)]])];
    cbn [c_errors]; apply in_app_iff; now left.
Qed.
Lemma error_listed rs r c : In r rs -> status_of r = PrivateNativeRunnerError ->
  In (match output_of r with Some o => o | None => text "ABQ native runner error. No output was provided." end) (c_errors (fold_left push_result rs c)).
Proof.
  assert (G : forall l x c, In x (c_errors c) -> In x (c_errors (fold_left push_result l c))).
  { induction l as [|y l IH]; intros x c' H; cbn [fold_left]; auto. apply IH, errors_grow, H. }
  revert c. induction rs as [|r' rs IH]; intros c H E; [destruct H|]. destruct H as [->|H]; cbn [fold_left]; auto.
  apply G. unfold status_of, output_of in *. destruct (snd r) as [k past rr] eqn:Er.
  destruct (push_cases c r) as [(m & E' & ->)|(a & p & errs & E' & _)].
  - rewrite Er, attempt_from_eq, E in E'. cbn [conv_status] in E'. injection E' as <-. cbn [c_errors]. apply in_app_iff. right. now left.
  - rewrite Er, attempt_from_eq, E in E'. cbn [conv_status] in E'. discriminate.
Qed.
Lemma no_errors rs : Forall (fun r => plain r /\ placed r) rs -> c_errors (collected rs) = [].
Proof.
  induction rs as [|r rs IH] using rev_ind; intros F; [reflexivity|]. apply Forall_app in F as (F & Fr). inversion Fr as [|? ? (Pr & Pl) _]; subst.
  rewrite collected_snoc. destruct (attempt_plain r Pr) as (a & p & EA & _ & Fl).
  destruct (push_cases (collected rs) r) as [(m & E' & _)|(a' & p' & errs & E' & Cs)]; [congruence|].
  assert (a' = a /\ p' = p /\ errs = []) as (-> & -> & ->) by (rewrite EA in E'; injection E' as <- <- <-; auto).
  destruct Cs as [(t & _ & ->)|[(_ & _ & ->)|(_ & L & e & m & b & Es & _)]]; cbn [c_errors]; rewrite ?app_nil_r; auto.
  exfalso. destruct Pl as [Pl|Pl]; [apply located_core in Pl; congruence|]. apply Pl, Fl. rewrite Es. reflexivity.
Qed.
Lemma error_outside rs : forall r, about (id_of r) rs = [] -> plain r -> ~ located r -> failing (status_of r) ->
  forall more, In (outside (k_display_name (core_of (snd r))) (output_of r)) (c_errors (collected (rs ++ r :: more))).
Proof.
  intros r A Pr L Fl more. replace (rs ++ r :: more) with ((rs ++ [r]) ++ more) by (rewrite <- app_assoc; reflexivity).
  induction more as [|x more IH] using rev_ind.
  - rewrite app_nil_r, collected_snoc. unfold plain, located, status_of, output_of in *.
    assert (G : bget (id_of r) (c_tests (collected rs)) = None).
    { destruct (bget (id_of r) (c_tests (collected rs))) as [t|] eqn:G; auto. apply bget_In in G. destruct (cok_all rs) as (_ & H). apply H in G as (_ & G). congruence. }
    destruct (snd r) as [k past rr] eqn:Er. cbn [core_of] in *.
    assert (Es : exists e b, conv_status (k_status k) (k_output k) = inl (AFailed e (k_output k) b)) by (destruct (k_status k); cbn in *; try tauto; eauto).
    destruct Es as (e0 & b0 & Es).
    destruct (push_cases (collected rs) r) as [(m & E' & _)|(a & p & errs & E' & Cs)]; rewrite Er, attempt_from_eq, Es in E'.
    + destruct past as [l|]; [destruct (past_from (rm_runner (fst r)) l)|]; discriminate.
    + assert (Sa : at_status a = AFailed e0 (k_output k) b0).
      { destruct past as [l|]; [destruct (past_from (rm_runner (fst r)) l)|]; injection E' as <- <- <-; reflexivity. }
      rewrite Er in Cs. cbn [core_of] in Cs. destruct Cs as [(t & G' & _)|[(_ & X & _)|(_ & _ & e & m & b & Es' & ->)]].
      * congruence.
      * exfalso. rewrite Sa in X. cbn in X. destruct X as [X|X]; [apply L, X|discriminate].
      * rewrite Sa in Es'. injection Es' as <- <- <-. cbn [c_errors]. rewrite !in_app_iff. right. right. now left.
  - rewrite app_assoc, collected_snoc. apply errors_grow, IH.
Qed.
End Proofs.
