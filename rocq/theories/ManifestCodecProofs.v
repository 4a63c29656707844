From Verif Require Import Base JsonModel JsonProofs JsonlModel RunStateModel RunStateProofs CodecModel CodecSpec CodecProofs FlattenModel FlattenProps ManifestCodecModel ManifestCodecSpec.
From Coq Require Import String Permutation.
Opaque u8 u32 u64 u128.

(* ---- codecs are lawful ---- *)

Lemma lawful_p_test : lawful_part p_test. Proof. record. Qed.
Lemma lawful_p_name : lawful_part p_name. Proof. unfold p_name. auto with codecs. Qed.
Lemma lawful_p_tags_meta : lawful_part p_tags_meta. Proof. unfold p_tags_meta. auto with codecs. Qed.

Section Ind.
Context (P : a_node -> Prop) (H1 : forall t, P (Test t)) (H2 : forall n l t m, Forall P l -> P (Group n l t m)).
Fixpoint node_ind' (n : a_node) : P n :=
  match n with
  | Test t => H1 t
  | Group name l tags meta =>
      H2 name l tags meta ((fix go l : Forall P l := match l with [] => Forall_nil _ | x :: l' => Forall_cons _ (node_ind' x) (go l') end) l)
  end.
End Ind.

Lemma node_ok_group name l tags meta :
  node_ok (Group name l tags meta) <-> p_ok p_name name /\ p_ok p_tags_meta (tags, meta) /\ Forall node_ok l.
Proof.
  cbn [node_ok].
  enough (E : (fix go l := match l with [] => True | x :: l' => node_ok x /\ go l' end) l <-> Forall node_ok l) by (rewrite E; tauto).
  induction l as [|x l IH]; split; intro G; auto; [constructor; tauto|inversion G; tauto].
Qed.

Definition members_of (v : json) : option (list a_node) :=
  match v with JArr l => seq_opt (map dec_node l) | _ => None end.

Lemma dec_node_obj ms : dec_node (JObj ms) =
  match find_field "type" ms with
  | One (JStr n) =>
      if bytes_eqb n (text "test") then option_map Test (p_dec p_test ms)
      else if bytes_eqb n (text "group") then
        match p_dec p_name ms, find_field "members" ms, p_dec p_tags_meta ms with
        | Some name, One v, Some (tags, meta) =>
            match members_of v with Some l => Some (Group name l tags meta) | None => None end
        | _, _, _ => None
        end
      else None
  | _ => None
  end.
Proof.
  cbn [dec_node].
  change (map (fun '(k, v) => (k, match v with JArr l => seq_opt (map dec_node l) | _ => None end)) ms)
    with (map (fun '(k, v) => (k, members_of v)) ms).
  destruct (find_field "type" ms) as [|[| | |n| |]|]; try reflexivity.
  destruct (bytes_eqb n (text "test")); [reflexivity|]. destruct (bytes_eqb n (text "group")); [|reflexivity].
  rewrite find_map. destruct (p_dec p_name ms); [|reflexivity].
  destruct (find_field "members" ms); try reflexivity. destruct (p_dec p_tags_meta ms) as [(tags, meta)|]; destruct (members_of a); reflexivity.
Qed.

Definition group_slots (name : bytes) (l : list a_node) (tags : list bytes) (meta : metadata) : list slot :=
  ("type"%string, Some (JStr (text "group"))) :: p_slots p_name name ++
  ("members"%string, Some (JArr (map enc_node l))) :: p_slots p_tags_meta (tags, meta).

Lemma group_names name l tags meta : NoDup (map fst (group_slots name l tags meta)).
Proof. unfold group_slots. cbn. distinct. Qed.

Lemma lawful_node : lawful c_node.
Proof.
  constructor; cbn [c_node c_enc c_dec c_ok].
  - intro n. induction n as [t|name l tags meta IH] using node_ind'; intro OK.
    + destruct (tagged_read "test" p_test t ltac:(distinct) lawful_p_test OK) as (T1 & T2 & T3).
      split; [exact T1|]. split; [|discriminate]. cbn [enc_node]. unfold obj. rewrite dec_node_obj, T2, eqb_text, T3. reflexivity.
    + apply node_ok_group in OK. destruct OK as (O1 & O2 & O3).
      change (enc_node (Group name l tags meta)) with (obj (group_slots name l tags meta)).
      assert (IH' : Forall (fun t => json_ok (enc_node t) /\ dec_node (enc_node t) = Some t) l).
      { apply Forall_forall. intros x X. rewrite Forall_forall in IH, O3. destruct (IH x X (O3 x X)) as (I1 & I2 & _). split; assumption. }
      split; [|split; [|discriminate]].
      * apply obj_ok. unfold group_slots. constructor; [exact I|]. apply Forall_app.
        split; [apply (slots_ok _ lawful_p_name), O1|]. constructor; [|apply (slots_ok _ lawful_p_tags_meta), O2].
        unfold slot_ok. cbn [snd if_some]. apply json_ok_arr. apply Forall_forall.
        intros x X. apply in_map_iff in X. destruct X as (y & <- & Y). rewrite Forall_forall in IH'. apply (IH' y Y).
      * unfold obj. rewrite dec_node_obj.
        rewrite (find_member "type" (Some (JStr (text "group"))) _ (group_names name l tags meta)) by (left; reflexivity).
        rewrite !eqb_text. cbn [String.eqb Ascii.eqb Bool.eqb].
        rewrite (slots_read _ lawful_p_name name _ O1); [|unfold group_slots; apply incl_tl, incl_appl, incl_refl|apply group_names].
        rewrite (slots_read _ lawful_p_tags_meta (tags, meta) _ O2); [|unfold group_slots; apply incl_tl, incl_appr, incl_tl, incl_refl|apply group_names].
        rewrite (find_member "members" (Some (JArr (map enc_node l))) _ (group_names name l tags meta));
          [|unfold group_slots; right; apply in_app_iff; right; left; reflexivity].
        cbn [members_of]. rewrite seq_opt_map; [reflexivity|]. eapply Forall_impl; [|exact IH']. cbn. tauto.
  - intro j.
    enough (Q : (forall a, json_ok j -> dec_node j = Some a -> node_ok a /\ nesting (enc_node a) <= nesting j) /\
                match j with
                | JArr vs => Forall (fun v => forall a, json_ok v -> dec_node v = Some a -> node_ok a /\ nesting (enc_node a) <= nesting v) vs
                | _ => True
                end) by apply Q.
    induction j as [|x|t|s|l IH|l IH] using json_ind'; try (split; [intros a OK H; discriminate|exact I]).
    { split; [intros a OK H; discriminate|]. eapply Forall_impl; [|exact IH]. intros v (V & _). exact V. }
    split; [|exact I]. intros a OK H. rewrite dec_node_obj in H. apply json_ok_obj in OK.
    destruct (find_field "type" l) as [|[| | |n| |]|]; try discriminate.
    destruct (bytes_eqb n (text "test")).
    { destruct (p_dec p_test l) as [t|] eqn:D; [|discriminate]. injection H as <-.
      exact (tagged_le "test" p_test l t lawful_p_test OK D). }
    destruct (bytes_eqb n (text "group")); [|discriminate].
    destruct (p_dec p_name l) as [name|] eqn:D1; [|discriminate].
    destruct (find_field "members" l) as [|v|] eqn:F; try discriminate.
    destruct (p_dec p_tags_meta l) as [(tags, meta)|] eqn:D2; [|discriminate].
    destruct (members_of v) as [ms|] eqn:M; [|discriminate]. injection H as <-.
    destruct (part_readable _ lawful_p_name _ _ OK D1) as (O1 & S1).
    destruct (part_readable _ lawful_p_tags_meta _ _ OK D2) as (O2 & S2).
    apply found_in in F. pose proof (top_in _ _ F) as T. cbn [snd] in T. rewrite Forall_forall in IH, OK. specialize (IH _ F). specialize (OK _ F). cbn [snd] in IH, OK.
    destruct v as [| | | |vs|]; try discriminate. cbn [members_of] in M. apply seq_opt_some in M.
    pose proof (proj2 IH) as IH2. cbn in IH2. apply json_ok_arr in OK.
    assert (G : Forall node_ok ms /\ Forall2 (fun x y => nesting x <= nesting y) (map enc_node ms) vs).
    { clear -M OK IH2. induction M as [|v t vs ts E _ IHq]; [split; constructor|].
      inversion OK as [|? ? Q1 Q2]; subst. inversion IH2 as [|? ? I1 I2]; subst. destruct (IHq Q2 I2) as (G1 & G2).
      destruct (I1 _ Q1 E). split; constructor; assumption. }
    destruct G as (G1 & G2). apply nesting_arr_mono in G2. split; [apply node_ok_group; auto|].
    change (enc_node (Group name ms tags meta)) with (obj (group_slots name ms tags meta)). apply obj_le. unfold group_slots.
    constructor; [unfold slot_le; cbn; lia|]. apply Forall_app. split; [exact S1|]. constructor; [|exact S2].
    unfold slot_le. cbn [snd if_some]. lia.
Qed.
#[export] Hint Resolve lawful_node : codecs.

Lemma lawful_manifest : lawful c_manifest. Proof. struct. Qed.
#[export] Hint Resolve lawful_manifest : codecs.
Lemma lawful_p_success : lawful_part p_success. Proof. unfold p_success. auto with codecs. Qed.
Lemma lawful_p_failure : lawful_part p_failure. Proof. unfold p_failure. auto with codecs. Qed.

Lemma lawful_manifest_message : lawful c_manifest_message.
Proof.
  assert (S1 : lawful (c_tagged "manifest_success" p_success)) by (apply lawful_tagged; [distinct|apply lawful_p_success]).
  assert (S2 : lawful (c_tagged "manifest_failure" p_failure)) by (apply lawful_tagged; [distinct|apply lawful_p_failure]).
  constructor; cbn [c_manifest_message c_enc c_dec c_ok].
  - intros [m es|e es] H.
    + destruct (written _ S1 (m, es) H) as (W1 & W2 & W3). split; [exact W1|]. split; [|exact W3]. rewrite W2. reflexivity.
    + destruct (written _ S2 (e, es) H) as (W1 & W2 & W3). split; [exact W1|]. split; [|exact W3]. rewrite W2.
      assert (N : c_dec (c_tagged "manifest_success" p_success) (c_enc (c_tagged "manifest_failure" p_failure) (e, es)) = None).
      { destruct es; reflexivity. }
      rewrite N. reflexivity.
  - intros j a OK H. unfold orelse in H.
    destruct (c_dec (c_tagged "manifest_success" p_success) j) as [(m, es)|] eqn:D1; cbn [option_map] in H.
    { injection H as <-. exact (readable _ S1 _ _ OK D1). }
    destruct (c_dec (c_tagged "manifest_failure" p_failure) j) as [(e, es)|] eqn:D2; cbn [option_map] in H; [|discriminate].
    injection H as <-. exact (readable _ S2 _ _ OK D2).
Qed.

Lemma lawful_reported : lawful c_reported. Proof. struct. Qed.
Lemma lawful_runner_error : lawful (c_struct p_runner_error).
Proof. apply lawful_struct; [distinct|]. unfold p_runner_error. auto with codecs. Qed.

Lemma lawful_manifest_result : lawful c_manifest_result.
Proof.
  pose proof lawful_reported as [W1 R1]. pose proof lawful_runner_error as [W2 R2].
  constructor; cbn [c_manifest_result c_enc c_dec c_ok].
  - intros [r|e o] H.
    + destruct (W1 r H) as (X & Y & _). split; [apply variant_ok, X|]. split; [|discriminate].
      unfold variant. rewrite eqb_text. cbn [String.eqb Ascii.eqb Bool.eqb]. rewrite Y. reflexivity.
    + destruct (W2 (e, o) H) as (X & Y & _). split; [apply variant_ok, X|]. split; [|discriminate].
      unfold variant. rewrite !eqb_text. cbn [String.eqb Ascii.eqb Bool.eqb]. rewrite Y. reflexivity.
  - intros [| | | | |l] a OK H; try discriminate. destruct l as [|(k, v) [|]]; try discriminate. apply single_ok in OK.
    destruct (bytes_eqb k _); [|destruct (bytes_eqb k _); [|discriminate]].
    + destruct (c_dec c_reported v) as [f|] eqn:D; [|discriminate]. injection H as <-. destruct (R1 _ _ OK D).
      split; [assumption|]. rewrite nesting_variant, nesting_single. lia.
    + destruct (c_dec (c_struct p_runner_error) v) as [(e, o)|] eqn:D; [|discriminate]. injection H as <-. destruct (R2 _ _ OK D).
      split; [assumption|]. rewrite nesting_variant, nesting_single. lia.
Qed.

(* A variant that holds one value. *)
Lemma lawful_one_variant {A} name (c : codec A) : lawful c ->
  lawful {| c_enc := fun x => variant name (c_enc c x);
            c_dec := fun j => match j with
                              | JObj [(k, v)] => if bytes_eqb k (text name) then c_dec c v else None
                              | _ => None
                              end;
            c_ok := c_ok c |}.
Proof.
  intros [W R]. constructor; cbn [c_enc c_dec c_ok].
  - intros r H. destruct (W r H) as (X & Y & _). split; [apply variant_ok, X|]. split; [|discriminate].
    unfold variant. rewrite bytes_eqb_refl. exact Y.
  - intros [| | | | |l] a OK H; try discriminate. destruct l as [|(k, v) [|]]; try discriminate. apply single_ok in OK.
    destruct (bytes_eqb k _); [|discriminate]. destruct (R _ _ OK H).
    split; [assumption|]. rewrite nesting_variant, nesting_single. lia.
Qed.

Lemma lawful_manifest_told : lawful c_manifest_told.
Proof. apply lawful_one_variant. apply lawful_pair; [apply lawful_str|apply lawful_manifest_result]. Qed.
#[export] Hint Resolve lawful_manifest_told : codecs.
Lemma lawful_manifest_request : lawful c_manifest_request.
Proof. apply lawful_struct; [distinct|]. apply lawful_both; auto with codecs. Qed.

Lemma lawful_focus : lawful c_focus. Proof. apply lawful_struct; [distinct|auto with codecs]. Qed.
#[export] Hint Resolve lawful_focus : codecs.
Lemma lawful_test_case : lawful c_test_case. Proof. struct. Qed.
#[export] Hint Resolve lawful_test_case : codecs.
Lemma lawful_test_spec : lawful (c_struct (req "work_id" (c_array 16 u8) +++ req "test_case" c_test_case)).
Proof. apply lawful_struct; [distinct|auto with codecs]. Qed.
#[export] Hint Resolve lawful_test_spec : codecs.
Lemma lawful_worker_test : lawful c_worker_test. Proof. struct. Qed.
#[export] Hint Resolve lawful_worker_test : codecs.
Lemma lawful_bundle : lawful c_bundle. Proof. apply lawful_struct; [distinct|auto with codecs]. Qed.
Lemma lawful_next_tests : lawful c_next_tests. Proof. apply lawful_one_variant, lawful_bundle. Qed.
Lemma lawful_view : lawful c_view. Proof. struct. Qed.
Lemma lawful_case_message : lawful c_case_message. Proof. apply lawful_struct; [distinct|auto with codecs]. Qed.
Lemma lawful_init_message : lawful c_init_message. Proof. apply lawful_struct; [distinct|auto with codecs]. Qed.

Lemma lawful_retry_error : lawful c_retry_error.
Proof.
  constructor; cbn [c_retry_error c_enc c_dec c_ok].
  - intros e _. split; [exact I|]. split; [|discriminate]. destruct e; cbn [find error_name]; rewrite ?eqb_text; reflexivity.
  - intros [] e _ H; try discriminate. split; [exact I|]. simpl; lia.
Qed.

Lemma lawful_retry_response : lawful c_retry_response.
Proof.
  pose proof lawful_bundle as [W1 R1]. pose proof lawful_retry_error as [W2 R2].
  constructor; cbn [c_retry_response c_enc c_dec c_ok].
  - intros [b| |e] H.
    + destruct (W1 b H) as (X & Y & _). split; [apply variant_ok, X|]. split; [|discriminate].
      unfold variant. rewrite eqb_text. cbn [String.eqb Ascii.eqb Bool.eqb]. rewrite Y. reflexivity.
    + split; [exact I|]. split; [rewrite eqb_text; reflexivity|discriminate].
    + destruct (W2 e I) as (X & Y & _). split; [apply variant_ok, X|]. split; [|discriminate].
      unfold variant. rewrite !eqb_text. cbn [String.eqb Ascii.eqb Bool.eqb]. rewrite Y. reflexivity.
  - intros [| | |n| |l] a OK H; try discriminate.
    + destruct (bytes_eqb n _); [|discriminate]. injection H as <-. split; [exact I|simpl; lia].
    + destruct l as [|(k, v) [|]]; try discriminate. apply single_ok in OK.
      destruct (bytes_eqb k _); [|destruct (bytes_eqb k _); [|discriminate]].
      * destruct (c_dec c_bundle v) as [f|] eqn:D; [|discriminate]. injection H as <-. destruct (R1 _ _ OK D).
        split; [assumption|]. rewrite nesting_variant, nesting_single. lia.
      * destruct (c_dec c_retry_error v) as [f|] eqn:D; [|discriminate]. injection H as <-. destruct (R2 _ _ OK D).
        split; [exact I|]. rewrite nesting_variant, nesting_single. lia.
Qed.

Lemma lawful_init_response : lawful c_init_response.
Proof.
  assert (L1 : lawful (c_struct p_init)) by (apply lawful_struct; [distinct|unfold p_init; auto with codecs]).
  assert (L2 : lawful (c_struct p_cancelled)) by (apply lawful_struct; [distinct|unfold p_cancelled; auto with codecs]).
  destruct L1 as [W1 R1], L2 as [W2 R2].
  constructor; cbn [c_init_response c_enc c_dec c_ok].
  - intros [|m|c] H.
    + split; [exact I|]. split; [rewrite eqb_text; reflexivity|discriminate].
    + destruct (W1 m H) as (X & Y & _). split; [apply variant_ok, X|]. split; [|discriminate].
      unfold variant. rewrite eqb_text. cbn [String.eqb Ascii.eqb Bool.eqb]. rewrite Y. reflexivity.
    + destruct (W2 c I) as (X & Y & _). split; [apply variant_ok, X|]. split; [|discriminate].
      unfold variant. rewrite !eqb_text. cbn [String.eqb Ascii.eqb Bool.eqb]. rewrite Y. reflexivity.
  - intros [| | |n| |l] a OK H; try discriminate.
    + destruct (bytes_eqb n _); [|discriminate]. injection H as <-. split; [exact I|simpl; lia].
    + destruct l as [|(k, v) [|]]; try discriminate. apply single_ok in OK.
      destruct (bytes_eqb k _); [|destruct (bytes_eqb k _); [|discriminate]].
      * destruct (c_dec (c_struct p_init) v) as [f|] eqn:D; [|discriminate]. injection H as <-. destruct (R1 _ _ OK D).
        split; [assumption|]. rewrite nesting_variant, nesting_single. lia.
      * destruct (c_dec (c_struct p_cancelled) v) as [f|] eqn:D; [|discriminate]. injection H as <-. destruct (R2 _ _ OK D).
        split; [exact I|]. rewrite nesting_variant, nesting_single. lia.
Qed.

(* ---- canonical values say the same ---- *)

Lemma eqb_true a b : bytes_eqb a b = true -> a = b.
Proof. unfold bytes_eqb. destruct (list_eq_dec Nat.eq_dec a b); [auto|discriminate]. Qed.

Lemma last_fold k l : forall o, fold_left (fun found kv => if bytes_eqb (fst kv) k then Some (snd kv) else found) l o =
  match last_of k l with Some v => Some v | None => o end.
Proof.
  unfold last_of. induction l as [|(k', v) l IH]; intro o; [reflexivity|]. cbn [fold_left fst snd].
  rewrite (IH (if bytes_eqb k' k then Some v else o)), (IH (if bytes_eqb k' k then Some v else None)).
  destruct (fold_left _ l None); [reflexivity|]. destruct (bytes_eqb k' k); reflexivity.
Qed.
Lemma last_cons k k' v l : last_of k ((k', v) :: l) = match last_of k l with Some x => Some x | None => if bytes_eqb k' k then Some v else None end.
Proof. unfold last_of at 1. cbn [fold_left fst snd]. apply last_fold. Qed.
Lemma last_in k l v : last_of k l = Some v -> In (k, v) l.
Proof.
  induction l as [|(k', w) l IH]; [discriminate|]. rewrite last_cons. destruct (last_of k l) as [x|].
  - intro H. right. apply IH, H.
  - destruct (bytes_eqb k' k) eqn:E; [|discriminate]. intro H. injection H as ->. left. f_equal. apply eqb_true, E.
Qed.
Lemma last_none k l : (forall v, ~ In (k, v) l) -> last_of k l = None.
Proof. intro H. destruct (last_of k l) as [v|] eqn:E; [apply last_in in E; elim (H _ E)|reflexivity]. Qed.
Lemma last_above k l : Forall (fun x => bytes_ltb k (fst x) = true) l -> last_of k l = None.
Proof.
  intro F. apply last_none. intros v V. rewrite Forall_forall in F. specialize (F _ V). cbn in F. rewrite ltb_irrefl in F. discriminate.
Qed.

Lemma last_insert k k' v m : sorted m -> last_of k (insert_key k' v m) = if bytes_eqb k' k then Some v else last_of k m.
Proof.
  induction 1 as [|(k2, v2) m S' IH F]; [cbn [insert_key]; rewrite last_cons; reflexivity|]. cbn [insert_key].
  assert (F' : Forall (fun x => bytes_ltb k2 (fst x) = true) m) by exact F.
  destruct (bytes_ltb k' k2) eqn:E1; [|destruct (bytes_ltb k2 k') eqn:E2].
  - rewrite last_cons. destruct (bytes_eqb k' k) eqn:E; [|destruct (last_of k ((k2, v2) :: m)); reflexivity].
    apply eqb_true in E. subst k'. rewrite last_above; [reflexivity|]. constructor; [exact E1|].
    eapply Forall_impl; [|exact F']. intros x X. cbn. eapply ltb_trans; eauto.
  - rewrite last_cons, IH, last_cons. destruct (bytes_eqb k' k) eqn:E; [reflexivity|]. destruct (last_of k m); reflexivity.
  - assert (k' = k2) as -> by (apply ltb_total; assumption). rewrite !last_cons.
    destruct (bytes_eqb k2 k) eqn:E; [|reflexivity]. apply eqb_true in E. subst k2. rewrite (last_above _ _ F'). reflexivity.
Qed.

Lemma last_merge k l : forall m, sorted m -> last_of k (merge l m) = match last_of k l with Some v => Some v | None => last_of k m end.
Proof.
  induction l as [|(k', v) l IH]; intros m S'; [reflexivity|]. cbn [merge fold_left fst snd]. fold (merge l (insert_key k' v m)).
  rewrite IH by (apply insert_sorted, S'). rewrite last_cons. destruct (last_of k l); [reflexivity|].
  rewrite last_insert by exact S'. destruct (bytes_eqb k' k); reflexivity.
Qed.

Lemma last_map k (f : json -> json) l : last_of k (map (fun kv => (fst kv, f (snd kv))) l) = option_map f (last_of k l).
Proof.
  induction l as [|(k', v) l IH]; [reflexivity|]. cbn [map fst snd]. rewrite !last_cons, IH.
  destruct (last_of k l); [reflexivity|]. cbn [option_map]. destruct (bytes_eqb k' k); reflexivity.
Qed.

Lemma canon_same j : same j (canon j).
Proof.
  induction j as [|b|t|s|l IH|l IH] using json_ind'; try (apply same_atom; exact I).
  - cbn [canon]. apply same_arr. induction IH as [|x l X _ IHl]; constructor; assumption.
  - rewrite canon_obj. rewrite Forall_forall in IH.
    assert (L : forall k, last_of k (merge (map (fun kv => (fst kv, canon (snd kv))) l) []) = option_map canon (last_of k l)).
    { intro k. rewrite last_merge by constructor. rewrite last_map. destruct (last_of k l); reflexivity. }
    apply same_obj.
    + intros k v E. exists (canon v). rewrite L, E. split; [reflexivity|]. apply (IH (k, v)), last_in, E.
    + intros k E. rewrite L, E. reflexivity.
Qed.

(* ---- what a manifest that was read describes ---- *)

Definition as_told (x : bytes * json) (t : a_test) : Prop := t_id t = fst x /\ canon (snd x) = JObj (t_meta t).

Lemma found_is {A} name (ms : list (bytes * A)) a b : find_field name ms = One a -> In (text name, b) ms -> a = b.
Proof.
  unfold find_field. intros H I'.
  assert (F : In (text name, b) (filter (fun kv => bytes_eqb (fst kv) (text name)) ms)).
  { apply filter_In. split; [exact I'|]. apply bytes_eqb_refl. }
  destruct (filter (fun kv => bytes_eqb (fst kv) (text name)) ms) as [|x [|? ?]]; try discriminate.
  destruct F as [->|[]]. injection H as <-. reflexivity.
Qed.

Lemma meta_dec j m : c_dec c_meta j = Some m -> canon j = JObj m.
Proof. cbn [c_meta c_dec]. destruct (canon j); try discriminate. congruence. Qed.

Lemma test_fields ms t : p_dec p_test ms = Some t ->
  exists v, find_field "id" ms = One (JStr (t_id t)) /\ find_field "meta" ms = One v /\ canon v = JObj (t_meta t).
Proof.
  unfold p_test, as_record, both_parts, req. cbn [p_dec].
  destruct (find_field "id" ms) as [|[| | |i| |]|]; try discriminate.
  destruct (find_field "tags" ms) as [|tg|]; try discriminate.
  destruct (find_field "meta" ms) as [|v|]; try (cbn [c_str c_dec]; destruct (c_dec (c_vec c_str) tg); discriminate).
  cbn [c_str c_dec]. destruct (c_dec (c_vec c_str) tg) as [tags|]; [|discriminate].
  destruct (c_dec c_meta v) as [m|] eqn:M; [|discriminate]. intro H. cbn [option_map] in H.
  assert (t = {| t_id := i; t_tags := tags; t_meta := m |}) as -> by congruence.
  exists v. split; [reflexivity|]. split; [reflexivity|]. apply meta_dec, M.
Qed.

Lemma node_told n : forall j told, dec_node j = Some n -> tells j told -> Forall2 as_told told (tests_of n).
Proof.
  induction n as [t|name l tags meta IH] using node_ind'; intros j told D T;
    (destruct T as [ms id m T1 T2 T3|ms vs each T1 T2 T3]; rewrite dec_node_obj in D;
     destruct (find_field "type" ms) as [|[| | |n| |]|] eqn:F; try discriminate;
     pose proof (found_is _ _ _ _ F T1) as E; injection E as ->; rewrite !eqb_text in D; cbn [String.eqb Ascii.eqb Bool.eqb] in D).
  - destruct (p_dec p_test ms) as [t'|] eqn:P; [|discriminate]. cbn [option_map] in D. assert (t' = t) as -> by congruence.
    destruct (test_fields ms t P) as (v & F1 & F2 & F3). pose proof (found_is _ _ _ _ F1 T2) as E1. pose proof (found_is _ _ _ _ F2 T3) as E2. subst v.
    cbn [tests_of]. constructor; [|constructor]. split; [cbn [fst]; congruence|exact F3].
  - destruct (p_dec p_name ms); [|discriminate]. destruct (find_field "members" ms); try discriminate.
    destruct (p_dec p_tags_meta ms) as [(? & ?)|]; [|discriminate]. destruct (members_of a); discriminate.
  - destruct (p_dec p_test ms); discriminate.
  - destruct (p_dec p_name ms); [|discriminate]. destruct (find_field "members" ms) as [|v|] eqn:FM; try discriminate.
    destruct (p_dec p_tags_meta ms) as [(? & ?)|]; [|discriminate]. destruct (members_of v) as [l'|] eqn:M; [|discriminate].
    assert (l' = l) as -> by congruence. pose proof (found_is _ _ _ _ FM T2) as E. subst v. cbn [members_of] in M.
    apply seq_opt_some in M. clear -IH M T3. cbn [tests_of].
    revert each T3 IH. induction M as [|v x vs l E _ IHm]; intros each T3 IH; inversion T3; subst; [constructor|].
    inversion IH; subst. cbn [List.concat flat_map]. apply Forall2_app; [eauto|]. apply IHm; assumption.
Qed.

Lemma node_tells n : forall j, dec_node j = Some n -> exists told, tells j told.
Proof.
  induction n as [t|name l tags meta IH] using node_ind'; intros j D;
    (destruct j as [| | | | |ms]; try discriminate; rewrite dec_node_obj in D;
     destruct (find_field "type" ms) as [|[| | |n| |]|] eqn:F; try discriminate;
     destruct (bytes_eqb n (text "test")) eqn:E1; [|destruct (bytes_eqb n (text "group")) eqn:E2; [|discriminate]]).
  - destruct (p_dec p_test ms) as [t'|] eqn:P; [|discriminate].
    destruct (test_fields ms t' P) as (v & F1 & F2 & F3). apply eqb_true in E1. subst n.
    exists [(t_id t', v)]. apply tells_test; apply found_in; assumption.
  - destruct (p_dec p_name ms); [|discriminate]. destruct (find_field "members" ms); try discriminate.
    destruct (p_dec p_tags_meta ms) as [(? & ?)|]; [|discriminate]. destruct (members_of a); discriminate.
  - destruct (p_dec p_test ms); discriminate.
  - destruct (p_dec p_name ms); [|discriminate]. destruct (find_field "members" ms) as [|v|] eqn:FM; try discriminate.
    destruct (p_dec p_tags_meta ms) as [(? & ?)|]; [|discriminate]. destruct (members_of v) as [l'|] eqn:M; [|discriminate].
    assert (l' = l) as -> by congruence. destruct v as [| | | |vs|]; try discriminate. cbn [members_of] in M. apply seq_opt_some in M.
    assert (X : exists each, Forall2 tells vs each).
    { clear -IH M. induction M as [|v x vs l E _ IHm]; [exists []; constructor|]. inversion IH; subst.
      destruct (IHm ltac:(assumption)) as (each & H). destruct (H1 v E) as (told & T). exists (told :: each). constructor; assumption. }
    destruct X as (each & X). exists (List.concat each). apply eqb_true in E2. subst n.
    eapply tells_group; [apply found_in, F|apply found_in, FM|exact X].
Qed.

Lemma manifest_fields ms m : c_dec c_manifest (JObj ms) = Some m ->
  exists l i, find_field "members" ms = One (JArr l) /\ Forall2 (fun j n => dec_node j = Some n) l (m_members m) /\
              find_field "init_meta" ms = One i /\ canon i = JObj (m_init_meta m).
Proof.
  unfold c_manifest, c_struct, as_record, both_parts, req. cbn [c_dec p_dec].
  destruct (find_field "members" ms) as [|[| | | |l|]|]; try discriminate.
  cbn [c_vec c_dec c_node]. destruct (seq_opt (map dec_node l)) as [ns|] eqn:Q; [|discriminate].
  destruct (find_field "init_meta" ms) as [|i|]; try discriminate.
  destruct (c_dec c_meta i) as [im|] eqn:M; [|discriminate]. intro H. cbn [option_map] in H.
  assert (m = {| m_members := ns; m_init_meta := im |}) as -> by congruence.
  exists l, i. split; [reflexivity|]. split; [apply seq_opt_some, Q|]. split; [reflexivity|]. apply meta_dec, M.
Qed.

Opaque read_json.
Lemma success_json b m es : from_text c_manifest_message b = Some (ManifestSuccess m es) ->
  exists message v, read_json b = Some (JObj message) /\ find_field "manifest" message = One v /\ c_dec c_manifest v = Some m.
Proof.
  intro H. destruct (from_text_inv _ _ _ H) as (j & J & D). clear H. cbn [c_manifest_message c_dec] in D.
  destruct (c_dec (c_tagged "manifest_success" p_success) j) as [(m', es')|] eqn:S1.
  - cbn [option_map orelse] in D. assert (m' = m) as -> by congruence. clear D.
    destruct j as [| | | | |message]; try discriminate. cbn [c_tagged c_dec] in S1.
    exists message. unfold p_success, both_parts, req in S1. cbn [p_dec] in S1.
    destruct (find_field "manifest" message) as [|v|] eqn:F; try discriminate.
    destruct (c_dec c_manifest v) as [m2|] eqn:C; [|discriminate].
    destruct (p_dec p_errors message); [|discriminate]. exists v. split; [exact J|]. split; [reflexivity|]. congruence.
  - cbn [option_map orelse] in D. destruct (c_dec (c_tagged "manifest_failure" p_failure) j) as [(? & ?)|]; discriminate.
Qed.

Lemma message_told b m es told init : from_text c_manifest_message b = Some (ManifestSuccess m es) -> message_tells b told init ->
  Forall2 as_told told (flat_map tests_of (m_members m)) /\ canon init = JObj (m_init_meta m).
Proof.
  intros H (message & manifest & members & each & J & T1 & T2 & T3 & T4 & ->).
  destruct (success_json b m es H) as (message' & v & J' & F & D). rewrite J in J'. injection J' as <-.
  pose proof (found_is _ _ _ _ F T1) as E. subst v.
  destruct (manifest_fields _ _ D) as (l & i & F1 & F2 & F3 & F4).
  pose proof (found_is _ _ _ _ F1 T2) as E. injection E as ->. pose proof (found_is _ _ _ _ F3 T3) as E. subst i. split; [|exact F4].
  clear -F2 T4. revert each T4. induction F2 as [|v x vs l E _ IH]; intros each T4; inversion T4; subst; [constructor|].
  cbn [List.concat flat_map]. apply Forall2_app; [eapply node_told; eassumption|apply IH; assumption].
Qed.

Lemma message_describes b m es : from_text c_manifest_message b = Some (ManifestSuccess m es) -> exists told init, message_tells b told init.
Proof.
  intro H. destruct (success_json b m es H) as (message & v & J & F & D).
  destruct v as [| | | | |manifest]; try discriminate.
  destruct (manifest_fields _ _ D) as (l & i & F1 & F2 & F3 & F4).
  assert (X : exists each, Forall2 tells l each).
  { clear -F2. induction F2 as [|v x vs l E _ IH]; [exists []; constructor|]. destruct IH as (each & IH), (node_tells _ _ E) as (told & T).
    exists (told :: each). constructor; assumption. }
  destruct X as (each & X). exists (List.concat each), i, message, manifest, l, each.
  split; [exact J|]. split; [apply found_in, F|]. split; [apply found_in, F1|]. split; [apply found_in, F3|]. split; [exact X|reflexivity].
Qed.

(* ---- order of members ---- *)

Lemma node_reads_fields ms ms' : (forall n, In n node_fields -> find_field n ms = find_field n ms') ->
  c_dec c_node (JObj ms) = c_dec c_node (JObj ms').
Proof.
  intro H. cbn [c_node c_dec]. rewrite !dec_node_obj.
  assert (C1 : reads_only p_test).
  { apply only_record. repeat (apply only_both; [apply only_req|]). apply only_req. }
  assert (C2 : reads_only p_name) by apply only_req.
  assert (C3 : reads_only p_tags_meta) by (apply only_both; apply only_req).
  rewrite (C1 ms ms'), (C2 ms ms'), (C3 ms ms'), (H "type"%string), (H "members"%string); [reflexivity|..];
    try (intros n N; apply H; cbn in N); unfold node_fields; simpl; tauto.
Qed.

(* ---- depth ---- *)

Lemma entity_deep e : nesting (c_enc c_entity e) <= 3.
Proof.
  destruct e as (id, t). unfold c_entity. cbn [c_struct c_enc]. apply obj_deep. cbn [both_parts req p_slots fst snd app].
  constructor; [|constructor; [|constructor]]; unfold slot_le; cbn [snd if_some].
  + pose proof (nums_flat u8 id flat_u8). cbn [c_array c_enc]. lia.
  + destruct t as [r| |]; [|simpl; lia..]. cbn [c_tag c_enc]. rewrite nesting_variant. apply le_n_S. apply arr_deep.
    repeat constructor; rewrite flat_u32; lia.
Qed.
Lemma version_deep v : nesting (c_enc c_version v) <= 1.
Proof.
  unfold c_version. cbn [c_tagged c_enc]. apply obj_deep. cbn [both_parts req p_slots fst snd app].
  repeat constructor; unfold slot_le; cbn [snd if_some]; rewrite ?flat_u64; simpl; lia.
Qed.
Lemma specification_deep s : nesting (c_enc c_specification s) <= 1.
Proof.
  unfold c_specification. cbn [c_tagged c_enc]. apply obj_deep. cbn [both_parts as_record req p_slots fst snd app].
  repeat constructor; unfold slot_le; cbn [snd if_some]; simpl; lia.
Qed.
Lemma manifest_pos m : 1 <= nesting (c_enc c_manifest m).
Proof. apply nesting_pos_obj. Qed.

Lemma told_deep e run x : nesting (c_enc c_manifest_request (e, (run, x))) <= 3 + Nat.max 1 (nesting (c_enc c_manifest_result x)).
Proof.
  unfold c_manifest_request. cbn [c_struct c_enc]. apply (obj_deep (2 + Nat.max 1 (nesting (c_enc c_manifest_result x)))).
  cbn [both_parts req p_slots fst snd app]. constructor; [|constructor; [|constructor]]; unfold slot_le; cbn [snd if_some].
  - pose proof (entity_deep e). lia.
  - unfold c_manifest_told. cbn [c_enc]. rewrite nesting_variant. cbn [c_pair c_enc fst snd].
    enough (nesting (JArr [c_enc c_str run; c_enc c_manifest_result x]) <= S (Nat.max 1 (nesting (c_enc c_manifest_result x)))) by lia.
    apply arr_deep. constructor; [simpl; lia|]. constructor; [lia|constructor].
Qed.

Lemma reported_deep r : nesting (c_enc c_manifest_result (TheManifest r)) <= 2 + nesting (c_enc c_manifest (r_manifest r)).
Proof.
  cbn [c_manifest_result c_enc]. rewrite nesting_variant. apply le_n_S. unfold c_reported. cbn [c_struct c_enc]. apply obj_deep.
  cbn [both_parts as_record req p_slots fst snd app]. pose proof (manifest_pos (r_manifest r)).
  constructor; [|constructor; [|constructor; [|constructor]]]; unfold slot_le; cbn [snd if_some]; [lia| |].
  - pose proof (version_deep (r_protocol r)). lia.
  - pose proof (specification_deep (r_specification r)). lia.
Qed.

Lemma runner_error_deep e o : nesting (c_enc c_manifest_result (TestRunnerError e o)) <= 4.
Proof.
  cbn [c_manifest_result c_enc]. rewrite nesting_variant. apply le_n_S. cbn [c_struct c_enc]. apply obj_deep.
  unfold p_runner_error. cbn [both_parts req p_slots fst snd app].
  constructor; [|constructor; [|constructor]]; unfold slot_le; cbn [snd if_some]; [simpl; lia|].
  unfold c_stdio. cbn [c_struct c_enc]. apply obj_deep.
  cbn [both_parts req p_slots fst snd app]. constructor; [|constructor; [|constructor]]; unfold slot_le; cbn [snd if_some]; apply nums_flat, flat_u8.
Qed.

Lemma request_above e run r : 5 + nesting (c_enc c_manifest (r_manifest r)) <= nesting (c_enc c_manifest_request (e, (run, TheManifest r))).
Proof.
  assert (A : nesting (c_enc c_manifest_told (run, TheManifest r)) < nesting (c_enc c_manifest_request (e, (run, TheManifest r)))).
  { unfold c_manifest_request. cbn [c_struct c_enc]. apply (obj_in "message"). cbn [both_parts req p_slots fst snd app]. right. left. reflexivity. }
  unfold c_manifest_told in A. cbn [c_enc] in A. rewrite nesting_variant in A. cbn [c_pair c_enc fst snd] in A.
  pose proof (nesting_arr [c_enc c_str run; c_enc c_manifest_result (TheManifest r)] _ ltac:(right; left; reflexivity)) as B.
  cbn [c_manifest_result c_enc] in A, B. rewrite nesting_variant in B.
  assert (C : nesting (c_enc c_manifest (r_manifest r)) < nesting (c_enc c_reported r)).
  { unfold c_reported. cbn [c_struct c_enc]. apply (obj_in "manifest"). left. reflexivity. }
  lia.
Qed.

Lemma success_above m es : 1 + nesting (c_enc c_manifest m) <= nesting (c_enc c_manifest_message (ManifestSuccess m es)).
Proof.
  cbn [c_manifest_message c_enc c_tagged]. apply (obj_in "manifest"). right. left. reflexivity.
Qed.

Lemma node_above (n : a_node) (t : a_test) : In t (tests_of n) -> 1 + nesting (JObj (t_meta t)) <= nesting (enc_node n).
Proof.
  induction n as [t'|name l tags meta IH] using node_ind'; cbn [tests_of]; intro H.
  - destruct H as [->|[]]. cbn [enc_node]. apply (obj_in "meta"). cbn. tauto.
  - apply in_flat_map in H. destruct H as (x & X & T). rewrite Forall_forall in IH. specialize (IH x X T).
    assert (A : nesting (JArr (map enc_node l)) < nesting (enc_node (Group name l tags meta))).
    { change (enc_node (Group name l tags meta)) with (obj (group_slots name l tags meta)). apply (obj_in "members").
      unfold group_slots. right. apply in_app_iff. right. left. reflexivity. }
    pose proof (nesting_arr (map enc_node l) _ (in_map _ _ _ X)). lia.
Qed.

Lemma manifest_above (m : a_manifest) (t : a_test) : In t (flat_map tests_of (m_members m)) -> 3 + nesting (JObj (t_meta t)) <= nesting (c_enc c_manifest m).
Proof.
  intro H. apply in_flat_map in H. destruct H as (x & X & T). pose proof (node_above x t T) as A.
  assert (B : nesting (JArr (map enc_node (m_members m))) < nesting (c_enc c_manifest m)).
  { unfold c_manifest. cbn [c_struct c_enc]. apply (obj_in "members"). left. reflexivity. }
  pose proof (nesting_arr (map enc_node (m_members m)) _ (in_map _ _ _ X)). lia.
Qed.
Lemma init_above (m : a_manifest) : 1 + nesting (JObj (m_init_meta m)) <= nesting (c_enc c_manifest m).
Proof. unfold c_manifest. cbn [c_struct c_enc]. apply (obj_in "init_meta"). right. left. reflexivity. Qed.

Lemma node_tests_ok (n : a_node) : node_ok n -> forall t, In t (tests_of n) -> c_ok c_meta (t_meta t).
Proof.
  induction n as [t'|name l tags meta IH] using node_ind'; intros OK t H; cbn [tests_of] in H.
  - destruct H as [->|[]]. apply OK.
  - apply node_ok_group in OK. destruct OK as (_ & _ & OK). apply in_flat_map in H. destruct H as (x & X & T).
    rewrite Forall_forall in IH, OK. apply (IH x X (OK x X) t T).
Qed.

(* ---- the tests of the queue ---- *)

(* A test of a manifest [m] with metadata nested at most [d] deep. *)
Definition fine (d : nat) (w : worker_test) : Prop :=
  a_uuid (wt_work_id w) /\ c_ok c_meta (tc_meta (wt_case w)) /\ nesting (JObj (tc_meta (wt_case w))) <= d /\
  tc_focus (wt_case w) = None /\ wt_run_number w = 1%N.

Lemma fine_ok d w : fine d w -> c_ok c_worker_test w.
Proof.
  intros (F1 & F2 & F3 & F4 & F5). destruct w as [id [i m f] n]. cbn in *. subst f n.
  unfold c_worker_test, c_test_case. cbn [c_struct c_ok as_record p_ok both_parts req opt fst snd].
  repeat split; try exact I; try apply F1; try apply F2.
Qed.

Lemma fine_deep d w : fine d w -> nesting (c_enc c_worker_test w) <= 3 + d.
Proof.
  intros (F1 & F2 & F3 & F4 & F5). pose proof (nesting_pos_obj (tc_meta (wt_case w))) as P.
  destruct w as [id [i m f] n]. cbn in F3, F4, P. subst f.
  unfold c_worker_test. cbn [c_struct c_enc]. apply obj_deep. cbn [both_parts as_record req p_slots fst snd app].
  constructor; [|constructor; [|constructor]]; unfold slot_le; cbn [snd if_some wt_work_id wt_case wt_run_number]; [|rewrite flat_u32; lia].
  cbn [c_struct c_enc]. apply obj_deep. cbn [both_parts as_record req p_slots fst snd app].
  constructor; [|constructor; [|constructor]]; unfold slot_le; cbn [snd if_some wt_work_id wt_case].
  - pose proof (nums_flat u8 id flat_u8). cbn [c_array c_enc]. lia.
  - unfold c_test_case. cbn [c_struct c_enc]. apply obj_deep. cbn [both_parts as_record req opt p_slots fst snd app tc_id tc_meta tc_focus option_map].
    constructor; [|constructor; [|constructor; [|constructor]]]; unfold slot_le; cbn [snd if_some]; [simpl; lia|exact F3|exact I].
Qed.

Lemma works_deep d work : Forall (fine d) work -> nesting (c_enc (c_vec c_worker_test) work) <= 4 + d.
Proof.
  intro F. cbn [c_vec c_enc]. apply arr_deep. apply Forall_forall. intros x X. apply in_map_iff in X. destruct X as (w & <- & W).
  rewrite Forall_forall in F. apply fine_deep, F, W.
Qed.

Lemma bundle_deep d work eow : Forall (fine d) work -> nesting (c_enc c_bundle (work, eow)) <= 5 + d.
Proof.
  intro F. unfold c_bundle. cbn [c_struct c_enc]. apply obj_deep. cbn [both_parts req p_slots fst snd app].
  constructor; [|constructor; [|constructor]]; unfold slot_le; cbn [snd if_some]; [apply works_deep, F|simpl; lia].
Qed.

Lemma works_ok d work : Forall (fine d) work -> c_ok (c_vec c_worker_test) work.
Proof. intro F. cbn [c_vec c_ok]. eapply Forall_impl; [|exact F]. intro. apply fine_ok. Qed.

Lemma bundle_arrives d work eow : d <= 121 -> Forall (fine d) work -> arrives c_next_tests (work, eow).
Proof.
  intros D F. apply text_round; [apply lawful_next_tests|split; [apply (works_ok d), F|exact I]|].
  cbn [c_next_tests c_enc]. rewrite nesting_variant. pose proof (bundle_deep d work eow F). lia.
Qed.
Lemma retry_arrives d work eow : d <= 121 -> Forall (fine d) work -> arrives c_retry_response (RetryManifest (work, eow)).
Proof.
  intros D F. apply text_round; [apply lawful_retry_response|split; [apply (works_ok d), F|exact I]|].
  cbn [c_retry_response c_enc]. rewrite nesting_variant. pose proof (bundle_deep d work eow F). lia.
Qed.

Definition a_tag (t : tag) : Prop := match t with Runner r => (fst r < 2 ^ 32)%N /\ (snd r < 2 ^ 32)%N | _ => True end.
Lemma tags_deep l : nesting (c_enc (c_vec c_tag) l) <= 3.
Proof.
  cbn [c_vec c_enc]. apply arr_deep. apply Forall_forall. intros x X. apply in_map_iff in X. destruct X as (t & <- & _).
  destruct t as [r| |]; [|simpl; lia..]. cbn [c_tag c_enc]. rewrite nesting_variant. apply le_n_S. apply arr_deep.
  repeat constructor; rewrite flat_u32; lia.
Qed.
Transparent u32.
Lemma tag_ok t : a_tag t -> c_ok c_tag t.
Proof. destruct t; intro H; exact H. Qed.
Opaque u32.

Lemma view_arrives d work tags : d <= 121 -> Forall (fine d) work -> Forall a_tag tags -> arrives c_view {| vw_items := work; vw_assigned := tags |}.
Proof.
  intros D F T. apply text_round; [apply lawful_view|split; [apply (works_ok d), F|cbn [c_vec c_ok]; eapply Forall_impl; [|exact T]; intro; apply tag_ok]|].
  unfold c_view. cbn [c_struct c_enc]. apply (PeanoNat.Nat.le_lt_trans _ (5 + d)); [|lia]. apply obj_deep.
  cbn [both_parts as_record req p_slots fst snd app vw_items vw_assigned].
  constructor; [|constructor; [|constructor]]; unfold slot_le; cbn [snd if_some]; [apply works_deep, F|]. pose proof (tags_deep tags). lia.
Qed.

Lemma init_arrives m : c_ok c_meta m -> nesting (JObj m) <= 121 -> arrives c_init_response (InitContext m).
Proof.
  intros O D. apply text_round; [apply lawful_init_response|exact O|]. cbn [c_init_response c_enc]. rewrite nesting_variant.
  cbn [c_struct c_enc]. enough (nesting (obj (p_slots p_init m)) <= S (nesting (JObj m))) by lia. apply obj_deep.
  constructor; [|constructor]. unfold slot_le. cbn [snd if_some c_meta c_enc]. lia.
Qed.

Lemma text_is {A} (c : codec A) a : lawful c -> c_ok c a -> nesting (c_enc c a) < 128 -> read_json (to_text c a) = Some (c_enc c a).
Proof. intros [W R] O D. unfold to_text. apply read_json_write; [apply W, O|exact D]. Qed.

Lemma case_text i m f : c_ok c_meta m -> nesting (JObj m) <= 121 ->
  read_json (to_text c_case_message {| tc_id := i; tc_meta := m; tc_focus := f |}) =
  Some (match f with None => plain_case i (JObj m) | Some ids => focused_case i (JObj m) ids end).
Proof.
  intros O D. rewrite text_is.
  - destruct f; reflexivity.
  - apply lawful_case_message.
  - unfold c_case_message, c_test_case. cbn [c_struct c_ok as_record p_ok both_parts req opt fst snd tc_id tc_meta tc_focus].
    split; [exact I|]. split; [exact O|]. destruct f as [ids|]; [|exact I]. cbn [if_some c_focus c_struct c_ok req p_ok c_vec].
    apply Forall_forall. intros x _. exact I.
  - apply (PeanoNat.Nat.le_lt_trans _ (S (S (121)))); [|lia]. unfold c_case_message. cbn [c_struct c_enc]. apply obj_deep.
    constructor; [|constructor]. unfold slot_le. cbn [snd if_some]. unfold c_test_case. cbn [c_struct c_enc]. apply obj_deep.
    cbn [both_parts as_record req opt p_slots fst snd app tc_id tc_meta tc_focus].
    constructor; [|constructor; [|constructor; [|constructor]]]; unfold slot_le; cbn [snd if_some option_map]; [simpl; lia|exact D|].
    destruct f as [ids|]; cbn [option_map if_some]; [|exact I].
    enough (nesting (c_enc c_focus ids) <= 2) by lia. unfold c_focus. cbn [c_struct c_enc]. apply obj_deep. constructor; [|constructor].
    unfold slot_le. cbn [snd if_some c_vec c_enc]. apply arr_deep. apply Forall_forall. intros x X. apply in_map_iff in X. destruct X as (y & <- & _). simpl. lia.
Qed.

Lemma init_text m f : c_ok c_meta m -> nesting (JObj m) <= 121 ->
  read_json (to_text c_init_message (m, f)) = Some (init_object (JObj m) f).
Proof.
  intros O D. rewrite text_is; [reflexivity|apply lawful_init_message|split; [exact O|exact I]|].
  apply (PeanoNat.Nat.le_lt_trans _ 122); [|lia]. unfold c_init_message. cbn [c_struct c_enc]. apply obj_deep.
  constructor; [exact D|]. constructor; [unfold slot_le; cbn; lia|constructor].
Qed.

(* The tests that the queue makes of a manifest that it could read. *)
Lemma queued_tests ids (m : a_manifest) fuel : sizes (m_members m) < fuel -> (forall n, a_uuid (ids n)) -> c_ok c_manifest m ->
  nesting (c_enc c_manifest m) <= 122 ->
  exists l, flatten_manifest fuel (m_members m) = Some l /\
    Forall2 (fun t w => tc_id (wt_case w) = t_id t /\ tc_meta (wt_case w) = t_meta t /\ fine 119 w)
      (flat_map tests_of (m_members m)) (map (fun x => queued ids (fst x)) l).
Proof.
  intros S' U O D. destruct (C30_flatten (m_members m) fuel S') as (l & F & E & _ & FO). exists l. split; [exact F|].
  assert (E2 : map (fun x => (s_id (fst x), s_meta (fst x))) l = map (fun t => (t_id t, t_meta t)) (flat_map tests_of (m_members m))).
  { apply (f_equal (map fst)) in E. rewrite !map_map in E. unfold source, source_of in E. cbn [fst] in E.
    etransitivity; [exact E|]. clear. generalize 0.
    induction (m_members m) as [|n ms IH]; intros k; [reflexivity|]. cbn [numbered flat_map]. rewrite !map_app, map_map. f_equal. apply IH. }
  assert (G : forall t, In t (flat_map tests_of (m_members m)) -> c_ok c_meta (t_meta t) /\ nesting (JObj (t_meta t)) <= 119).
  { intros t T. split.
    - pose proof T as T'. apply in_flat_map in T. destruct T as (n & N & T). assert (O' : Forall node_ok (m_members m)) by exact (proj1 O). rewrite Forall_forall in O'.
      eapply node_tests_ok; [apply O', N|exact T].
    - pose proof (manifest_above m t T). lia. }
  clear -E2 G U FO. revert l E2 FO. generalize dependent (flat_map tests_of (m_members m)). intros ts G.
  induction ts as [|t ts IH]; intros [|x l] E2 FO; try discriminate; [constructor|]. cbn [map] in *. inversion FO as [|? ? FO1 FO2]; subst.
  assert (E3 : s_id (fst x) = t_id t /\ s_meta (fst x) = t_meta t) by (split; congruence). destruct E3 as (E3 & E4).
  constructor; [|apply IH; [intros; apply G; right; assumption|congruence|exact FO2]].
  destruct (G t ltac:(left; reflexivity)) as (G1 & G2). unfold queued. cbn [wt_case tc_id tc_meta]. split; [exact E3|]. split; [exact E4|].
  unfold fine. cbn [wt_work_id wt_case tc_meta tc_focus wt_run_number]. rewrite E4. split; [apply U|]. auto.
Qed.
