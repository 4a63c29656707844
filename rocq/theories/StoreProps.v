(* Property theorems about what is stored and under which name (C20, C24, C25). *)
From Verif Require Import Base OffloadModel ResultsFsModel ResultsFsSpec ResultsFsProofs
  JsonModel JsonProofs JsonlModel JsonlProofs JsonCut KeysModel KeysSpec KeysProofs RunStateModel RunStateSpec RunStateProofs.
From Coq Require Import String Ascii.

(* ---- C20 ---- *)

Section Lines.
Context {L : Type} (enc : L -> json) (dec : json -> option L).
(* [storable x]: its JSON has well-formed numbers, is nested less than 128 deep, and
   the derived decoder inverts the encoder. *)
Definition storable (x : L) : Prop := json_ok (enc x) /\ nesting (enc x) < 128 /\ dec (enc x) = Some x.

(* A packed batch is one line: it has a line break at its end, and nowhere else. *)
Theorem C20_one_line_per_batch x : json_ok (enc x) ->
  exists body, packed_line enc x = body ++ [10] /\ ~ In 10 body /\ ~ In 13 body.
Proof.
  intros H. exists (packed enc x). split; auto. pose proof (write_printable _ H) as P. rewrite Forall_forall in P.
  split; intros I; apply P in I; lia.
Qed.

(* Reading the lines and decoding them gives back the batches. *)
Theorem C20_round_trip ls : Forall storable ls ->
  exists raw, read_results_lines (flat_map (packed_line enc) ls) = Some raw /\ decode dec raw = Some ls.
Proof.
  intros H. exists (map (packed enc) ls). split.
  - apply read_lines_packed. eapply Forall_impl; [|exact H]. now intros x (? & _).
  - apply decode_packed. exact H.
Qed.

(* The same through into_jsonl_buffer, which joins lines as they were read. *)
Theorem C20_buffer_round_trip ls : Forall storable ls ->
  exists raw, read_results_lines (into_jsonl_buffer (map (packed enc) ls)) = Some raw /\ decode dec raw = Some ls.
Proof.
  intros H. destruct (C20_round_trip ls H) as (raw & R & D). exists raw. split; auto. rewrite <- R. f_equal. clear.
  unfold into_jsonl_buffer. induction ls as [|x ls IH]; simpl; auto. now rewrite IH.
Qed.

(* Each of the lines may end as the lines of Windows do: the same batches are read. *)
Theorem C20_line_ends ls (windows : L -> bool) : Forall storable ls ->
  exists raw, read_results_lines (flat_map (fun x => packed enc x ++ (if windows x then [13; 10] else [10])) ls) = Some raw /\
    decode dec raw = Some ls.
Proof.
  intros H. exists (map (packed enc) ls). split; [|apply decode_packed; exact H]. unfold read_results_lines.
  assert (E : lines (flat_map (fun x => packed enc x ++ (if windows x then [13; 10] else [10])) ls) = map (packed enc) ls).
  { unfold lines. induction H as [|x ls (OK & _) _ IH]; [reflexivity|]. cbn [flat_map map].
    pose proof (write_printable _ OK) as P. fold (packed enc x) in P. rewrite <- app_assoc. destruct (windows x); cbn [app].
    - assert (G : forall body acc rest, Forall (fun c => 32 <= c) body ->
                lines_from acc (body ++ 13 :: 10 :: rest) = rev (rev body ++ acc) :: lines_from [] rest).
      { clear. induction body as [|c body IHb]; intros acc rest F; [reflexivity|]. inversion F; subst. cbn [app lines_from].
        destruct (Nat.eqb_spec c 10); [lia|]. rewrite IHb by auto. cbn [rev]. now rewrite <- app_assoc. }
      rewrite G, app_nil_r, rev_involutive by exact P. now rewrite IH.
    - rewrite lines_from_app, app_nil_r, chomp_printable by exact P. now rewrite IH. }
  rewrite E. apply (all_some_map raw_value (packed enc) (packed enc)). rewrite Forall_forall in H. intros x I. now apply raw_value_write, H.
Qed.

(* A file whose last line break is missing is read in full. *)
Theorem C20_missing_last_break ls x : Forall storable (ls ++ [x]) -> (exists l, enc x = JObj l) ->
  exists raw, read_results_lines (flat_map (packed_line enc) ls ++ packed enc x) = Some raw /\ decode dec raw = Some (ls ++ [x]).
Proof.
  intros H O. exists (map (packed enc) (ls ++ [x])). split; [|now apply decode_packed].
  apply Forall_app in H as [H Hx]. inversion Hx as [|? ? (OK & _) _]; subst. clear Hx.
  unfold read_results_lines. rewrite map_app. cbn [map].
  induction H as [|y ls (OKy & _) _ IH]; simpl.
  - rewrite lines_one; [|now apply write_printable|destruct O as (l & O); unfold packed; rewrite O; discriminate].
    cbn [all_some]. unfold packed. now rewrite raw_value_write.
  - unfold packed_line at 1. rewrite <- !app_assoc. cbn [app]. rewrite lines_cons by now apply write_printable.
    cbn [all_some]. unfold packed at 1. rewrite raw_value_write by auto. fold (packed enc y).
    unfold read_results_lines in IH. now rewrite IH.
Qed.

(* A file cut off anywhere: if it is read at all, it gives the first batches, whole, and
   the cut was at the end of a line (its break may be missing).  Anywhere else the file is
   not read, and no batch is ever made up or shortened. *)
Theorem C20_cut_file ls n raw : Forall storable ls -> Forall (fun x => exists l, enc x = JObj l) ls ->
  let cut := firstn n (flat_map (packed_line enc) ls) in
  read_results_lines cut = Some raw ->
  exists k, decode dec raw = Some (firstn k ls) /\
    (cut = flat_map (packed_line enc) (firstn k ls) \/ cut ++ [10] = flat_map (packed_line enc) (firstn k ls)).
Proof.
  intros H O cut R. destruct (cut_lines enc ls) with (n := n) (raw := raw) as (k & -> & D); auto.
  - rewrite Forall_forall in *. intros x Hx. split; [apply (H x Hx)|apply (O x Hx)].
  - exists k. split; auto. apply decode_packed. rewrite <- (firstn_skipn k ls) in H. now apply Forall_app in H as [H _].
Qed.

(* Together with the persister: in a history of dumps of batches, whatever else
   happens (as in C19), what a read gives decodes to the dumped batches, in order. *)
Theorem C20_stored_results_decode noop st r es :
  reads noop st r [] -> (forall ev, In ev es -> clean noop r ev) ->
  (forall r' line l w, In (FDump r' line l w) es -> r' = r -> exists x, line = packed enc x /\ storable x) ->
  let st' := run (step noop) st es in
  exists os xs, fs_log st' = fs_log st ++ os /\
    filter (fun a => match a with ADumped r' _ => Nat.eqb r' r | _ => false end) os = map (fun x => ADumped r (packed enc x)) xs /\
    exists content raw, reads noop st' r content /\ read_results_lines content = Some raw /\ decode dec raw = Some xs.
Proof.
  intros R C D st'. apply reads_iff in R. destruct (holds_run noop es st r [] R C) as (os & E & H).
  assert (X : forall es st, (forall r' line l w, In (FDump r' line l w) es -> r' = r -> exists x, line = packed enc x /\ storable x) ->
    exists os, fs_log (run (step noop) st es) = fs_log st ++ os /\
      (forall line, In (ADumped r line) os -> exists x, line = packed enc x /\ storable x)).
  { clear. intros es. induction es as [|ev es IH]; intros st D; simpl.
    - exists []. rewrite app_nil_r. split; [auto|intros ? []].
    - destruct (IH (step noop st ev)) as (o2 & E2 & H2); [intros; eapply D; [right|]; eauto|].
      assert (Y : exists o1, fs_log (step noop st ev) = fs_log st ++ o1 /\ forall line, In (ADumped r line) o1 -> exists x, line = packed enc x /\ storable x).
      { destruct ev as [r0 l|r0 line l w|r0 l|r0 l s|r0 cf nw ac o|].
        1: { exists []. rewrite app_nil_r. split; [|intros ? []]. simpl. destruct (fs_cache st r0); auto.
             unfold load. destruct l as [|[|]]; simpl; auto; [destruct (fs_remote st r0)|]; simpl; auto; destruct noop; auto. }
        1: { assert (Z : exists o1, fs_log (step noop st (FDump r0 line l w)) = fs_log st ++ o1 /\
               (o1 = [] \/ o1 = [ADumped r0 line] \/ o1 = [ADumpFailed r0])).
             { simpl. unfold with_open. destruct (fs_cache st r0) as [[|]|]; simpl.
               - destruct w; simpl; eauto 10.
               - unfold load. destruct l as [|[|]]; [destruct (fs_remote st r0)|..]; simpl; try destruct noop; simpl; try (eexists; split; [reflexivity|now auto]);
                   destruct w; simpl; eexists; split; try reflexivity; auto.
               - exists []. rewrite app_nil_r. auto. }
             destruct Z as (o1 & EZ & HZ). exists o1. split; auto. intros line' HI.
             destruct HZ as [->|[->| ->]]; [destruct HI|destruct HI as [[= -> ->]|[]]|destruct HI as [?|[]]; discriminate].
             eapply D; [left; reflexivity|reflexivity]. }
        1: { simpl. unfold with_open. destruct (fs_cache st r0) as [[|]|]; simpl.
             - eexists; split; [reflexivity|]. intros ? [?|[]]; discriminate.
             - unfold load. destruct l as [|[|]]; [destruct (fs_remote st r0)|..]; simpl; try destruct noop; simpl;
                 (eexists; split; [reflexivity|]; intros ? [?|[]]; discriminate).
             - exists []. rewrite app_nil_r. split; [auto|intros ? []]. }
        1: { simpl. unfold with_open. destruct (fs_cache st r0) as [[|]|]; simpl.
             - destruct s as [|[|]]; simpl; try destruct noop; simpl; (eexists; split; [reflexivity|]; intros ? [?|[]]; discriminate).
             - unfold load. destruct l as [|[|]]; [destruct (fs_remote st r0)|..]; simpl; try destruct noop; simpl;
                 try (eexists; split; [reflexivity|]; intros ? [?|[]]; discriminate);
                 destruct s as [|[|]]; simpl; (eexists; split; [reflexivity|]; intros ? [?|[]]; discriminate).
             - exists []. rewrite app_nil_r. split; [auto|intros ? []]. }
        1: { simpl. destruct (fs_cache st r0) as [[|]|]; simpl; [destruct (file_eligible _ _ _ _) as [[|]|]; simpl; [destruct o as [| |[|]| |]; simpl; try destruct noop; simpl|..]|..];
               (eexists; split; [reflexivity|]; intros ? [?|[]]; discriminate). }
        exists []. rewrite app_nil_r. split; [auto|intros ? []]. }
      destruct Y as (o1 & E1 & H1). exists (o1 ++ o2). rewrite E2, E1, app_assoc. split; auto.
      intros line HI. apply in_app_iff in HI as [HI|HI]; auto. }
  destruct (X es st D) as (os' & E' & HX). unfold st' in *. rewrite E in E'. apply app_inv_head in E'. subst os'.
  assert (Q : exists xs, Forall storable xs /\ dumped r os = flat_map (packed_line enc) xs /\
    filter (fun a => match a with ADumped r' _ => Nat.eqb r' r | _ => false end) os = map (fun x => ADumped r (packed enc x)) xs).
  { clear - HX. induction os as [|a os IH]; [exists []; auto|].
    destruct IH as (xs & F & P & Q); [intros; apply HX; now right|].
    destruct a as [r' line| | | | | | |]; simpl; try (exists xs; auto; fail).
    destruct (Nat.eqb_spec r' r) as [->|]; [|exists xs; auto].
    destruct (HX line (or_introl eq_refl)) as (x & -> & Sx). exists (x :: xs). simpl. rewrite P, Q.
    split; [auto|]. split; [|auto]. unfold packed_line. now rewrite <- !app_assoc. }
  destruct Q as (xs & F & P & Q). exists os, xs. split; [auto|]. split; [auto|].
  destruct (C20_round_trip xs F) as (raw & R1 & R2). exists (dumped r os), raw. rewrite P at 2. split; [|auto].
  apply reads_iff. exact H.
Qed.
End Lines.

(* The nesting limit is no restriction for the queue: results come in requests that
   were themselves read as JSON, where they are nested deeper. *)
Theorem C20_queue_lines_are_storable request entity run_id rs :
  read_json request = Some (worker_result_json entity run_id rs) -> nesting (results_json rs) < 128.
Proof.
  intros H. apply read_json_nesting in H. unfold recursion_limit in H.
  assert (X : nesting (results_json rs) < nesting (worker_result_json entity run_id rs)); [|lia].
  unfold results_json, worker_result_json. cbn [nesting fold_right snd]. lia.
Qed.

(* Batches nested deeper would not be read back. *)
Theorem C20_deeper_lines_are_not_read : exists j raw, json_ok j /\
  read_results_lines (packed_line (fun x => x) j) = Some raw /\ decode (@Some json) raw = None.
Proof.
  exists (Nat.iter 128 (fun j => JArr [j]) JNull), [write (Nat.iter 128 (fun j => JArr [j]) JNull)].
  split; [vm_compute; tauto|]. split; vm_compute; reflexivity.
Qed.

Example C20_ex :
  let x := results_json [JObj [(text "display_name", JStr [34; 10; 92; 1; 255]); (text "runtime", JNum [49; 46; 53])]] in
  storable (fun j => j) (@Some json) x /\
  read_results_lines (flat_map (packed_line (fun j => j)) [x; results_json []]) = Some [write x; write (results_json [])] /\
  decode (@Some json) [write x; write (results_json [])] = Some [x; results_json []].
Proof.
  split; [|vm_compute; auto]. unfold storable. split; [|split; [vm_compute; lia|reflexivity]].
  simpl. repeat split. exists 49, [46; 53]. repeat split. repeat constructor.
Qed.

Example C20_cut_ex :
  let x := results_json [JObj [(text "display_name", JStr [34; 10; 92; 1; 255])]] in
  let file := flat_map (packed_line (fun j => j)) [x; x] in
  List.length file = 94 /\
  read_results_lines (firstn 47 file) = Some [write x] /\ read_results_lines (firstn 46 file) = Some [write x] /\
  read_results_lines (firstn 48 file) = None /\ read_results_lines (firstn 93 file) = Some [write x; write x].
Proof. vm_compute. auto. Qed.

(* ---- C24 ---- *)

Local Open Scope string_scope.

(* Under one prefix, keys of different runs or kinds differ, for all run ids. *)
Theorem C24_keys_differ prefix k r k' r' :
  build_key prefix k r = build_key prefix k' r' -> k = k' /\ r = r'.
Proof.
  rewrite !build_key_tail. intros H. pose proof (tails_differ _ _ _ _ H) as ->. split; auto.
  apply sapp_inv_r in H. apply sapp_inv_l in H. now injection H.
Qed.

(* Across prefixes, for run ids without slash. *)
Theorem C24_keys_differ_across_prefixes p k r p' k' r' : ~ occurs "/" r -> ~ occurs "/" r' ->
  build_key p k r = build_key p' k' r' -> p = p' /\ k = k' /\ r = r'.
Proof.
  intros N N'. rewrite !build_key_tail. intros H. pose proof (tails_differ _ _ _ _ H) as ->.
  apply sapp_inv_r in H. destruct (last_slash p p' r r' N N' H) as [-> ->]. auto.
Qed.

Theorem C24_slash_keys_across_prefixes_collide : exists p r p' r', (p, r) <> (p', r') /\
  build_key p KManifest r = build_key p' KManifest r'.
Proof. exists "a", "b/c", "a/b", "c". split; [congruence|reflexivity]. Qed.

(* Local files: for run ids without slash, they are directly in the root, different
   runs or kinds have different files, and the run id is recovered from the path
   (which the offload jobs rely on). *)
Theorem C24_local_paths root k r : ~ occurs "/" r ->
  (exists name, get_path k root r = root ++ "/" ++ name /\ ~ occurs "/" name) /\
  run_id_of_path k (get_path k root r) = Some r /\
  forall k' r', ~ occurs "/" r' -> get_path k root r = get_path k' root r' -> k = k' /\ r = r'.
Proof.
  intros N. split; [|split].
  - exists (r ++ suffix k). split; [now apply get_path_plain|now apply name_plain].
  - rewrite get_path_plain by auto. unfold run_id_of_path, file_name.
    rewrite file_name_root by now apply name_plain. apply strip_suffix_app.
  - intros k' r' N' H. rewrite !get_path_plain in H by auto. apply sapp_inv_l in H. injection H as H.
    pose proof (suffixes_differ _ _ _ _ H) as ->. apply sapp_inv_r in H. auto.
Qed.

(* With a slash, a run's file may lie outside the root, or be taken for another run's. *)
Theorem C24_slash_paths_go_astray :
  (exists root r, get_path LResults root r = "/etc/x.results.jsonl" /\ root = "/var/abq") /\
  (exists root r r', r <> r' /\ run_id_of_path LResults (get_path LResults root r) = Some r').
Proof.
  split; [exists "/var/abq", "/etc/x"; auto|]. exists "/var/abq", "a/b", "b". split; [congruence|reflexivity].
Qed.

Example C24_ex : build_key "bucket/prefix" KRunState "run-1" = "bucket/prefix/run-1/run_state.json" /\
  get_path LManifest "/var/abq" "run-1" = "/var/abq/run-1.manifest.json" /\ ~ occurs "/" "run-1".
Proof. repeat split. simpl. intuition discriminate. Qed.

(* ---- C25 ---- *)

Section States.
Context {E M H : Type} (enc_e : E -> json) (dec_e : json -> option E) (enc_m : M -> json) (dec_m : json -> option M)
        (enc_h : H -> json) (dec_h : json -> option H).

(* A stored run state is loaded as it was (also if it was stored under another
   version number but in the same shape). *)
Theorem C25_round_trip v (s : run_state E M H) :
  (forall x, dec_e (enc_e x) = Some x) -> (forall x, dec_m (enc_m x) = Some x) ->
  (forall x, dec_h (enc_h x) = Some x /\ enc_h x <> JNull) ->
  (v < 2 ^ 32)%N -> (- 2 ^ 31 <= rs_exit_code s < 2 ^ 31)%Z ->
  json_ok (serialized enc_e enc_m enc_h v s) -> nesting (serialized enc_e enc_m enc_h v s) < 128 ->
  deserialize dec_e dec_m dec_h (write (serialized enc_e enc_m enc_h v s)) = inl s /\
  serialize enc_e enc_m enc_h s = write (serialized enc_e enc_m enc_h 1 s).
Proof.
  intros RE RM RH V C OK N. split; auto. unfold deserialize. rewrite read_json_write by auto.
  rewrite (parse_serialized enc_e dec_e enc_m dec_m enc_h dec_h); auto.
Qed.

(* What is interpreted as a run state has every field of the current shape, once, with
   a valid value, which is what is loaded: nothing is made up. *)
Theorem C25_only_the_current_shape_is_interpreted b (s : run_state E M H) :
  deserialize dec_e dec_m dec_h b = inl s ->
  exists ms v c m w ws, read_json b = Some (JObj ms) /\
    member "schema_version" ms v /\ (exists n, dec_u32 v = Some n /\ n < 2 ^ 32)%N /\
    member "new_worker_exit_code" ms c /\ dec_i32 c = Some (rs_exit_code s) /\ (- 2 ^ 31 <= rs_exit_code s < 2 ^ 31)%Z /\
    member "init_metadata" ms m /\ dec_m m = Some (rs_metadata s) /\
    member "seen_workers" ms w /\ w = JArr ws /\ Forall2 (fun j e => dec_e j = Some e) ws (rs_workers s) /\
    ((no_member "test_command_hash" ms \/ member "test_command_hash" ms JNull) /\ rs_hash s = None \/
     exists h, member "test_command_hash" ms h /\ rs_hash s = dec_h h /\ dec_h h <> None).
Proof.
  unfold deserialize. destruct (read_json b) as [j|]; [|discriminate].
  destruct (parse_inner dec_e dec_m dec_h j) as [[v s']|] eqn:P.
  2:{ destruct (parse_version j); [destruct (N.eqb _ _)|]; discriminate. }
  intros [= ->]. unfold parse_inner in P. destruct j as [| | | | |ms]; try discriminate.
  destruct (parse_version (JObj ms)) as [v'|] eqn:PV; [|discriminate].
  destruct (field_of "new_worker_exit_code" ms) as [|c|] eqn:F1; try discriminate.
  destruct (field_of "init_metadata" ms) as [|m|] eqn:F2; try discriminate.
  destruct (field_of "seen_workers" ms) as [|w|] eqn:F3; try discriminate.
  destruct (dec_i32 c) as [c'|] eqn:D1; [|discriminate]. destruct (dec_m m) as [m'|] eqn:D2; [|discriminate].
  destruct (parse_workers dec_e w) as [w'|] eqn:D3; [|discriminate].
  unfold parse_version in PV. destruct (field_of "schema_version" ms) as [|vj|] eqn:F0; try discriminate.
  destruct w as [| | | |ws|]; try discriminate. simpl in D3.
  assert (W : Forall2 (fun j e => dec_e j = Some e) ws w').
  { clear - D3. revert w' D3. induction ws as [|x ws IH]; simpl; intros w' D; [injection D as <-; auto|].
    destruct (dec_e x) eqn:Ex; [|discriminate]. destruct (all_some dec_e ws) eqn:Es; [|discriminate].
    injection D as <-. auto. }
  exists ms, vj, c, m, (JArr ws), ws.
  assert (U : (exists n, dec_u32 vj = Some n /\ n < 2 ^ 32)%N).
  { destruct (dec_u32 vj) as [n|] eqn:DU; [|discriminate]. exists n. split; auto. unfold dec_u32 in DU. destruct vj as [| |tx| | |]; try discriminate.
    destruct (text_nat tx) as [n0|]; [|discriminate]. destruct (N.ltb_spec n0 (2 ^ 32)); congruence. }
  assert (I : (- 2 ^ 31 <= c' < 2 ^ 31)%Z).
  { unfold dec_i32 in D1. destruct c as [| |tx| | |]; try discriminate. destruct (text_z tx) as [z|]; [|discriminate].
    destruct (Z.leb_spec (- 2 ^ 31) z); [|discriminate]. destruct (Z.ltb_spec z (2 ^ 31)); [|discriminate]. cbn [andb] in D1. injection D1 as <-. lia. }
  assert (R : (rs_exit_code s = c' /\ rs_metadata s = m' /\ rs_workers s = w') /\
    ((no_member "test_command_hash" ms \/ member "test_command_hash" ms JNull) /\ rs_hash s = None \/
     exists h, member "test_command_hash" ms h /\ rs_hash s = dec_h h /\ dec_h h <> None)).
  { destruct (field_of "test_command_hash" ms) as [|h|] eqn:F4; try discriminate.
    - injection P as _ <-. simpl. split; auto. left. apply field_of_missing in F4. auto.
    - destruct h; try (injection P as _ <-; simpl; split; auto; left; apply field_of_one in F4; auto; fail).
      all: match type of P with context [dec_h ?h] => destruct (dec_h h) eqn:Dh; [|discriminate] end;
        injection P as _ <-; simpl; split; auto; right; eexists; rewrite <- field_of_one; split; [exact F4|]; rewrite Dh; split; [auto|discriminate]. }
  destruct R as [(-> & -> & ->) R]. apply field_of_one in F0, F1, F2, F3. repeat (split; [solve [auto | congruence]|]). exact R.
Qed.

(* A payload that is not of that shape and names another version is reported as such,
   with its version; one that names this version, or none, is an error. *)
Theorem C25_other_versions_are_reported b : (forall s, deserialize dec_e dec_m dec_h b <> inl s) ->
  forall n, deserialize dec_e dec_m dec_h b = inr (IncompatibleSchemaVersion n 1) <->
    (n <> 1%N /\ exists ms v, read_json b = Some (JObj ms) /\ member "schema_version" ms v /\ dec_u32 v = Some n).
Proof.
  intros NS n. rewrite (deserialize_other _ _ _ _ NS). clear NS. destruct (read_json b) as [j|].
  2:{ split; [discriminate|]. intros [_ (ms & v & ? & _)]. discriminate. }
  split.
  - destruct (parse_version j) as [v|] eqn:PV; [|discriminate].
    destruct (N.eqb_spec v 1) as [|NE]; [discriminate|]. intros [= <-]. split; auto.
    apply parse_version_iff in PV as (ms & vj & -> & Mb & D). exists ms, vj. auto.
  - intros [NE (ms & v & [= ->] & Mb & D)].
    assert (PV : parse_version (JObj ms) = Some n) by (apply parse_version_iff; eauto).
    rewrite PV. destruct (N.eqb_spec n 1) as [|_]; [contradiction|reflexivity].
Qed.

(* Loading: a missing object, a failed request and a stored state are told apart. *)
Theorem C25_loading_tells_what_happened g :
  match g with
  | GetNoSuchKey => s3_try_load dec_e dec_m dec_h g = NotFound
  | GetError => s3_try_load dec_e dec_m dec_h g = LoadError
  | GetOk b => s3_try_load dec_e dec_m dec_h g <> NotFound /\
      (forall s, s3_try_load dec_e dec_m dec_h g = Found s <-> deserialize dec_e dec_m dec_h b = inl s)
  end.
Proof.
  destruct g as [b| |]; auto. simpl. destruct (deserialize dec_e dec_m dec_h b) as [s|[f e|]]; split; try discriminate;
    intros s'; split; congruence.
Qed.
End States.

Example C25_ex :
  let s := {| rs_exit_code := (-3)%Z; rs_metadata := JObj [(text "k", JStr [7])]; rs_workers := [JNum [52; 50]]; rs_hash := Some (JStr [1; 2]) |} in
  let id := fun j : json => j in
  deserialize (@Some _) (@Some _) (@Some _) (serialize id id id s) = inl s /\
  deserialize (@Some _) (@Some json) (@Some json) (write (JObj [(text "schema_version", JNum (nat_text 16))])) =
    (inr (IncompatibleSchemaVersion 16 1) : run_state json json json + parse_error) /\
  deserialize (@Some _) (@Some json) (@Some json) (write (JObj [(text "schema_version", JNum (nat_text 1))])) =
    (inr OtherError : run_state json json json + parse_error).
Proof. split; [vm_compute; reflexivity|]. split; vm_compute; reflexivity. Qed.

Print Assumptions C20_one_line_per_batch.
Print Assumptions C20_line_ends.
Print Assumptions C20_round_trip.
Print Assumptions C20_buffer_round_trip.
Print Assumptions C20_missing_last_break.
Print Assumptions C20_cut_file.
Print Assumptions C20_stored_results_decode.
Print Assumptions C20_queue_lines_are_storable.
Print Assumptions C20_deeper_lines_are_not_read.
Print Assumptions C24_keys_differ.
Print Assumptions C24_keys_differ_across_prefixes.
Print Assumptions C24_slash_keys_across_prefixes_collide.
Print Assumptions C24_local_paths.
Print Assumptions C24_slash_paths_go_astray.
Print Assumptions C25_round_trip.
Print Assumptions C25_only_the_current_shape_is_interpreted.
Print Assumptions C25_other_versions_are_reported.
Print Assumptions C25_loading_tells_what_happened.
