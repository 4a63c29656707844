(* C76: remote persistence. *)
From Verif Require Import Base JsonModel JsonProofs JsonlModel RunStateModel KeysModel KeysSpec KeysProofs StoreProps PersisterModel PersisterSpec PersisterProofs.
From Coq Require Import String Ascii.
Local Open Scope string_scope.

(* The strategies have the documented names, and there are no others. *)
Theorem C76_strategy_names t s :
  strategy_of t = Some s <-> t = "s3" /\ s = SS3 \/ t = "custom" /\ s = SCustom.
Proof.
  unfold strategy_of. destruct (String.eqb_spec t "s3") as [->|]; [split; [intros [= <-]; auto|intros [[_ ->]|[? _]]; [auto|discriminate]]|].
  destruct (String.eqb_spec t "custom") as [->|]; [split; [intros [= <-]; auto|intros [[? _]|[_ ->]]; [contradiction|auto]]|].
  split; [discriminate|]. intros [[? _]|[? _]]; contradiction.
Qed.

(* A queue that starts uses the place that was configured, in full; without a strategy, none.
   The text of a command is the comma-delimited form of the executable and its arguments. *)
Theorem C76_configured_place s3 c p :
  (resolve s3 c = inl p <->
     c_strategy c = None /\ p = PNoop \/
     c_strategy c = Some SS3 /\ s3 = true /\ (exists b k, c_bucket c = Some b /\ c_prefix c = Some k /\ p = PS3 b k) \/
     c_strategy c = Some SCustom /\ exists executable arguments, p = PCustom executable arguments /\
       c_command c = Some (comma_delimited (executable :: arguments)) /\
       Forall (fun w => ~ occurs "," w) (executable :: arguments)) /\
  resolve s3 c <> inr Panicked.
Proof.
  unfold resolve. destruct c as [st cmd bu pr]; cbn [c_strategy c_command c_bucket c_prefix]. destruct st as [[|]|].
  - destruct s3; [|split; [split; [discriminate|intros [[? _]|[[_ [? _]]|[? _]]]; discriminate]|discriminate]].
    split; [|unfold build_s3; destruct bu; [destruct pr|]; discriminate]. unfold build_s3. split.
    + destruct bu as [b|]; [|discriminate]. destruct pr as [k|]; [|discriminate]. intros [= <-]. right. left.
      repeat split. exists b, k. auto.
    + intros [[? _]|[(_ & _ & b & k & -> & -> & ->)|[? _]]]; try discriminate. reflexivity.
  - split.
    + unfold build_custom. split.
      * destruct cmd as [cmd|]; [|discriminate]. pose proof (split_words cmd) as W. pose proof (split_delimits cmd) as Dl.
        destruct (split_on "," cmd) as [|e a]; [discriminate|]. intros [= <-]. right. right. split; auto. exists e, a.
        rewrite Dl. auto.
      * intros [[? _]|[[? _]|(_ & e & a & -> & -> & F)]]; try discriminate. now rewrite split_delimited.
    + unfold build_custom. destruct cmd as [cmd|]; [|discriminate]. pose proof (split_never_empty "," cmd).
      destruct (split_on "," cmd); [congruence|discriminate].
  - split; [|discriminate]. split; [intros [= <-]; auto|]. intros [[_ ->]|[[? _]|[? _]]]; [reflexivity|discriminate|discriminate].
Qed.

(* Whatever is missing is named. *)
Theorem C76_missing_settings_are_named s3 c e :
  resolve s3 c = inr e <->
    c_strategy c = Some SS3 /\ s3 = false /\ e = NoS3Here \/
    c_strategy c = Some SS3 /\ s3 = true /\ c_bucket c = None /\ e = MissingArgument "ABQ_REMOTE_PERSISTENCE_S3_BUCKET" SS3 \/
    c_strategy c = Some SS3 /\ s3 = true /\ c_bucket c <> None /\ c_prefix c = None /\
      e = MissingArgument "ABQ_REMOTE_PERSISTENCE_S3_KEY_PREFIX" SS3 \/
    c_strategy c = Some SCustom /\ c_command c = None /\ e = MissingArgument "ABQ_REMOTE_PERSISTENCE_COMMAND" SCustom.
Proof.
  unfold resolve. destruct c as [st cmd bu pr]; cbn [c_strategy c_command c_bucket c_prefix]. destruct st as [[|]|].
  - destruct s3; unfold build_s3; [destruct bu as [b|]; [destruct pr as [k|]|]|];
      (split; [intros Eq; first [discriminate | injection Eq as <-; intuition (auto; discriminate)] | intuition (subst; auto; congruence)]).
  - unfold build_custom. destruct cmd as [cmd|].
    + pose proof (split_never_empty "," cmd). destruct (split_on "," cmd); [congruence|]. split; [discriminate|]. intuition discriminate.
    + split; [intros [= <-]; intuition auto|]. intuition (subst; auto; discriminate).
  - split; [discriminate|]. intuition discriminate.
Qed.

(* Directories that were configured are used. *)
Theorem C76_configured_directories d t : local_dir (Some d) t = Some d /\ local_dir None t = t.
Proof. now split. Qed.

Section W.
Context {P : Type} (program : string -> list string -> world P -> ran P)
        (put : string -> string -> bytes -> P -> P * bool) (get : string -> string -> P -> P * got).
Context {E M H : Type} (enc_e : E -> json) (dec_e : json -> option E) (enc_m : M -> json) (dec_m : json -> option M)
        (enc_h : H -> json) (dec_h : json -> option H).
Notation keeps := (keeps program put get).
Notation reliable := (reliable program).
Notation do_op := (do_op program put get enc_e dec_e enc_m dec_m enc_h dec_h).
Notation do_ops := (do_ops program put get enc_e dec_e enc_m dec_m enc_h dec_h).
Implicit Type (w : world P) (view : @kept P) (k : kind) (os : list (op E M H)).

Lemma do_ops_app p w os os' : do_ops p w (os ++ os') = do_ops p (do_ops p w os) os'.
Proof. apply fold_left_app. Qed.

(* The file of a run that was stored is the one that is loaded, whatever else is stored, loaded, or
   written locally in between, and whatever fails: until it is stored again. *)
Theorem C76_stored_is_loaded p view w os os' k r path path' b :
  keeps p view ->
  let w1 := do_ops p w os in
  w_files w1 path = Some b -> snd (do_op p w1 (OStoreFile k r path)) = Stored true ->
  (forall o, In o os' -> ~ stores k r o) ->
  let w2 := do_ops p w (os ++ [OStoreFile k r path] ++ os') in
  let '(w3, a) := do_op p w2 (OLoadFile k r path') in
  (a = LoadedFile true -> w_files w3 path' = Some b) /\
  (a = LoadedFile true \/ a = LoadedFile false) /\
  (forall executable arguments, p = PCustom executable arguments -> reliable p view -> a = LoadedFile true).
Proof.
  intros K w1 F A N w2. simpl in A. destruct (store_from_disk program put p k r path w1) as [wa ok] eqn:Sa. injection A as ->.
  pose proof (store_file_ok _ _ _ _ _ _ _ _ _ _ _ K Sa) as (_ & _ & S3). destruct (S3 eq_refl) as (b' & B1 & B2).
  assert (b' = b) as -> by congruence.
  assert (V : view (w_store w2) k r = Some b).
  { unfold w2. rewrite !do_ops_app. fold w1. rewrite (ops_keep _ _ _ _ _ _ _ _ _ _ _ k r os' _ K N).
    unfold PersisterModel.do_ops. cbn [fold_left]. unfold PersisterModel.do_op. rewrite Sa. exact B2. }
  simpl. destruct (load_to_disk program get p k r path' w2) as [w3 o] eqn:L.
  pose proof (load_file_ok _ _ _ _ _ _ _ _ _ _ _ K L) as (_ & _ & L3). split; [|split].
  - intros [= ->]. destruct (L3 eq_refl) as (b' & V' & F'). congruence.
  - destruct o; auto.
  - intros ex ar -> R. destruct (R k r path' w2) as (s & f & Q); [congruence|]. simpl in L. unfold call in L. simpl action_text in L.
    rewrite file_type_kind in Q. rewrite Q in L. injection L as _ <-. reflexivity.
Qed.

(* Nothing is made up: without a store of that file of that run, what is loaded is what was there. *)
Theorem C76_nothing_is_made_up p view w os k r path :
  keeps p view -> (forall o, In o os -> ~ stores k r o) ->
  let '(w', a) := do_op p (do_ops p w os) (OLoadFile k r path) in
  a = LoadedFile true -> exists b, view (w_store w) k r = Some b /\ w_files w' path = Some b.
Proof.
  intros K N. simpl. destruct (load_to_disk program get p k r path (do_ops p w os)) as [w3 o] eqn:L. intros [= ->].
  pose proof (load_file_ok _ _ _ _ _ _ _ _ _ _ _ K L) as (_ & _ & L3). destruct (L3 eq_refl) as (b & V & F). exists b.
  rewrite (ops_keep _ _ _ _ _ _ _ _ _ _ _ k r os _ K N) in V. auto.
Qed.

(* The state of a run that was stored is the one that is found, or an error is told, or (with an
   executable whose call failed) that there is none. *)
Theorem C76_run_state_is_found p view w os os' r s t t' reopens :
  keeps p view ->
  (forall x, dec_e (enc_e x) = Some x) -> (forall x, dec_m (enc_m x) = Some x) ->
  (forall x, dec_h (enc_h x) = Some x /\ enc_h x <> JNull) ->
  (- 2 ^ 31 <= rs_exit_code s < 2 ^ 31)%Z ->
  json_ok (serialized enc_e enc_m enc_h 1 s) -> nesting (serialized enc_e enc_m enc_h 1 s) < 128 ->
  snd (do_op p (do_ops p w os) (OStoreState r s t)) = Stored true ->
  (forall o, In o os' -> ~ stores KRunState r o) ->
  let a := snd (do_op p (do_ops p w (os ++ [OStoreState r s t] ++ os')) (OLoadState r t' reopens)) in
  a = State (Found s) \/ a = State LoadError \/
  a = State NotFound /\ ~ reliable p view.
Proof.
  intros K RE RM RH X OK Ne A N a. simpl in A. destruct (store_run_state program put enc_e enc_m enc_h p r s t (do_ops p w os)) as [wa ok] eqn:Sa.
  injection A as ->. pose proof (store_state_ok _ _ _ _ _ _ _ _ _ _ _ _ _ _ K Sa) as (_ & _ & S3). specialize (S3 eq_refl).
  unfold a. rewrite !do_ops_app. set (w2 := do_ops p _ os').
  assert (V : view (w_store w2) KRunState r = Some (serialize enc_e enc_m enc_h s)).
  { unfold w2. rewrite (ops_keep _ _ _ _ _ _ _ _ _ _ _ KRunState r os' _ K N).
    unfold PersisterModel.do_ops at 1. cbn [fold_left]. unfold PersisterModel.do_op. rewrite Sa. exact S3. }
  unfold PersisterModel.do_op. destruct (try_load_run_state program get dec_e dec_m dec_h p r t' reopens w2) as [w3 l] eqn:L.
  pose proof (load_state_ok _ _ _ _ _ _ _ _ _ _ _ _ _ _ K L) as (_ & _ & L3 & L4). cbn [snd].
  destruct L3 as [->|[->|(b & B & ->)]].
  - auto.
  - right. right. split; auto. intros R. specialize (L4 R eq_refl). congruence.
  - left. assert (b = serialize enc_e enc_m enc_h s) as -> by congruence.
    destruct (C25_round_trip enc_e dec_e enc_m dec_m enc_h dec_h 1 s RE RM RH) as [RT _]; auto; [reflexivity|].
    unfold interpret. unfold serialize. change current_schema_version with 1%N. rewrite RT. reflexivity.
Qed.

(* Full property: a run is said not to be there only if nothing is kept of it.  Proved for S3, and for
   executables whose "load" fails only when there is nothing; missing: the others (see below). *)
Theorem C76_not_found_means_not_kept_partial p view w r t reopens :
  keeps p view -> reliable p view ->
  snd (do_op p w (OLoadState r t reopens)) = State NotFound -> view (w_store w) KRunState r = None.
Proof.
  intros K R. simpl. destruct (try_load_run_state program get dec_e dec_m dec_h p r t reopens w) as [w3 l] eqn:L.
  pose proof (load_state_ok _ _ _ _ _ _ _ _ _ _ _ _ _ _ K L) as (_ & _ & _ & L4). intros [= ->]. auto.
Qed.

(* Local files: only the one that is loaded changes, and no temporary file stays. *)
Theorem C76_local_files_stay p view w o q :
  keeps p view ->
  match o with OLoadFile _ _ path | OLocal path _ => q <> path | _ => True end ->
  w_files (fst (do_op p w o)) q = w_files w q.
Proof.
  intros K. destruct o as [k r path|k r path|r s t|r t re|path b]; intros N; unfold PersisterModel.do_op.
  - destruct (store_from_disk program put p k r path w) as [w' ok] eqn:R. now apply (store_file_ok _ _ _ _ _ _ _ _ _ _ _ K R).
  - destruct (load_to_disk program get p k r path w) as [w' ok] eqn:R. now apply (load_file_ok _ _ _ _ _ _ _ _ _ _ _ K R).
  - destruct (store_run_state program put enc_e enc_m enc_h p r s t w) as [w' ok] eqn:R. now apply (store_state_ok _ _ _ _ _ _ _ _ _ _ _ _ _ _ K R).
  - destruct (try_load_run_state program get dec_e dec_m dec_h p r t re w) as [w' ok] eqn:R. now apply (load_state_ok _ _ _ _ _ _ _ _ _ _ _ _ _ _ K R).
  - now apply put_other.
Qed.

(* Without a strategy every store is said to be done, and nothing is ever found. *)
Theorem C76_without_a_strategy w o :
  do_op PNoop w o =
    match o with
    | OStoreFile _ _ _ | OStoreState _ _ _ => (w, Stored true)
    | OLoadFile _ _ _ => (w, LoadedFile false)
    | OLoadState _ _ _ => (w, State NotFound)
    | OLocal path b => (put_file w path b, Done)
    end.
Proof. now destruct o. Qed.
End W.

(* ---- an executable that does as documented, and one that is reliable ---- *)

Lemma type_inj k k' : file_type k = file_type k' -> k = k'.
Proof. destruct k, k'; simpl; congruence. Qed.
Lemma ex_documented command : does_as_documented ex_program command [] ex_view.
Proof.
  split; intros k r path [[kept script] f] ok s files; cbn [List.app ex_program w_store w_files].
  - assert (G : forall script', match f path with
        | None => Exited false (kept, script') f
        | Some b => Exited true (fun t q => if String.eqb t (file_type k) && String.eqb q r then Some b else kept t q, script') f
        end = Exited ok s files ->
      (forall q, files q = f q) /\ others_kept ex_view k r (kept, script) s /\
      (ok = true -> exists b, f path = Some b /\ ex_view s k r = Some b)).
    { intros script'. destruct (f path) as [b|]; intros Eq; injection Eq as <- <- <-; (split; [auto|]).
      - split.
        + intros k' r' N. unfold ex_view. simpl. destruct (String.eqb_spec (file_type k') (file_type k)) as [Ek|]; [|reflexivity].
          destruct (String.eqb_spec r' r) as [->|]; [apply type_inj in Ek; congruence|reflexivity].
        + intros _. exists b. split; auto. unfold ex_view. simpl. now rewrite !String.eqb_refl.
      - split; [red; auto|discriminate]. }
    destruct script as [|x script]; [exact (G [])|]. destruct x; [exact (G script)|].
    intros Eq. injection Eq as <- <- <-. split; [auto|split; [red; auto|discriminate]].
  - assert (G : forall script', match kept (file_type k) r with
        | None => Exited false (kept, script') f
        | Some b => Exited true (kept, script') (fun q => if String.eqb q path then Some b else f q)
        end = Exited ok s files ->
      (forall q, q <> path -> files q = f q) /\ (forall k' r', ex_view s k' r' = ex_view (kept, script) k' r') /\
      (ok = true -> exists b, ex_view (kept, script) k r = Some b /\ files path = Some b)).
    { intros script'. destruct (kept (file_type k) r) as [b|] eqn:F; intros Eq; injection Eq as <- <- <-.
      - split; [intros q N; now destruct (String.eqb_spec q path)|]. split; [auto|]. intros _. exists b.
        split; [exact F|now rewrite String.eqb_refl].
      - split; [auto|]. split; [auto|discriminate]. }
    destruct script as [|x script]; [exact (G [])|]. destruct x; [exact (G script)|].
    intros Eq. injection Eq as <- <- <-. split; [auto|split; [auto|discriminate]].
Qed.
(* The same without a script. *)
Lemma ex_steady_documented command : does_as_documented ex_steady command [] ex_view /\ fails_only_if_missing ex_steady command [] ex_view.
Proof.
  split.
  - destruct (ex_documented command) as [A B]. split; intros k r path w ok s files R.
    + exact (A k r path {| w_store := (fst (w_store w), []); w_files := w_files w |} ok s files R).
    + exact (B k r path {| w_store := (fst (w_store w), []); w_files := w_files w |} ok s files R).
  - intros k r path w N. unfold ex_steady, ex_view, ex_program in *. cbn in *. destruct (fst (w_store w) (file_type k) r); [|congruence]. do 2 eexists; reflexivity.
Qed.

Lemma ex_bucket bucket : is_a_bucket ex_put ex_get bucket (fun s => s).
Proof.
  split.
  - intros key b s s' ok [= <- <-]. split; [intros key' N; now destruct (String.eqb_spec key' key)|intros _; now rewrite String.eqb_refl].
  - intros key s s' g [= <- <-]. split; auto. destruct (s key) eqn:F; auto.
Qed.

Definition ex_files (path : string) : option bytes := if String.eqb path "/m.json" then Some [123; 125] else None.
Definition ex_id := fun j : json => j.
Definition ex_saved : run_state json json json :=
  {| rs_exit_code := 1; rs_metadata := JObj []; rs_workers := [JNum [52; 50]]; rs_hash := None |}.

(* The executable's call to load fails once: the run whose state was stored is said not to be there, and
   a queue that does not know it starts it over. *)
Theorem C76_not_found_means_not_kept_refuted :
  exists (program : string -> list string -> world ex_state -> ran ex_state) view command arguments (w : world ex_state) r s t,
    does_as_documented program command arguments view /\
    (let p := PCustom command arguments in let os := [OStoreState r s t; OLoadState r t true] in
     let w' := do_ops program (fun _ _ _ s => (s, false)) (fun _ _ s => (s, GetFailed)) ex_id (@Some _) ex_id (@Some _) ex_id (@Some _) p w os in
     ops_answers program (fun _ _ _ s => (s, false)) (fun _ _ s => (s, GetFailed)) ex_id (@Some _) ex_id (@Some _) ex_id (@Some _) p w os
       = [Stored true; State NotFound] /\
     view (w_store w') KRunState r <> None) /\
    forall (T M : Type) c (q : RunModel.find_params) now, RunModel.fp_batch q <> 0 ->
      RunModel.s_log (Base.run RunModel.step (RunModel.init_state (T := T) (M := M))
        [RunModel.EFind q; RunModel.EFindRemote 0 (@told json json json M c NotFound) now]) =
      [RunModel.OAssigned q (RunModel.AssignedRun (RunModel.Fresh true) false)].
Proof.
  exists ex_program, ex_view, "persist.sh", [], {| w_store := (fun _ _ => None, [true; false]); w_files := ex_files |}, "run-1", ex_saved, (TempAt "/tmp/x").
  split; [apply ex_documented|]. split.
  - vm_compute. split; [reflexivity|discriminate].
  - intros T M c q now N. unfold Base.run. simpl. destruct (Nat.eqb_spec (RunModel.fp_batch q) 0); [contradiction|]. reflexivity.
Qed.

(* ---- non-vacuity ---- *)

Example ex_config : resolve false {| c_strategy := strategy_of "custom"; c_command := Some "node,persist.js,--quiet"; c_bucket := None; c_prefix := None |}
    = inl (PCustom "node" ["persist.js"; "--quiet"]) /\
  resolve true {| c_strategy := strategy_of "s3"; c_command := None; c_bucket := Some "b"; c_prefix := Some "k" |} = inl (PS3 "b" "k") /\
  resolve true {| c_strategy := strategy_of "s3"; c_command := None; c_bucket := Some "b"; c_prefix := None |}
    = inr (MissingArgument "ABQ_REMOTE_PERSISTENCE_S3_KEY_PREFIX" SS3) /\
  resolve false {| c_strategy := None; c_command := None; c_bucket := None; c_prefix := None |} = inl PNoop.
Proof. repeat split. Qed.

Example ex_custom_history :
  ops_answers ex_program (fun _ _ _ s => (s, false)) (fun _ _ s => (s, GetFailed)) ex_id (@Some _) ex_id (@Some _) ex_id (@Some _)
    (PCustom "persist.sh" []) {| w_store := (fun _ _ => None, [true; true; false; true; true]); w_files := ex_files |}
    [OStoreFile KManifest "run-1" "/m.json"; OStoreState "run-1" ex_saved (TempAt "/tmp/x"); OStoreFile KResults "run-1" "/m.json";
     OLocal "/m.json" None; OLoadFile KManifest "run-1" "/m.json"; OLoadState "run-1" (TempAt "/tmp/y") true]
  = [Stored true; Stored true; Stored false; Done; LoadedFile true; State (Found ex_saved)].
Proof. vm_compute. reflexivity. Qed.

Example ex_s3_keeps : keeps (fun _ _ _ => NotSpawned) ex_put ex_get (PS3 "b" "pre") (fun s k r => s (build_key "pre" k r)) /\
  ops_answers (fun _ _ _ => NotSpawned) ex_put ex_get ex_id (@Some _) ex_id (@Some _) ex_id (@Some _)
    (PS3 "b" "pre") {| w_store := fun _ => None; w_files := ex_files |}
    [OLoadState "run-1" TempFails true; OStoreFile KManifest "run-1" "/m.json"; OStoreState "run-1" ex_saved TempFails; OLoadFile KManifest "run-1" "/n.json";
     OLoadState "run-1" TempFails true; OLoadFile KResults "run-1" "/n.json"]
  = [State NotFound; Stored true; Stored true; LoadedFile true; State (Found ex_saved); LoadedFile false].
Proof. split; [exists (fun s => s); split; [apply ex_bucket|intros s k r; now destruct k]|]. vm_compute. reflexivity. Qed.

Print Assumptions C76_strategy_names.
Print Assumptions C76_configured_place.
Print Assumptions C76_missing_settings_are_named.
Print Assumptions C76_configured_directories.
Print Assumptions C76_stored_is_loaded.
Print Assumptions C76_nothing_is_made_up.
Print Assumptions C76_run_state_is_found.
Print Assumptions C76_not_found_means_not_kept_partial.
Print Assumptions C76_local_files_stay.
Print Assumptions C76_without_a_strategy.
Print Assumptions C76_not_found_means_not_kept_refuted.
