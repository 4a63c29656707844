From Verif Require Import Base JsonModel RunStateModel KeysModel KeysSpec KeysProofs StoreProps PersisterModel PersisterSpec.
From Coq Require Import String Ascii.
Local Open Scope string_scope.

Lemma split_no_comma w : ~ occurs "," w -> split_on "," w = [w].
Proof.
  induction w as [|c w IH]; simpl; auto. intros N. destruct (Ascii.eqb_spec c ","); [subst; tauto|].
  rewrite IH by tauto. reflexivity.
Qed.
Lemma split_comma w s : ~ occurs "," w -> split_on "," (w ++ "," ++ s) = (w :: split_on "," s)%list.
Proof.
  induction w as [|c w IH]; simpl; auto. intros N. destruct (Ascii.eqb_spec c ","); [subst; tauto|].
  simpl in IH. rewrite IH by tauto. reflexivity.
Qed.
Lemma split_delimited w ws : Forall (fun w => ~ occurs "," w) (w :: ws) -> split_on "," (comma_delimited (w :: ws)) = (w :: ws)%list.
Proof.
  revert w. induction ws as [|x ws IH]; intros w F; inversion F as [|? ? N F']; subst.
  - now apply split_no_comma.
  - change (comma_delimited (w :: x :: ws)) with (w ++ "," ++ comma_delimited (x :: ws)).
    rewrite split_comma by auto. now rewrite IH.
Qed.
Lemma split_never_empty c s : split_on c s <> [].
Proof. destruct s as [|d s]; simpl; [discriminate|]. destruct (Ascii.eqb d c); [discriminate|]. destruct (split_on c s); discriminate. Qed.
(* Splitting loses nothing. *)
Lemma split_delimits s : comma_delimited (split_on "," s) = s.
Proof.
  induction s as [|d s IH]; simpl; auto. pose proof (split_never_empty "," s) as N.
  destruct (Ascii.eqb_spec d ",") as [->|].
  - destruct (split_on "," s) as [|x l]; [congruence|]. simpl in *. now rewrite IH.
  - destruct (split_on "," s) as [|x l]; [congruence|]. simpl in *. destruct l; simpl in *; now rewrite <- IH.
Qed.
Lemma split_words s : Forall (fun w => ~ occurs "," w) (split_on "," s).
Proof.
  induction s as [|d s IH]; simpl; [repeat constructor; simpl; tauto|].
  destruct (Ascii.eqb_spec d ",") as [->|]; [constructor; simpl; auto; tauto|].
  destruct (split_on "," s) as [|x l]; [repeat constructor; simpl; intuition congruence|].
  inversion IH; subst. constructor; auto. simpl. intuition congruence.
Qed.

Lemma file_type_kind k : file_type k = kind_str k.
Proof. now destruct k. Qed.
Section W.
Context {P : Type} (program : string -> list string -> world P -> ran P)
        (put : string -> string -> bytes -> P -> P * bool) (get : string -> string -> P -> P * got).
Context {E M H : Type} (enc_e : E -> json) (dec_e : json -> option E) (enc_m : M -> json) (dec_m : json -> option M)
        (enc_h : H -> json) (dec_h : json -> option H).
Notation keeps := (keeps program put get).
Notation reliable := (reliable program).
Notation do_op := (do_op program put get enc_e dec_e enc_m dec_m enc_h dec_h).
Notation do_ops := (do_ops program put get enc_e dec_e enc_m dec_m enc_h dec_h).
Notation call := (call program).
Notation store_from_disk := (store_from_disk program put).
Notation load_to_disk := (load_to_disk program get).
Notation store_run_state := (store_run_state program put enc_e enc_m enc_h).
Notation try_load_run_state := (try_load_run_state program get dec_e dec_m dec_h).
Notation interpret := (interpret dec_e dec_m dec_h).
Notation serialize := (serialize enc_e enc_m enc_h).
Implicit Type (w : world P) (view : @kept P).

Lemma put_same w path b : w_files (put_file w path b) path = b.
Proof. simpl. now rewrite String.eqb_refl. Qed.
Lemma put_other w path b q : q <> path -> w_files (put_file w path b) q = w_files w q.
Proof. simpl. intros N. now destruct (String.eqb_spec q path). Qed.

Lemma call_store command head view k r path w w' ok :
  does_as_documented program command head view -> call command head AStore k r path w = (w', ok) ->
  (forall q, w_files w' q = w_files w q) /\ others_kept view k r (w_store w) (w_store w') /\
  (ok = true -> exists b, w_files w path = Some b /\ view (w_store w') k r = Some b).
Proof.
  intros D. unfold PersisterModel.call. destruct (program _ _ _) as [|o s f] eqn:R; intros [= <- <-].
  - split; [auto|]. split; [red; auto|discriminate].
  - simpl action_text in R. rewrite <- file_type_kind in R. exact (on_store _ _ _ _ D _ _ _ _ _ _ _ R).
Qed.
Lemma call_load command head view k r path w w' ok :
  does_as_documented program command head view -> call command head ALoad k r path w = (w', ok) ->
  (forall q, q <> path -> w_files w' q = w_files w q) /\ (forall k' r', view (w_store w') k' r' = view (w_store w) k' r') /\
  (ok = true -> exists b, view (w_store w) k r = Some b /\ w_files w' path = Some b).
Proof.
  intros D. unfold PersisterModel.call. destruct (program _ _ _) as [|o s f] eqn:R; intros [= <- <-].
  - split; [auto|]. split; [auto|discriminate].
  - simpl action_text in R. rewrite <- file_type_kind in R. exact (on_load _ _ _ _ D _ _ _ _ _ _ _ R).
Qed.
Lemma key_inj prefix k r k' r' : build_key prefix k r = build_key prefix k' r' -> (k, r) = (k', r').
Proof. intros E0. apply C24_keys_differ in E0. destruct E0; congruence. Qed.

Lemma store_file_ok p view k r path w w' ok : keeps p view -> store_from_disk p k r path w = (w', ok) ->
  (forall q, w_files w' q = w_files w q) /\ others_kept view k r (w_store w) (w_store w') /\
  (ok = true -> exists b, w_files w path = Some b /\ view (w_store w') k r = Some b).
Proof.
  destruct p as [|bucket prefix|command head]; simpl; [tauto| |now apply call_store].
  intros (object & B & V0). assert (V : forall s k r, view s k r = object s (build_key prefix k r)) by (intros ? k0 ?; rewrite V0; now destruct k0). destruct (w_files w path) as [b|]; [|intros [= <- <-]; split; [auto|split; [red; auto|discriminate]]].
  destruct (put bucket _ b (w_store w)) as [s o] eqn:R. intros [= <- <-]. apply (on_put _ _ _ _ B) in R as [R1 R2].
  split; [auto|]. split.
  - intros k' r' N. cbn [w_store]. rewrite !V. apply R1. intros E0. apply key_inj in E0. congruence.
  - intros Eo. exists b. split; auto. cbn [w_store]. rewrite V. auto.
Qed.
Lemma load_file_ok p view k r path w w' ok : keeps p view -> load_to_disk p k r path w = (w', ok) ->
  (forall q, q <> path -> w_files w' q = w_files w q) /\ (forall k' r', view (w_store w') k' r' = view (w_store w) k' r') /\
  (ok = true -> exists b, view (w_store w) k r = Some b /\ w_files w' path = Some b).
Proof.
  destruct p as [|bucket prefix|command head]; simpl; [tauto| |now apply call_load].
  intros (object & B & V0). assert (V : forall s k r, view s k r = object s (build_key prefix k r)) by (intros ? k0 ?; rewrite V0; now destruct k0). destruct (get bucket _ (w_store w)) as [s g] eqn:R. apply (on_get _ _ _ _ B) in R as [R1 R2].
  intros Er.
  assert (W : (forall q, q <> path -> w_files w' q = w_files w q) /\ w_store w' = s).
  { destruct g; injection Er as <- <-; split; auto; intros q N; now apply (put_other {| w_store := s; w_files := w_files w |}). }
  destruct W as [W1 W2]. split; [auto|]. split; [intros; rewrite W2, !V; apply R1|].
  intros ->. destruct g as [b|b| |]; try discriminate. injection Er as <-. exists b. split.
  - now rewrite V.
  - now rewrite put_same.
Qed.
Lemma store_state_ok p view r st t w w' ok : keeps p view -> store_run_state p r st t w = (w', ok) ->
  (forall q, w_files w' q = w_files w q) /\ others_kept view KRunState r (w_store w) (w_store w') /\
  (ok = true -> view (w_store w') KRunState r = Some (serialize st)).
Proof.
  destruct p as [|bucket prefix|command head]; simpl; [tauto| |].
  - intros (object & B & V0). assert (V : forall s k r, view s k r = object s (build_key prefix k r)) by (intros ? k0 ?; rewrite V0; now destruct k0). destruct (put bucket _ _ (w_store w)) as [s o] eqn:R. intros [= <- <-].
    apply (on_put _ _ _ _ B) in R as [R1 R2]. split; [auto|]. split.
    + intros k' r' N. cbn [w_store]. rewrite !V. apply R1. intros E0. apply key_inj in E0. congruence.
    + intros Eo. cbn [w_store]. rewrite V. auto.
  - intros D. unfold with_temp. destruct t as [|path]; [intros [= <- <-]; split; [auto|split; [red; auto|discriminate]]|].
    destruct (w_files w path) as [x|] eqn:F; [intros [= <- <-]; split; [auto|split; [red; auto|discriminate]]|].
    destruct (call _ _ _ _ _ _ _) as [w1 o] eqn:C. intros [= <- <-]. apply (call_store _ _ _ _ _ _ _ _ _ D) in C as (C1 & C2 & C3).
    split; [|split].
    + intros q. destruct (String.eqb_spec q path) as [->|N]; [now rewrite put_same|].
      rewrite !put_other by auto. rewrite C1. rewrite !put_other by auto. reflexivity.
    + exact C2.
    + intros Eo. destruct (C3 Eo) as (b & B1 & B2). rewrite put_same in B1. simpl. congruence.
Qed.
Lemma load_state_ok p view r t reopens w w' l : keeps p view -> try_load_run_state p r t reopens w = (w', l) ->
  (forall q, w_files w' q = w_files w q) /\ (forall k' r', view (w_store w') k' r' = view (w_store w) k' r') /\
  (l = LoadError \/ l = NotFound \/ exists b, view (w_store w) KRunState r = Some b /\ l = interpret b) /\
  (reliable p view -> l = NotFound -> view (w_store w) KRunState r = None).
Proof.
  destruct p as [|bucket prefix|command head]; simpl; [tauto| |].
  - intros (object & B & V0). assert (V : forall s k r, view s k r = object s (build_key prefix k r)) by (intros ? k0 ?; rewrite V0; now destruct k0). destruct (get bucket _ (w_store w)) as [s g] eqn:R. intros [= <- <-].
    apply (on_get _ _ _ _ B) in R as [R1 R2]. split; [auto|]. split; [intros; cbn [w_store]; rewrite !V; apply R1|].
    assert (V' : view (w_store w) KRunState r = object (w_store w) (build_key prefix KRunState r)) by apply V.
    destruct g as [b|b| |]; cbn [s3_try_load]; split; auto.
    + right. right. exists b. rewrite V'. split; [exact R2|unfold PersisterModel.interpret; reflexivity].
    + intros _. destruct (deserialize dec_e dec_m dec_h b) as [x|[f e|]]; discriminate.
    + discriminate.
    + intros _ _. now rewrite V'.
    + discriminate.
  - intros D. unfold with_temp. destruct t as [|path]; [intros [= <- <-]; repeat split; auto; discriminate|].
    destruct (w_files w path) as [x|] eqn:F; [intros [= <- <-]; repeat split; auto; discriminate|].
    destruct (call _ _ _ _ _ _ _) as [w1 o] eqn:C. intros [= <- <-]. pose proof (call_load _ _ _ _ _ _ _ _ _ D C) as (C1 & C2 & C3).
    split; [|split; [|split]].
    + intros q. destruct (String.eqb_spec q path) as [->|N]; [now rewrite put_same|].
      rewrite put_other by auto. rewrite C1 by auto. now rewrite put_other by auto.
    + exact C2.
    + destruct o; [|auto]. destruct (C3 eq_refl) as (b & B1 & B2). destruct reopens; [|auto].
      rewrite B2. right. right. exists b. auto.
    + intros Rl. destruct o.
      * destruct reopens; [|discriminate]. destruct (C3 eq_refl) as (b & B1 & B2). rewrite B2. unfold PersisterModel.interpret.
        destruct (deserialize dec_e dec_m dec_h b) as [y|[f e|]]; discriminate.
      * intros _. destruct (view (w_store w) KRunState r) eqn:Ev; [|reflexivity]. exfalso.
        destruct (Rl KRunState r path (put_file w path (Some []))) as (s & f & R).
        { cbn [w_store put_file]. congruence. }
        unfold PersisterModel.call in C. simpl file_type in R. simpl in C. rewrite R in C. discriminate.
Qed.

(* An operation that does not store this file of this run leaves what is kept of it. *)
Lemma op_keeps p view k r w o : keeps p view -> ~ stores k r o -> view (w_store (fst (do_op p w o))) k r = view (w_store w) k r.
Proof.
  intros K N. destruct o as [k' r' path|k' r' path|r' s t|r' t re|path b]; simpl.
  - destruct (store_from_disk p k' r' path w) as [w' ok] eqn:R. apply (store_file_ok _ _ _ _ _ _ _ _ K) in R as (_ & R & _). apply R.
    intros [= -> ->]. apply N. simpl. auto.
  - destruct (load_to_disk p k' r' path w) as [w' ok] eqn:R. apply (load_file_ok _ _ _ _ _ _ _ _ K) in R as (_ & R & _). apply R.
  - destruct (store_run_state p r' s t w) as [w' ok] eqn:R. apply (store_state_ok _ _ _ _ _ _ _ _ K) in R as (_ & R & _). apply R.
    intros [= -> ->]. apply N. simpl. auto.
  - destruct (try_load_run_state p r' t re w) as [w' ok] eqn:R. apply (load_state_ok _ _ _ _ _ _ _ _ K) in R as (_ & R & _). apply R.
  - reflexivity.
Qed.
Lemma ops_keep p view k r os w : keeps p view -> (forall o, In o os -> ~ stores k r o) ->
  view (w_store (do_ops p w os)) k r = view (w_store w) k r.
Proof.
  intros K. revert w. induction os as [|o os IH]; intros w N; [reflexivity|].
  change (do_ops p w (o :: os)) with (do_ops p (fst (do_op p w o)) os). rewrite IH by (intros; apply N; now right).
  apply op_keeps; auto. apply N. now left.
Qed.
End W.
