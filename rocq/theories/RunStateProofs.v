From Verif Require Import Base JsonModel JsonProofs JsonlModel JsonlProofs RunStateModel RunStateSpec.
From Coq Require Import Decimal DecimalN DecimalPos DecimalFacts NArith String.
Local Open Scope N_scope.

Lemma text_uint_uint u : text_uint (uint_text u) = Some u.
Proof. induction u; simpl; rewrite ?IHu; reflexivity. Qed.

Lemma to_uint_nonnil n : N.to_uint n <> Nil.
Proof. destruct n; simpl; [discriminate|apply DecimalPos.Unsigned.to_uint_nonnil]. Qed.

Lemma text_nat_text n : text_nat (nat_text n) = Some n.
Proof.
  unfold text_nat, nat_text. rewrite text_uint_uint. simpl. rewrite DecimalN.Unsigned.of_to.
  destruct (uint_text (N.to_uint n)) eqn:E; auto.
  destruct (N.to_uint n) eqn:E2; try discriminate. now apply to_uint_nonnil in E2.
Qed.

Lemma uint_digits u : Forall (fun b => is_digit b = true) (uint_text u).
Proof. induction u; simpl; constructor; auto. Qed.

Lemma nat_text_start n : exists c t, nat_text n = c :: t /\ is_digit c = true /\ Forall (fun b => is_digit b = true) t.
Proof.
  unfold nat_text. pose proof (uint_digits (N.to_uint n)) as D.
  destruct (uint_text (N.to_uint n)) as [|c t] eqn:E.
  - destruct (N.to_uint n) eqn:E2; try discriminate. now apply to_uint_nonnil in E2.
  - inversion D; subst. eauto.
Qed.

Lemma digit_num b : is_digit b = true -> is_num b = true.
Proof. unfold is_num. now intros ->. Qed.

Lemma all_digits_skipped t : Forall (fun b => is_digit b = true) t -> skip_digits t = [].
Proof. induction 1 as [|c t C _ IH]; [reflexivity|]. cbn [skip_digits]. now rewrite C. Qed.
(* no leading zero *)
Lemma nat_text_zero n t : nat_text n = 48%nat :: t -> t = [].
Proof.
  unfold nat_text. intros H. destruct n as [|p]; [now injection H as <-|].
  assert (E : N.to_uint (N.pos p) = unorm (N.to_uint (N.pos p))) by (rewrite <- DecimalN.Unsigned.to_of, DecimalN.Unsigned.of_to; reflexivity).
  destruct (N.to_uint (N.pos p)) as [|u|u|u|u|u|u|u|u|u|u]; cbn [uint_text] in H; try discriminate. injection H as <-.
  unfold unorm in E. cbn [nzhead] in E. destruct (nzhead u) eqn:Z; try discriminate; [injection E as ->; reflexivity|].
  exfalso. exact (DecimalFacts.nzhead_nonzero u u0 Z).
Qed.
Lemma is_unsigned_nat n : is_unsigned (nat_text n) = true.
Proof.
  pose proof (nat_text_zero n) as Z. destruct (nat_text_start n) as (c & t & E & C & T). rewrite E in *. unfold is_unsigned.
  destruct (Nat.eqb_spec c 48) as [->|]; [now rewrite (Z t eq_refl)|]. unfold skip_digits1. rewrite C, (all_digits_skipped t T). reflexivity.
Qed.
Lemma num_ok_nat n : num_ok (nat_text n).
Proof.
  pose proof (is_unsigned_nat n) as U. destruct (nat_text_start n) as (c & t & E & C & T). rewrite E in *. split.
  - unfold is_number. destruct (Nat.eqb_spec c 45) as [->|]; [discriminate C|exact U].
  - exists c, t. split; auto. rewrite C. split; auto. eapply Forall_impl; [|exact T]. apply digit_num.
Qed.

Lemma num_ok_z z : num_ok (z_text z).
Proof.
  destruct z as [|p|p]; simpl; try apply num_ok_nat. split; [exact (is_unsigned_nat (N.pos p))|].
  exists 45%nat, (nat_text (N.pos p)). split; auto. split; auto.
  destruct (nat_text_start (N.pos p)) as (c & t & -> & C & T). constructor; [now apply digit_num|].
  eapply Forall_impl; [|exact T]. apply digit_num.
Qed.

Lemma text_z_text z : text_z (z_text z) = Some z.
Proof.
  assert (P : forall n, text_z (nat_text n) = Some (Z.of_N n)).
  { intros n. unfold text_z. destruct (nat_text_start n) as (c & t & E & C & _). pose proof (text_nat_text n) as X.
    rewrite E in X |- *. assert (N : c <> 45%nat) by (intros ->; discriminate).
    transitivity (option_map Z.of_N (text_nat (c :: t))); [|now rewrite X].
    clear - N. do 45 (destruct c as [|c]; [reflexivity|]). destruct c as [|c]; [congruence|reflexivity]. }
  destruct z as [|p|p]; cbn [z_text].
  - apply P.
  - rewrite P. reflexivity.
  - unfold text_z. rewrite text_nat_text. reflexivity.
Qed.

(* Field lookup in an object whose names are as written. *)
Lemma bytes_eqb_refl b : bytes_eqb b b = true.
Proof. unfold bytes_eqb. destruct (list_eq_dec Nat.eq_dec b b); congruence. Qed.

Section Codec.
Context {E M H : Type} (enc_e : E -> json) (dec_e : json -> option E) (enc_m : M -> json) (dec_m : json -> option M)
        (enc_h : H -> json) (dec_h : json -> option H).
Context (RE : forall x, dec_e (enc_e x) = Some x) (RM : forall x, dec_m (enc_m x) = Some x)
        (RH : forall x, dec_h (enc_h x) = Some x /\ enc_h x <> JNull).

Lemma parse_serialized v (s : run_state E M H) : v < 2 ^ 32 -> (- 2 ^ 31 <= rs_exit_code s < 2 ^ 31)%Z ->
  parse_inner dec_e dec_m dec_h (serialized enc_e enc_m enc_h v s) = Some (v, s).
Proof.
  intros V C. unfold serialized.
  assert (PV : forall ms, parse_version (JObj ((text "schema_version", JNum (nat_text v)) ::
    (text "new_worker_exit_code", JNum (z_text (rs_exit_code s))) :: (text "init_metadata", enc_m (rs_metadata s)) ::
    (text "seen_workers", JArr (map enc_e (rs_workers s))) :: ms)) =
    match filter (fun kv => bytes_eqb (fst kv) (text "schema_version")) ms with [] => Some v | _ => None end).
  { intros ms. unfold parse_version, field_of. cbn [filter fst].
    change (bytes_eqb (text "schema_version") (text "schema_version")) with true.
    change (bytes_eqb (text "new_worker_exit_code") (text "schema_version")) with false.
    change (bytes_eqb (text "init_metadata") (text "schema_version")) with false.
    change (bytes_eqb (text "seen_workers") (text "schema_version")) with false. cbn iota.
    destruct (filter _ ms); cbn [snd]; [|reflexivity]. unfold dec_u32. rewrite text_nat_text.
    destruct (N.ltb_spec v (2 ^ 32)); [auto|lia]. }
  cbn [List.app].
  unfold parse_inner. rewrite PV.
  assert (DC : dec_i32 (JNum (z_text (rs_exit_code s))) = Some (rs_exit_code s)).
  { unfold dec_i32. rewrite text_z_text. destruct (Z.leb_spec (- 2 ^ 31) (rs_exit_code s)); [|lia].
    destruct (Z.ltb_spec (rs_exit_code s) (2 ^ 31)); [auto|lia]. }
  assert (DW : parse_workers dec_e (JArr (map enc_e (rs_workers s))) = Some (rs_workers s)).
  { simpl. rewrite <- (map_id (rs_workers s)) at 2. apply all_some_map. auto. }
  assert (G : forall l, (l = [] \/ exists h, l = [(text "test_command_hash", enc_h h)]) ->
    filter (fun kv => bytes_eqb (fst kv) (text "schema_version")) l = [] /\
    filter (fun kv => bytes_eqb (fst kv) (text "new_worker_exit_code")) l = [] /\
    filter (fun kv => bytes_eqb (fst kv) (text "init_metadata")) l = [] /\
    filter (fun kv => bytes_eqb (fst kv) (text "seen_workers")) l = []).
  { intros l [->|[h ->]]; repeat split. }
  destruct (G (match rs_hash s with Some h => [(text "test_command_hash", enc_h h)] | None => [] end)) as (G1 & G2 & G3 & G4).
  { destruct (rs_hash s); eauto. }
  rewrite G1. unfold field_of. cbn [filter fst].
  repeat match goal with |- context [bytes_eqb (text ?a) (text ?b)] =>
    let r := eval vm_compute in (bytes_eqb (text a) (text b)) in change (bytes_eqb (text a) (text b)) with r end.
  cbn iota. rewrite G2, G3, G4. cbn [snd]. rewrite DC, RM, DW.
  destruct s as [c m w [h|]]; cbn [rs_hash filter fst snd rs_exit_code rs_metadata rs_workers]; [|reflexivity].
  change (bytes_eqb (text "test_command_hash") (text "test_command_hash")) with true. cbn iota. cbn [snd].
  destruct (RH h) as [Rh Nh]. rewrite Rh. destruct (enc_h h); congruence.
Qed.
End Codec.

Lemma field_of_one name ms j : field_of name ms = FOne j <-> member name ms j.
Proof.
  unfold field_of, member. split.
  - intros E0. destruct (filter _ ms) as [|kv [|]] eqn:F; try discriminate. injection E0 as <-.
    assert (In kv ms /\ bytes_eqb (fst kv) (text name) = true) as [I B].
    { apply (proj1 (filter_In (fun kv => bytes_eqb (fst kv) (text name)) kv ms)). rewrite F. now left. }
    apply in_split in I as (l1 & l2 & ->). exists l1, l2.
    unfold bytes_eqb in B at 1. destruct (list_eq_dec Nat.eq_dec (fst kv) (text name)) as [B'|]; [|discriminate].
    destruct kv as [k v]. simpl in *. subst k. split; auto.
    rewrite filter_app in F. simpl in F. rewrite bytes_eqb_refl in F.
    destruct (filter _ l1) as [|a f1] eqn:F1; [|destruct f1; discriminate].
    simpl in F. injection F as F2. intros kv Hkv Ekv.
    assert (HI : In kv (filter (fun kv => bytes_eqb (fst kv) (text name)) (l1 ++ l2))).
    { apply filter_In. split; auto. rewrite Ekv. apply bytes_eqb_refl. }
    rewrite filter_app, F1, F2 in HI. destruct HI.
  - intros (l1 & l2 & -> & N). rewrite filter_app. simpl. rewrite bytes_eqb_refl.
    assert (Z : forall l, (forall kv, In kv l -> fst kv <> text name) -> filter (fun kv : bytes * json => bytes_eqb (fst kv) (text name)) l = []).
    { clear. induction l as [|kv l IH]; intros N; simpl; auto. unfold bytes_eqb at 1.
      destruct (list_eq_dec Nat.eq_dec (fst kv) (text name)); [exfalso; eapply N; [left|]; eauto|]. apply IH. intros; apply N; now right. }
    rewrite !Z; [reflexivity|intros; apply N; apply in_app_iff; auto..].
Qed.

Lemma field_of_missing name ms : field_of name ms = FMissing <-> no_member name ms.
Proof.
  unfold field_of, no_member. split.
  - intros E0 kv I Ekv. destruct (filter _ ms) as [|x [|]] eqn:F; try discriminate.
    assert (HI : In kv (filter (fun kv => bytes_eqb (fst kv) (text name)) ms)).
    { apply filter_In. split; auto. rewrite Ekv. apply bytes_eqb_refl. }
    rewrite F in HI. destruct HI.
  - intros N. replace (filter _ ms) with (@nil (bytes * json)); auto. symmetry.
    induction ms as [|kv l IH]; simpl; auto. unfold bytes_eqb at 1.
    destruct (list_eq_dec Nat.eq_dec (fst kv) (text name)); [exfalso; eapply N; [left|]; eauto|]. apply IH. intros; apply N; now right.
Qed.


Lemma parse_version_iff j n : parse_version j = Some n <-> exists ms v, j = JObj ms /\ member "schema_version" ms v /\ dec_u32 v = Some n.
Proof.
  split.
  - destruct j as [| | | | |ms]; try discriminate. cbn [parse_version].
    destruct (field_of "schema_version" ms) as [|v|] eqn:F; try discriminate.
    intros D. exists ms, v. apply field_of_one in F. auto.
  - intros (ms & v & -> & Mb & D). apply field_of_one in Mb. cbn [parse_version]. rewrite Mb. exact D.
Qed.

Lemma deserialize_other {E M H} (dec_e : json -> option E) (dec_m : json -> option M) (dec_h : json -> option H) b :
  (forall s, deserialize dec_e dec_m dec_h b <> inl s) ->
  deserialize dec_e dec_m dec_h b =
    match (match read_json b with Some j => parse_version j | None => None end) with
    | None => inr OtherError
    | Some v => if N.eqb v 1 then inr OtherError else inr (IncompatibleSchemaVersion v 1)
    end.
Proof.
  unfold deserialize. intros NS.
  destruct (match read_json b with Some j => parse_inner dec_e dec_m dec_h j | None => None end) as [[v s]|]; auto.
  now destruct (NS s).
Qed.
