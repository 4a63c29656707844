From Verif Require Import Base JsonModel JsonProofs WireModel WireSpec.
From Coq Require Import ZifyBool.

Section Ints.
Local Open Scope Z_scope.
Lemma as_i32_id n : - 2 ^ 31 <= n < 2 ^ 31 -> as_i32 n = n.
Proof. intros H. unfold as_i32. rewrite Z.mod_small; lia. Qed.

Lemma as_i32_mod n : as_i32 (n mod 2 ^ 32) = as_i32 n.
Proof. unfold as_i32. f_equal. rewrite Zplus_mod_idemp_l. reflexivity. Qed.

Lemma be_round n : from_be_bytes (to_be_bytes n) = as_i32 n.
Proof.
  unfold from_be_bytes, to_be_bytes. cbn [fold_left].
  assert (B : 0 <= n mod 2 ^ 32 < 2 ^ 32) by (apply Z.mod_pos_bound; lia).
  remember (n mod 2 ^ 32) as u eqn:Eu.
  assert (U : 0 <= u / 2 ^ 24) by (apply Z.div_pos; lia).
  rewrite !Z2Nat.id by (try apply Z.mod_pos_bound; lia).
  rewrite <- (as_i32_mod n), <- Eu. f_equal. clear Eu.
  clear U.
  replace (2 ^ 24) with (256 * 256 * 256) by reflexivity. replace (2 ^ 16) with (256 * 256) by reflexivity.
  change (2 ^ 8) with 256. rewrite <- !Z.div_div by lia.
  pose proof (Z.div_mod u 256 ltac:(lia)). pose proof (Z.div_mod (u / 256) 256 ltac:(lia)).
  pose proof (Z.div_mod (u / 256 / 256) 256 ltac:(lia)). lia.
Qed.

Lemma to_be_length n : length (to_be_bytes n) = 4%nat.
Proof. reflexivity. Qed.

Lemma read_size_header len c : (0 <= len < 2 ^ 31) -> (c = true -> 0 < len) ->
  read_size (size_header len c) = (Z.to_nat len, c).
Proof.
  intros L C. unfold read_size, size_header. rewrite as_i32_id by lia.
  rewrite be_round. destruct c.
  - specialize (C eq_refl). rewrite as_i32_id by lia. f_equal; [f_equal; lia|]. lia.
  - rewrite as_i32_id by lia. f_equal; [f_equal; lia|]. lia.
Qed.
End Ints.

Section P.
Context (gz_encode : bytes -> bytes) (gz_decode : bytes -> option bytes).
Hypothesis GZ : gz_ok gz_encode gz_decode.
Context (cl : bool).
Notation body := (body gz_encode cl).
Notation sendable := (sendable gz_encode cl).
Notation frame := (frame gz_encode cl).
Notation wire := (wire gz_encode cl).
Notation compressed m := (snd (write_message_bytes_help gz_encode cl m)).
Notation header m := (size_header (Z.of_nat (length (body m))) (compressed m)).

Lemma frame_eq m : frame m = header m ++ body m.
Proof. unfold frame, WireModel.frame, WireSpec.body. destruct (write_message_bytes_help gz_encode cl m); reflexivity. Qed.

Lemma header_length m : length (header m) = 4.
Proof. unfold size_header. apply to_be_length. Qed.

Lemma body_nonempty m : sendable m -> 0 < length (body m).
Proof.
  intros (J & _ & _). unfold WireSpec.body, write_message_bytes_help.
  destruct (_ && _); simpl.
  - destruct GZ as [_ N]. specialize (N (write m)). destruct (gz_encode (write m)); [congruence|simpl; lia].
  - destruct (write_start m J) as (c & t & -> & _). simpl. lia.
Qed.

Lemma read_header m : sendable m -> read_size (header m) = (length (body m), compressed m).
Proof.
  intros S. pose proof (body_nonempty m S). destruct S as (_ & _ & L).
  rewrite read_size_header by lia. f_equal. apply Nat2Z.id.
Qed.

Lemma parse_body m : sendable m -> parse gz_decode (compressed m) (body m) = Some m.
Proof.
  intros (J & N & _). unfold WireSpec.body, write_message_bytes_help, parse.
  destruct (_ && _); cbn [fst snd].
  - destruct GZ as [-> _]. now apply read_json_write.
  - now apply read_json_write.
Qed.

(* ---- lists ---- *)

Lemma chunk_le n cap s : chunk n cap s <= cap /\ chunk n cap s <= length s.
Proof. unfold chunk. lia. Qed.
Lemma chunk_pos n cap s : 0 < cap -> s <> [] -> 0 < chunk n cap s.
Proof. intros C S. unfold chunk. destruct s; [congruence|simpl length]. lia. Qed.

Lemma app_split {A} (a b c d : list A) : a ++ b = c ++ d -> length a <= length c -> exists e, c = a ++ e /\ b = e ++ d.
Proof.
  revert c. induction a as [|x a IH]; intros c H L; simpl in *; [eauto|].
  destruct c as [|y c]; simpl in *; [lia|]. injection H as -> H. destruct (IH c H) as (e & -> & ->); [lia|]. eauto.
Qed.

Lemma app_inj_len {A} (a b c d : list A) : a ++ b = c ++ d -> length a = length c -> a = c /\ b = d.
Proof.
  intros H L. destruct (app_split a b c d H) as (e & -> & ->); [lia|]. rewrite app_length in L.
  destruct e; [|simpl in L; lia]. now rewrite app_nil_r.
Qed.

Lemma store_prefix buf off b : off + length b <= length buf ->
  firstn (off + length b) (store_at buf off b) = firstn off buf ++ b.
Proof.
  intros H. unfold store_at. rewrite app_assoc.
  assert (L : length (firstn off buf ++ b) = off + length b) by (rewrite app_length, firstn_length; lia).
  rewrite <- L at 1. rewrite firstn_app, Nat.sub_diag, firstn_all. simpl. now rewrite app_nil_r.
Qed.

Lemma store_length buf off b : off + length b <= length buf -> length (store_at buf off b) = length buf.
Proof. intros H. unfold store_at. rewrite !app_length, firstn_length, skipn_length. lia. Qed.

(* ---- the asynchronous reader ---- *)

Notation wstep := (wstep gz_decode).

(* [part]: what has been read of the current message *)
Definition rd_ok (calling : bool) (part : bytes) (next : option json) (r : reader) : Prop :=
  match r_msg_size r with
  | None => r_read r = length part /\ length part < 4 /\ length (r_size_buf r) = 4 /\ firstn (r_read r) (r_size_buf r) = part /\
            r_msg_buf r = []
  | Some sz => exists m bpart, next = Some m /\ sz = (length (body m), compressed m) /\ part = header m ++ bpart /\
                 r_read r = length bpart /\ length bpart < length (body m) /\
                 length (r_msg_buf r) = length (body m) /\ firstn (r_read r) (r_msg_buf r) = bpart /\
                 length (r_size_buf r) = 4 /\ (calling = false -> bpart <> [])
  end.

Definition at_msg (msgs : list json) (k : nat) (part : bytes) (w : world) : Prop :=
  w_failed w = false /\ w_out w = delivered gz_encode cl (firstn k msgs) /\ k <= length msgs /\
  wire (skipn k msgs) = part ++ w_stream w /\
  rd_ok (w_calling w) part (nth_error msgs k) (w_reader w).

Lemma skipn_nth {A} (l : list A) k x : nth_error l k = Some x -> skipn k l = x :: skipn (S k) l.
Proof. revert k; induction l as [|a l IH]; intros [|k] H; simpl in *; try discriminate; [congruence|]. now apply IH. Qed.
Lemma firstn_nth {A} (l : list A) k x : nth_error l k = Some x -> firstn (S k) l = firstn k l ++ [x].
Proof. revert k; induction l as [|a l IH]; intros [|k] H; simpl in *; try discriminate; [congruence|]. f_equal. now apply IH. Qed.

Lemma at_msg_current msgs k part w : at_msg msgs k part w -> w_stream w <> [] ->
  exists m, nth_error msgs k = Some m.
Proof.
  intros (_ & _ & L & E & _) N. destruct (nth_error msgs k) eqn:F; eauto. exfalso.
  apply nth_error_None in F. rewrite skipn_all2 in E by lia. simpl in E. symmetry in E. apply app_eq_nil in E. tauto.
Qed.

Ltac wcbn := cbn [w_stream w_reader w_calling w_failed w_out r_msg_size r_read r_size_buf r_msg_buf length fst snd Nat.eqb List.app].

Lemma deliver_ok msgs k part w n : Forall sendable msgs -> at_msg msgs k part w -> w_calling w = true ->
  w_stream w <> [] -> 0 < n -> n <= room (w_reader w) -> n <= length (w_stream w) ->
  exists k' part', at_msg msgs k' part' (deliver gz_decode w n).
Proof.
  intros SD A C N P1 P2 P3. destruct (at_msg_current _ _ _ _ A N) as (m & Hm).
  assert (Sm : sendable m) by (rewrite Forall_forall in SD; apply SD; eapply nth_error_In; eauto).
  destruct A as (F & O & L & E & R). unfold at_msg.
  assert (Lm : k < length msgs) by (apply nth_error_Some; congruence).
  pose proof E as E0. rewrite (skipn_nth _ _ _ Hm) in E. unfold wire, WireSpec.wire in E. cbn [flat_map] in E. rewrite frame_eq in E.
  set (b := firstn n (w_stream w)) in *.
  assert (Lb : length b = n) by (unfold b; rewrite firstn_length; lia).
  assert (Es : w_stream w = b ++ skipn n (w_stream w)) by (symmetry; apply firstn_skipn).
  unfold deliver. fold b. unfold on_read, rd_ok in *. unfold room in P2.
  destruct (r_msg_size (w_reader w)) as [sz|] eqn:MS.
  - destruct R as (m' & bpart & Hm' & -> & -> & RD & Lt & LB & FB & LS & _).
    assert (m' = m) as -> by congruence. clear Hm'.
    cbn [fst snd]. rewrite Lb, RD.
    pose proof (store_length (r_msg_buf (w_reader w)) (length bpart) b) as SL.
    pose proof (store_prefix (r_msg_buf (w_reader w)) (length bpart) b) as SP.
    rewrite Lb in SL, SP. rewrite RD in FB, P2. rewrite FB in SP.
    specialize (SL ltac:(lia)). specialize (SP ltac:(lia)).
    rewrite <- !app_assoc in E. apply app_inv_head in E.
    destruct (app_split (bpart ++ b) (skipn n (w_stream w)) (body m) (flat_map frame (skipn (S k) msgs))) as (rest & EB & ES).
    { rewrite <- app_assoc, <- Es. symmetry. exact E. }
    { rewrite app_length, Lb. lia. }
    destruct (Nat.eqb_spec (length bpart + n) (length (body m))) as [Full|NF].
    + assert (rest = []) as ->.
      { apply (f_equal (@length _)) in EB. rewrite !app_length, Lb in EB. destruct rest; auto. simpl in EB. lia. }
      rewrite app_nil_r in EB.
      replace (store_at (r_msg_buf (w_reader w)) (length bpart) b) with (body m).
      2:{ rewrite EB. rewrite <- SP. rewrite Full, <- LB. rewrite <- SL. now rewrite firstn_all. }
      rewrite parse_body by auto. exists (S k), []. wcbn.
      split; auto. split.
      { rewrite O, (firstn_nth _ _ _ Hm). unfold delivered. rewrite map_app. reflexivity. }
      split; [lia|]. split; [rewrite ES; reflexivity|]. repeat split; auto; lia.
    + exists k, ((header m ++ bpart) ++ b). wcbn.
      split; auto. split; auto. split; [lia|]. split.
      { rewrite <- app_assoc, <- Es. exact E0. }
      unfold prime. wcbn.
      assert (B0 : Nat.eqb (length bpart + n) 0 = false) by (apply Nat.eqb_neq; lia). rewrite B0. wcbn.
      exists m, (bpart ++ b). split; auto. split; auto. split; [now rewrite <- app_assoc|].
      rewrite !app_length, Lb. split; auto. split; [lia|]. split; [congruence|].
      split; [exact SP|]. split; auto. discriminate.
  - destruct R as (RD & Lt & LS & FB & MB).
    rewrite Lb. assert (Nat.eqb n 0 = false) as -> by (apply Nat.eqb_neq; lia).
    pose proof (store_length (r_size_buf (w_reader w)) (r_read (w_reader w)) b) as SL.
    pose proof (store_prefix (r_size_buf (w_reader w)) (r_read (w_reader w)) b) as SP.
    rewrite Lb in SL, SP. rewrite FB in SP.
    specialize (SL ltac:(lia)). specialize (SP ltac:(lia)).
    destruct (app_split (part ++ b) (skipn n (w_stream w)) (header m) (body m ++ flat_map frame (skipn (S k) msgs))) as (rest & EB & ES).
    { rewrite <- app_assoc, <- Es. rewrite <- E, <- app_assoc. reflexivity. }
    { rewrite app_length, Lb, header_length. lia. }
    destruct (Nat.eqb_spec (r_read (w_reader w) + n) 4) as [Full|NF].
    + assert (rest = []) as ->.
      { apply (f_equal (@length _)) in EB. rewrite header_length, !app_length, Lb in EB. destruct rest; auto. simpl in EB. lia. }
      rewrite app_nil_r in EB. cbn in ES.
      replace (store_at (r_size_buf (w_reader w)) (r_read (w_reader w)) b) with (header m).
      2:{ rewrite EB. rewrite <- SP. rewrite Full, <- LS. rewrite <- SL. now rewrite firstn_all. }
      rewrite read_header by auto. exists k, (header m). wcbn.
      split; auto. split; auto. split; [lia|]. split.
      { rewrite E0, EB, <- app_assoc. f_equal. exact Es. }
      rewrite MB. unfold prime. wcbn. exists m, []. rewrite app_nil_r, repeat_length.
      pose proof (body_nonempty m Sm). repeat split; auto; discriminate.
    + exists k, (part ++ b). wcbn.
      split; auto. split; auto. split; [lia|]. split.
      { rewrite <- app_assoc, <- Es. exact E0. }
      unfold prime. wcbn. rewrite app_length, Lb. repeat split; try lia; auto; try congruence.
Qed.

Lemma prime_ok part next r : rd_ok false part next r -> rd_ok true part next (prime r).
Proof.
  unfold rd_ok, prime. destruct (r_msg_size r) as [[sz c]|] eqn:MS; [|now rewrite MS].
  cbn. intros (m & bp & H1 & H2 & H3 & H4 & H5 & H6 & H7 & H8 & H9).
  specialize (H9 eq_refl).
  assert (Nat.eqb (r_read r) 0 = false) as ->.
  { apply Nat.eqb_neq. rewrite H4. destruct bp; [congruence|simpl; lia]. }
  exists m, bp. repeat split; auto; discriminate.
Qed.

Lemma room_pos calling part next r : rd_ok calling part next r -> 0 < room r.
Proof.
  unfold rd_ok, room. destruct (r_msg_size r) as [sz|].
  - intros (m & bp & H1 & H2 & H3 & H4 & H5 & H6 & H7 & H8 & H9). lia.
  - intros (H1 & H2 & H3 & _). lia.
Qed.

Lemma at_msg_step msgs k part w e : Forall sendable msgs -> at_msg msgs k part w ->
  e <> Break -> e <> Expire -> ~ (e = Cancel /\ w_calling w = true /\ header_only w) ->
  exists k' part', at_msg msgs k' part' (wstep false w e).
Proof.
  intros S A NB NE NC. pose proof A as (F & O & L & E & R). unfold WireModel.wstep. rewrite F.
  destruct e as [| |n| |]; try congruence.
  - destruct (w_calling w) eqn:C; [eauto|]. exists k, part. unfold at_msg. cbn. repeat split; auto. now apply prime_ok.
  - destruct (w_calling w) eqn:C; [|eauto]. exists k, part. unfold at_msg. cbn. repeat split; auto.
    unfold rd_ok in *. destruct (r_msg_size (w_reader w)) as [sz|] eqn:MS; auto.
    destruct R as (m & bp & H1 & H2 & H3 & H4 & H5 & H6 & H7 & H8 & H9). exists m, bp. repeat split; auto.
    intros _ ->. apply NC. repeat split; auto. exists sz. auto.
  - destruct (w_calling w) eqn:C; [|eauto].
    assert (P : 0 < room (w_reader w)) by (eapply room_pos; eauto).
    assert (Nat.eqb (room (w_reader w)) 0 = false) as -> by (apply Nat.eqb_neq; lia).
    destruct (w_stream w) as [|c s] eqn:ES; [eauto|]. rewrite <- ES.
    assert (N : w_stream w <> []) by congruence.
    pose proof (chunk_le n (room (w_reader w)) (w_stream w)) as [? ?].
    pose proof (chunk_pos n (room (w_reader w)) (w_stream w) P N).
    eapply deliver_ok; eauto.
Qed.

Lemma at_msg_run msgs es : Forall sendable msgs -> forall k part w, at_msg msgs k part w ->
  undisturbed es -> no_cancel_at_header gz_decode false w es ->
  exists k' part', at_msg msgs k' part' (run (wstep false) w es).
Proof.
  intros S. induction es as [|e es IH]; intros k part w A U NC; cbn [run fold_left]; [eauto|].
  destruct NC as [N1 N2]. destruct (U e (or_introl eq_refl)) as [U1 U2].
  destruct (at_msg_step msgs k part w e S A U1 U2 N1) as (k1 & p1 & A1).
  apply (IH k1 p1 _ A1); auto. intros e' I. apply U. now right.
Qed.

Lemma at_msg_start msgs : at_msg msgs 0 [] (connect (wire msgs)).
Proof. unfold at_msg, connect. cbn. repeat split; auto; lia. Qed.

Lemma part_short msgs k part w : at_msg msgs k part w -> part = [] \/ exists m, nth_error msgs k = Some m /\ length part < length (frame m).
Proof.
  intros (F & O & L & E & R). unfold rd_ok in R. destruct (r_msg_size (w_reader w)) as [sz|].
  - destruct R as (m & bp & H1 & H2 & H3 & H4 & H5 & H6 & H7 & H8 & H9). right. exists m. split; auto.
    rewrite frame_eq, H3, !app_length. lia.
  - destruct R as (H1 & H2 & H3 & _). destruct (nth_error msgs k) as [m|] eqn:N.
    + right. exists m. split; auto. rewrite frame_eq, app_length, header_length. lia.
    + left. apply nth_error_None in N. rewrite skipn_all2 in E by lia. symmetry in E. now apply app_eq_nil in E as [-> _].
Qed.

(* ---- streams that end within a message ---- *)

Definition cut_ok (m : json) (p : bytes) (w : world) : Prop :=
  exists consumed, p = consumed ++ w_stream w /\
  ((w_failed w = true /\ exists e, w_out w = [Error e]) \/
   (w_failed w = false /\ w_out w = [] /\
    match r_msg_size (w_reader w) with
    | None => r_read (w_reader w) = length consumed /\ length consumed < 4 /\ length (r_size_buf (w_reader w)) = 4 /\
              firstn (length consumed) (r_size_buf (w_reader w)) = consumed
    | Some (size, _) => size = length (body m) /\ 4 <= length consumed /\ r_read (w_reader w) = length consumed - 4
    end)).

Lemma cut_deliver m p q w n : sendable m -> frame m = p ++ q -> q <> [] -> cut_ok m p w -> w_failed w = false ->
  n <= length (w_stream w) -> n <= room (w_reader w) ->
  cut_ok m p (deliver gz_decode w n).
Proof.
  intros SM EF NQ (co & EP & [(F & _)|(F & O & R)]) F' Ln Lr; [congruence|].
  set (b := firstn n (w_stream w)).
  assert (Lb : length b = n) by (unfold b; rewrite firstn_length; lia).
  assert (Es : w_stream w = b ++ skipn n (w_stream w)) by (symmetry; apply firstn_skipn).
  assert (LF : length co + length (w_stream w) + length q = 4 + length (body m)).
  { apply (f_equal (@length _)) in EF. rewrite frame_eq, EP, !app_length, header_length in EF. lia. }
  assert (LQ : 0 < length q) by (destruct q; [congruence|simpl; lia]).
  unfold deliver. fold b. unfold on_read. unfold room in Lr. destruct (r_msg_size (w_reader w)) as [[size c]|] eqn:MS.
  - destruct R as (-> & L4 & RD). rewrite Lb.
    assert (Nat.eqb (r_read (w_reader w) + n) (length (body m)) = false) as -> by (apply Nat.eqb_neq; lia).
    exists (co ++ b). wcbn. split; [rewrite <- app_assoc, <- Es; auto|]. right. split; auto. split; auto.
    unfold prime. wcbn. rewrite app_length, Lb. repeat split; lia.
  - destruct R as (RD & L4 & LS & FS). rewrite Lb. destruct (Nat.eqb_spec n 0) as [->|Np].
    + exists co. wcbn. split; [exact EP|]. left. split; auto. eexists. rewrite O. reflexivity.
    + pose proof (store_length (r_size_buf (w_reader w)) (r_read (w_reader w)) b) as SL.
      pose proof (store_prefix (r_size_buf (w_reader w)) (r_read (w_reader w)) b) as SP.
      rewrite Lb, RD in SL, SP. rewrite FS in SP. specialize (SL ltac:(lia)). specialize (SP ltac:(lia)). rewrite RD.
      exists (co ++ b). destruct (Nat.eqb_spec (length co + n) 4) as [Full|NF]; wcbn.
      * split; [rewrite <- app_assoc, <- Es; auto|]. right. split; auto. split; auto.
        assert (EH : co ++ b = header m).
        { eapply (app_inj_len (co ++ b) (skipn n (w_stream w) ++ q) (header m) (body m)).
          - rewrite <- frame_eq, EF, EP, !app_assoc. f_equal. rewrite <- app_assoc. f_equal. auto.
          - rewrite app_length, header_length. lia. }
        replace (store_at (r_size_buf (w_reader w)) (length co) b) with (header m).
        2:{ rewrite <- EH, <- SP. rewrite Full, <- LS. rewrite <- SL. now rewrite firstn_all. }
        rewrite read_header by auto. unfold prime. wcbn. rewrite app_length, Lb. repeat split; lia.
      * split; [rewrite <- app_assoc, <- Es; auto|]. right. split; auto. split; auto.
        unfold prime. wcbn. rewrite app_length, Lb. repeat split; try lia. exact SP.
Qed.

Lemma cut_step closed m p q w e : sendable m -> frame m = p ++ q -> q <> [] -> cut_ok m p w -> cut_ok m p (wstep closed w e).
Proof.
  intros SM EF NQ K. unfold WireModel.wstep. destruct (w_failed w) eqn:F; auto.
  assert (Kf : forall er, cut_ok m p (fail w er)).
  { intros er. destruct K as (co & EP & [(F1 & _)|(_ & O & _)]); [congruence|]. exists co. unfold fail. wcbn. split; auto. left.
    split; auto. rewrite O. eexists. reflexivity. }
  destruct e as [| |n| |].
  - destruct (w_calling w); auto. destruct K as (co & EP & [(F1 & _)|(_ & O & R)]); [congruence|].
    exists co. wcbn. split; auto. right. split; auto. split; auto. unfold prime.
    destruct (r_msg_size (w_reader w)) as [[size c]|] eqn:MS; wcbn; rewrite ?MS; auto.
  - destruct (w_calling w); auto. destruct K as (co & EP & [(F1 & _)|(_ & O & R)]); [congruence|].
    exists co. wcbn. split; auto.
  - destruct (w_calling w); auto. destruct (Nat.eqb_spec (room (w_reader w)) 0); [eapply cut_deliver; eauto; lia|].
    destruct (w_stream w) eqn:ES.
    + destruct closed; auto. eapply cut_deliver; eauto; lia.
    + rewrite <- ES. pose proof (chunk_le n (room (w_reader w)) (w_stream w)) as [? ?]. eapply cut_deliver; eauto.
  - destruct (w_calling w); auto. destruct (r_msg_size (w_reader w)); auto.
  - destruct (w_calling w); auto.
Qed.

Lemma cut_run closed m p q es : sendable m -> frame m = p ++ q -> q <> [] -> cut_ok m p (run (wstep closed) (connect p) es).
Proof.
  intros SM EF NQ. apply (run_invariant (wstep closed) (cut_ok m p)).
  - intros w e. now apply cut_step with (q := q).
  - exists []. cbn. split; auto. right. repeat split; auto; lia.
Qed.

(* ---- cancellation when only the header has been read ---- *)

Definition doubled (m : json) (s : bytes) (out : list answer) (w : world) : Prop :=
  (w_failed w = true /\ exists e, w_out w = out ++ [Error e]) \/
  (w_failed w = false /\ w_out w = out /\ r_msg_size (w_reader w) = Some (length (body m), false) /\
   exists consumed j, s = consumed ++ w_stream w /\ r_read (w_reader w) = length consumed /\
     r_msg_buf (w_reader w) = consumed ++ repeat 0 j /\ 2 * length (body m) <= length consumed + j).

Lemma skipn_repeat {A} (x : A) a n : skipn a (repeat x n) = repeat x (n - a).
Proof. revert n; induction a as [|a IH]; intros [|n]; simpl; auto. Qed.

Lemma read_json_zeros m j : json_ok m -> nesting m < 128 -> 0 < j -> read_json (write m ++ repeat 0 j) = None.
Proof.
  intros J N P. unfold read_json. rewrite read_write; auto; destruct j; try lia; simpl; auto.
Qed.

Lemma doubled_deliver m rest out w n : sendable m -> compressed m = false -> doubled m (body m ++ rest) out w -> w_failed w = false ->
  n <= length (w_stream w) -> n <= room (w_reader w) -> doubled m (body m ++ rest) out (deliver gz_decode w n).
Proof.
  intros SM NC [(F & _)|(F & O & MS & co & j & EP & RD & MB & LJ)] F' Ln Lr; [congruence|].
  set (b := firstn n (w_stream w)).
  assert (Lb : length b = n) by (unfold b; rewrite firstn_length; lia).
  assert (Es : w_stream w = b ++ skipn n (w_stream w)) by (symmetry; apply firstn_skipn).
  unfold room in Lr. rewrite MS, MB, RD, app_length, repeat_length in Lr.
  unfold deliver. fold b. unfold on_read. rewrite MS, Lb, RD.
  assert (ST : store_at (r_msg_buf (w_reader w)) (length co) b = (co ++ b) ++ repeat 0 (j - n)).
  { rewrite MB. unfold store_at. rewrite firstn_app, firstn_all, Nat.sub_diag. simpl. rewrite app_nil_r, <- app_assoc. f_equal. f_equal.
    rewrite skipn_app, skipn_all2 by lia. cbn [List.app]. rewrite skipn_repeat. f_equal. lia. }
  rewrite ST. pose proof (body_nonempty m SM) as PB.
  destruct (Nat.eqb_spec (length co + n) (length (body m))) as [Full|NF].
  - assert (EB : co ++ b = body m).
    { eapply (app_inj_len (co ++ b) (skipn n (w_stream w)) (body m) rest).
      - rewrite <- app_assoc, <- Es. auto.
      - rewrite app_length. lia. }
    rewrite EB. unfold parse. unfold WireSpec.body, write_message_bytes_help in *.
    destruct (_ && _); [discriminate|]. cbn [fst snd] in *.
    destruct SM as (J & NE & _). rewrite read_json_zeros; auto; [|lia].
    left. wcbn. rewrite O. eauto.
  - right. unfold prime. wcbn. split; auto. split; auto. split; auto.
    destruct (Nat.eqb_spec (length co + n) 0).
    + exists (co ++ b), (j - n + length (body m)). rewrite app_length, Lb.
      split; [rewrite <- app_assoc, <- Es; auto|]. split; auto. split; [rewrite <- app_assoc, repeat_app; auto|]. lia.
    + exists (co ++ b), (j - n). rewrite app_length, Lb.
      split; [rewrite <- app_assoc, <- Es; auto|]. split; auto. split; auto. lia.
Qed.

Lemma doubled_step closed m rest out w e : sendable m -> compressed m = false ->
  doubled m (body m ++ rest) out w -> doubled m (body m ++ rest) out (wstep closed w e).
Proof.
  intros SM NC K. unfold WireModel.wstep. destruct (w_failed w) eqn:F; auto.
  assert (Kf : forall er, doubled m (body m ++ rest) out (fail w er)).
  { intros er. destruct K as [(F1 & _)|(_ & O & _)]; [congruence|]. left. unfold fail. wcbn. rewrite O. eauto. }
  destruct e as [| |n| |].
  - destruct (w_calling w); auto. destruct K as [(F1 & _)|(_ & O & MS & co & j & EP & RD & MB & LJ)]; [congruence|].
    right. wcbn. split; auto. split; auto. unfold prime. rewrite MS. wcbn. split; auto. destruct (Nat.eqb_spec (r_read (w_reader w)) 0).
    + exists co, (j + length (body m)). rewrite MB, repeat_app, app_assoc. repeat split; auto. lia.
    + exists co, j. auto.
  - destruct (w_calling w); auto. destruct K as [(F1 & _)|(_ & O & R)]; [congruence|]. right. wcbn. auto.
  - destruct (w_calling w); auto. destruct (Nat.eqb_spec (room (w_reader w)) 0); [eapply doubled_deliver; eauto; lia|].
    destruct (w_stream w) eqn:ES.
    + destruct closed; auto. eapply doubled_deliver; eauto; lia.
    + rewrite <- ES. pose proof (chunk_le n (room (w_reader w)) (w_stream w)) as [? ?]. eapply doubled_deliver; eauto.
  - destruct (w_calling w); auto. destruct (r_msg_size (w_reader w)); auto.
  - destruct (w_calling w); auto.
Qed.

Lemma doubled_run closed m rest out es w : sendable m -> compressed m = false ->
  doubled m (body m ++ rest) out w -> doubled m (body m ++ rest) out (run (wstep closed) w es).
Proof. intros SM NC. apply (run_invariant (wstep closed)). intros. now apply doubled_step. Qed.

Lemma doubled_start closed m rest : sendable m -> compressed m = false ->
  doubled m (body m ++ rest) [] (run (wstep closed) (connect (frame m ++ rest)) [Call; Bytes 4; Cancel; Call]).
Proof.
  intros SM NC. right.
  assert (E1 : run (wstep closed) (connect (frame m ++ rest)) [Call; Bytes 4] =
    {| w_stream := body m ++ rest; w_reader := {| r_size_buf := header m; r_msg_size := Some (length (body m), false);
         r_msg_buf := repeat 0 (length (body m)); r_read := 0; r_expires := true |};
       w_calling := true; w_failed := false; w_out := [] |}).
  { unfold run. cbn [fold_left]. rewrite frame_eq.
    pose proof (header_length m) as HL. pose proof (read_header m SM) as RH. rewrite NC in RH.
    revert HL RH. rewrite NC. generalize (size_header (Z.of_nat (length (body m))) false). intros h HL RH.
    destruct h as [|a [|b [|c [|d [|]]]]]; try discriminate. clear HL.
    unfold WireModel.wstep at 2, connect. cbn [w_failed w_calling w_stream w_reader w_out].
    unfold WireModel.wstep. cbn -[body deliver]. unfold deliver, on_read, new_reader. wcbn. cbn [firstn skipn length Nat.add Nat.eqb repeat].
    change (store_at [0; 0; 0; 0] 0 [a; b; c; d]) with [a; b; c; d]. rewrite RH. unfold prime. wcbn. reflexivity. }
  change [Call; Bytes 4; Cancel; Call] with ([Call; Bytes 4] ++ [Cancel; Call]). rewrite run_app, E1.
  cbn -[body]. split; auto. split; auto. split; auto.
  exists [], (length (body m) + length (body m)). rewrite repeat_app. cbn -[body]. repeat split; lia.
Qed.

(* ---- the blocking reader ---- *)

Definition quiet (ts : list turn) : Prop := forall t, In t ts -> t <> Broken /\ t <> Elapsed.

Lemma answers_cons t ts : answers (t :: ts) = match t with Got _ => S (answers ts) | _ => answers ts end.
Proof. destruct t; reflexivity. Qed.

Lemma read_exact_enough closed timed ts : forall need got stream, need <= length stream ->
  match read_exact_help closed timed need got stream ts with
  | Done b s ts' => b = got ++ firstn need stream /\ s = skipn need stream /\ (exists used, ts = used ++ ts') /\
                    answers ts <= answers ts' + need
  | Failed e => ~ quiet ts
  | Waiting => answers ts < need
  end.
Proof.
  induction ts as [|t ts IH]; intros need got stream L; destruct need as [|need]; cbn [read_exact_help];
    try (cbn [firstn skipn]; rewrite app_nil_r; split; [reflexivity|split; [reflexivity|split; [now exists []|lia]]]); try (unfold answers; simpl; lia).
  assert (Q : forall t, quiet (t :: ts) -> quiet ts) by (intros t' Q x I; apply Q; now right).
  assert (Skip : forall t', (forall n, t' <> Got n) ->
    match read_exact_help closed timed (S need) got stream ts with
    | Done b s ts' => b = got ++ firstn (S need) stream /\ s = skipn (S need) stream /\ (exists used, t' :: ts = used ++ ts') /\
                      answers (t' :: ts) <= answers ts' + S need
    | Failed e => ~ quiet (t' :: ts)
    | Waiting => answers (t' :: ts) < S need
    end).
  { intros t' NG. assert (answers (t' :: ts) = answers ts) as -> by (rewrite answers_cons; destruct t'; auto; now destruct (NG n)).
    specialize (IH (S need) got stream L). destruct read_exact_help; auto.
    - destruct IH as (H1 & H2 & (u & ->) & H4). repeat split; auto. now exists (t' :: u).
    - intros X. apply IH. eauto. }
  destruct t as [n| | | |].
  - rewrite answers_cons. destruct stream as [|c stream]; [simpl in L; lia|].
    set (st := c :: stream) in *. pose proof (chunk_le n (S need) st) as [C1 C2].
    assert (C3 : 0 < chunk n (S need) st) by (apply chunk_pos; [lia|unfold st; discriminate]).
    set (k := chunk n (S need) st) in *.
    specialize (IH (S need - k) (got ++ firstn k st) (skipn k st)). rewrite skipn_length in IH. specialize (IH ltac:(lia)).
    destruct read_exact_help.
    + destruct IH as (H1 & H2 & (u & ->) & H4).
      replace (S need) with (k + (S need - k)) at 1 2 by lia.
      rewrite firstn_add, skipn_add, app_assoc. repeat split; auto; [now exists (Got n :: u)|lia].
    + intros X. apply IH. eauto.
    + lia.
  - apply Skip. discriminate.
  - apply Skip. discriminate.
  - intros X. destruct (X Broken (or_introl eq_refl)). congruence.
  - destruct timed; [|apply Skip; discriminate]. intros X. destruct (X Elapsed (or_introl eq_refl)). congruence.
Qed.

Lemma read_exact_short closed timed ts : forall need got stream, length stream < need ->
  match read_exact_help closed timed need got stream ts with
  | Done _ _ _ => False
  | Failed e => True
  | Waiting => closed = true -> answers ts <= length stream
  end.
Proof.
  induction ts as [|t ts IH]; intros need got stream L; destruct need as [|need]; cbn [read_exact_help]; try lia; try (unfold answers; simpl; lia).
  assert (Skip : forall t', (forall n, t' <> Got n) ->
    match read_exact_help closed timed (S need) got stream ts with
    | Done _ _ _ => False | Failed e => True | Waiting => closed = true -> answers (t' :: ts) <= length stream end).
  { intros t' NG. assert (answers (t' :: ts) = answers ts) as -> by (rewrite answers_cons; destruct t'; auto; now destruct (NG n)).
    apply IH. auto. }
  destruct t as [n| | | |]; try (apply Skip; discriminate); auto.
  - rewrite answers_cons. destruct stream as [|c stream].
    + destruct closed; auto. specialize (IH (S need) got [] L). destruct read_exact_help; auto. discriminate.
    + set (st := c :: stream) in *. pose proof (chunk_le n (S need) st) as [C1 C2].
      assert (C3 : 0 < chunk n (S need) st) by (apply chunk_pos; [lia|unfold st; discriminate]).
      set (k := chunk n (S need) st) in *.
      specialize (IH (S need - k) (got ++ firstn k st) (skipn k st)). rewrite skipn_length in IH. specialize (IH ltac:(lia)).
      destruct read_exact_help; auto. intros Cl. specialize (IH Cl). lia.
  - destruct timed; auto. apply Skip; discriminate.
Qed.

Lemma read_help_ok closed m rest ts : sendable m ->
  match read_help gz_decode closed (frame m ++ rest) ts with
  | Done m' s ts' => m' = m /\ s = rest /\ exists used, ts = used ++ ts'
  | Failed e => ~ quiet ts
  | Waiting => answers ts < length (frame m)
  end.
Proof.
  intros SM. unfold read_help. rewrite frame_eq.
  pose proof (read_exact_enough closed false ts 4 [] ((header m ++ body m) ++ rest)) as H1.
  assert (HL := header_length m).
  rewrite !app_length, HL in H1. specialize (H1 ltac:(lia)). rewrite <- app_assoc in *.
  destruct (read_exact_help closed false 4 [] (header m ++ body m ++ rest) ts) as [b1 s1 t1|e|]; auto.
  2:{ rewrite app_length. lia. }
  destruct H1 as (-> & -> & (u & ->) & A1). cbn [List.app].
  assert (F4 : firstn 4 (header m ++ body m ++ rest) = header m).
  { rewrite firstn_app, HL, firstn_all2, Nat.sub_diag by lia. now rewrite firstn_O, app_nil_r. }
  assert (S4 : skipn 4 (header m ++ body m ++ rest) = body m ++ rest).
  { rewrite skipn_app, HL, skipn_all2, Nat.sub_diag by lia. reflexivity. }
  rewrite F4, S4.
  rewrite read_header by auto.
  pose proof (read_exact_enough closed true t1 (length (body m)) [] (body m ++ rest)) as H2.
  rewrite app_length in H2. specialize (H2 ltac:(lia)).
  destruct (read_exact_help closed true (length (body m)) [] (body m ++ rest) t1) as [b2 s2 t2|e|].
  - destruct H2 as (-> & -> & (u2 & ->) & A2). cbn [List.app].
    rewrite firstn_app, Nat.sub_diag, firstn_all. simpl firstn. rewrite app_nil_r, parse_body by auto.
    rewrite skipn_app, Nat.sub_diag, skipn_all. split; auto. split; auto. exists (u ++ u2). now rewrite app_assoc.
  - intros Q. apply H2. intros t I. apply Q. apply in_or_app. now right.
  - rewrite app_length. lia.
Qed.

Lemma read_help_cut closed m p q ts : sendable m -> frame m = p ++ q -> q <> [] ->
  match read_help gz_decode closed p ts with
  | Done _ _ _ => False
  | Failed _ => True
  | Waiting => closed = true -> answers ts <= length p
  end.
Proof.
  intros SM EF NQ. unfold read_help.
  assert (LQ : 0 < length q) by (destruct q; [congruence|simpl; lia]).
  assert (LF : length p + length q = 4 + length (body m)).
  { apply (f_equal (@length _)) in EF. rewrite frame_eq, !app_length, header_length in EF. lia. }
  destruct (Nat.lt_ge_cases (length p) 4) as [LP|LP].
  - pose proof (read_exact_short closed false ts 4 [] p LP) as H1.
    destruct (read_exact_help closed false 4 [] p ts); auto; contradiction.
  - pose proof (read_exact_enough closed false ts 4 [] p LP) as H1.
    destruct (read_exact_help closed false 4 [] p ts) as [b1 s1 t1|e|]; auto; [|lia].
    destruct H1 as (-> & -> & (u & ->) & A1). cbn [List.app].
    assert (E4 : firstn 4 p = header m).
    { rewrite frame_eq in EF. rewrite <- (firstn_skipn 4 p), <- app_assoc in EF. symmetry in EF.
      apply app_inj_len in EF; [tauto|]. rewrite firstn_length, header_length. lia. }
    rewrite E4, read_header by auto.
    pose proof (read_exact_short closed true t1 (length (body m)) [] (skipn 4 p)) as H2.
    rewrite skipn_length in H2. specialize (H2 ltac:(lia)). destruct read_exact_help; try contradiction; auto.
    intros C. specialize (H2 C). lia.
Qed.

Lemma closed_grows m n : sendable m ->
  let w := run (wstep true) (connect (firstn 4 (frame m))) (Call :: Bytes 4 :: repeat (Bytes 1) n) in
  w_out w = [] /\ length (r_msg_buf (w_reader w)) = (n + 1) * length (body m).
Proof.
  intros SM. pose proof (body_nonempty m SM) as PB.
  assert (F4 : firstn 4 (frame m) = header m).
  { rewrite frame_eq, firstn_app, header_length, firstn_all2, Nat.sub_diag by (rewrite header_length; lia). now rewrite firstn_O, app_nil_r. }
  rewrite F4.
  assert (E1 : run (wstep true) (connect (header m)) [Call; Bytes 4] =
    {| w_stream := []; w_reader := {| r_size_buf := header m; r_msg_size := Some (length (body m), compressed m);
         r_msg_buf := repeat 0 (length (body m)); r_read := 0; r_expires := true |};
       w_calling := true; w_failed := false; w_out := [] |}).
  { unfold run. cbn [fold_left].
    pose proof (header_length m) as HL. pose proof (read_header m SM) as RH. revert HL RH. generalize (header m). intros h HL RH.
    destruct h as [|a [|b [|c [|d [|]]]]]; try discriminate. clear HL.
    unfold WireModel.wstep at 2, connect. cbn [w_failed w_calling w_stream w_reader w_out].
    unfold WireModel.wstep. cbn -[body deliver]. unfold deliver, on_read, new_reader. wcbn. cbn [firstn skipn length Nat.add Nat.eqb repeat].
    change (store_at [0; 0; 0; 0] 0 [a; b; c; d]) with [a; b; c; d]. rewrite RH. unfold prime. wcbn. reflexivity. }
  change (Call :: Bytes 4 :: repeat (Bytes 1) n) with ([Call; Bytes 4] ++ repeat (Bytes 1) n). rewrite run_app, E1.
  assert (G : forall n w, w_stream w = [] -> w_calling w = true -> w_failed w = false -> w_out w = [] ->
    r_msg_size (w_reader w) = Some (length (body m), compressed m) -> r_read (w_reader w) = 0 -> 0 < length (r_msg_buf (w_reader w)) ->
    w_out (run (wstep true) w (repeat (Bytes 1) n)) = [] /\
    length (r_msg_buf (w_reader (run (wstep true) w (repeat (Bytes 1) n)))) = length (r_msg_buf (w_reader w)) + n * length (body m)).
  { clear n. induction n as [|n IH]; intros w E C F O MS RD P; cbn [repeat run fold_left]; [split; auto; lia|].
    assert (W : wstep true w (Bytes 1) = {| w_stream := []; w_reader :=
       {| r_size_buf := r_size_buf (w_reader w); r_msg_size := Some (length (body m), compressed m);
          r_msg_buf := r_msg_buf (w_reader w) ++ repeat 0 (length (body m)); r_read := 0; r_expires := true |};
       w_calling := true; w_failed := false; w_out := [] |}).
    { unfold WireModel.wstep. rewrite F, C, E. unfold room. rewrite MS, RD.
      destruct (Nat.eqb_spec (length (r_msg_buf (w_reader w)) - 0) 0); [lia|].
      unfold deliver, on_read. rewrite E, MS, RD. cbn [firstn skipn length Nat.add].
      destruct (Nat.eqb_spec 0 (length (body m))); [lia|]. rewrite O. unfold prime. wcbn. rewrite <- MS. cbn [store_at firstn skipn List.app Nat.add length].
      unfold store_at. cbn [firstn skipn List.app Nat.add length]. reflexivity. }
    rewrite W. destruct (IH {| w_stream := []; w_reader :=
       {| r_size_buf := r_size_buf (w_reader w); r_msg_size := Some (length (body m), compressed m);
          r_msg_buf := r_msg_buf (w_reader w) ++ repeat 0 (length (body m)); r_read := 0; r_expires := true |};
       w_calling := true; w_failed := false; w_out := [] |}) as [I1 I2]; wcbn; auto.
    { rewrite app_length. lia. }
    split; [exact I1|]. unfold run in I2. rewrite I2. wcbn. rewrite app_length, repeat_length. lia. }
  edestruct (G n) as [G1 G2]; [..|split; [exact G1|rewrite G2; wcbn; rewrite repeat_length; lia]]; try reflexivity.
  { wcbn. rewrite repeat_length. lia. }
Qed.
End P.
