(* Property theorems about framed messages (C26 - C29). *)
From Verif Require Import Base JsonModel JsonProofs JsonlModel WireModel WireSpec WireProofs.

Section Props.
Context (gz_encode : bytes -> bytes) (gz_decode : bytes -> option bytes) (compress_large : bool).
Notation frame := (frame gz_encode compress_large).
Notation wire := (wire gz_encode compress_large).
Notation sendable := (sendable gz_encode compress_large).
Notation body := (body gz_encode compress_large).
Notation delivered := (delivered gz_encode compress_large).
Notation wstep := (wstep gz_decode).

(* ---- C26 ---- *)

(* The blocking reader, given a connection that starts with the frame of a message:
   whatever the sizes in which the bytes arrive and the interruptions, it returns the
   message, having taken exactly the frame; it fails only if the transport does or the
   deadline passes; and it returns after at most as many answers of the transport as
   the frame has bytes. *)
Theorem C26_blocking_read closed m rest turns : gz_ok gz_encode gz_decode -> sendable m ->
  match read_help gz_decode closed (frame m ++ rest) turns with
  | Done m' left_over _ => m' = m /\ left_over = rest
  | Failed e => In Broken turns \/ In Elapsed turns
  | Waiting => answers turns < length (frame m)
  end.
Proof.
  intros GZ S. pose proof (read_help_ok gz_encode gz_decode GZ compress_large closed m rest turns S) as H.
  destruct read_help as [m' s ts'|e|]; [tauto| |auto].
  assert (X : forall ts, ~ quiet ts -> In Broken ts \/ In Elapsed ts).
  { clear. induction ts as [|t ts IH]; intros Q.
    - exfalso. apply Q. intros t [].
    - destruct t; try (simpl; tauto); (destruct IH; [|simpl; tauto|simpl; tauto]);
        intros Q'; apply Q; intros t [<-|I]; try (split; discriminate); now apply Q'. }
  now apply X.
Qed.

(* Any number of messages on one connection, read by the asynchronous reader in any
   pattern of calls, arrivals of bytes, and cancellations (other than those of C27):
   the calls return the messages in order, one each, and what is not yet read of the
   connection is the remaining frames, less the part of the current frame. *)
Theorem C26_messages_in_order msgs es : gz_ok gz_encode gz_decode -> Forall sendable msgs ->
  undisturbed es -> no_cancel_at_header gz_decode false (connect (wire msgs)) es ->
  let w := run (wstep false) (connect (wire msgs)) es in
  exists k part, w_out w = delivered (firstn k msgs) /\ k <= length msgs /\
    wire (skipn k msgs) = part ++ w_stream w /\
    (part = [] \/ exists m, nth_error msgs k = Some m /\ length part < length (frame m)).
Proof.
  intros GZ S U N w.
  destruct (at_msg_run gz_encode gz_decode GZ compress_large msgs es S 0 [] _ (at_msg_start _ _ _) U N) as (k & part & A).
  exists k, part. pose proof (part_short _ _ _ _ _ _ A). destruct A as (F & O & L & E & R). auto.
Qed.

(* When all bytes have been taken, all messages have been returned. *)
Theorem C26_all_messages msgs es : gz_ok gz_encode gz_decode -> Forall sendable msgs ->
  undisturbed es -> no_cancel_at_header gz_decode false (connect (wire msgs)) es ->
  let w := run (wstep false) (connect (wire msgs)) es in
  w_stream w = [] -> w_out w = delivered msgs.
Proof.
  intros GZ S U N w E.
  destruct (C26_messages_in_order msgs es GZ S U N) as (k & part & O & L & EW & P). fold w in O, EW.
  rewrite O. f_equal. rewrite E, app_nil_r in EW. 
  destruct P as [->|(m & Hm & LT)].
  - destruct (nth_error msgs k) as [m|] eqn:Hm.
    + rewrite (skipn_nth _ _ _ Hm) in EW. unfold WireSpec.wire in EW. cbn [flat_map] in EW. apply app_eq_nil in EW as [EW _].
      apply (f_equal (@length _)) in EW. rewrite frame_eq, app_length, header_length in EW. discriminate.
    + apply nth_error_None in Hm. apply firstn_all2. lia.
  - rewrite (skipn_nth _ _ _ Hm) in EW. unfold WireSpec.wire in EW. cbn [flat_map] in EW.
    apply (f_equal (@length _)) in EW. rewrite app_length in EW. lia.
Qed.

(* ---- C27 ---- *)

(* Cancelling a call and calling again loses nothing and repeats nothing, at every
   point but one: see C26_messages_in_order, whose histories contain cancellations.
   Here for one message, whatever comes after it on the connection. *)
Theorem C27_cancelled_reads_resume_partial m rest es : gz_ok gz_encode gz_decode -> Forall sendable (m :: rest) ->
  undisturbed es -> no_cancel_at_header gz_decode false (connect (wire (m :: rest))) es ->
  let w := run (wstep false) (connect (wire (m :: rest))) es in
  (w_out w = [] \/ exists out, w_out w = Message m (length (body m)) :: out) /\
  forall e, ~ In (Error e) (w_out w).
Proof.
  intros GZ S U N w. destruct (C26_messages_in_order (m :: rest) es GZ S U N) as (k & part & O & L & EW & P). fold w in O.
  rewrite O. split.
  - destruct k as [|k]; [left; reflexivity|right]. eexists. reflexivity.
  - intros e I. apply in_map_iff in I as (x & X & _). discriminate.
Qed.

(* The one point: the length of the message has been read, and nothing of what follows.
   An uncompressed message whose call is cancelled there is never delivered, whatever
   happens afterwards, although the connection works: no later call returns anything
   but an error. *)
Theorem C27_cancel_after_header_refuted closed m rest es : gz_ok gz_encode gz_decode -> sendable m ->
  snd (write_message_bytes_help gz_encode compress_large m) = false ->
  let w := run (wstep closed) (connect (frame m ++ rest)) ([Call; Bytes 4; Cancel; Call] ++ es) in
  w_out w = [] \/ exists e, w_out w = [Error e].
Proof.
  intros GZ S NC w. unfold w. rewrite run_app.
  pose proof (doubled_start gz_encode gz_decode GZ compress_large closed m rest S NC) as D.
  apply (doubled_run gz_encode gz_decode GZ compress_large closed m rest [] es) in D; auto.
  destruct D as [(_ & e & ->)|(_ & -> & _)]; [right; exists e; reflexivity|left; auto].
Qed.

(* Nothing is read, and nothing is answered, without a call: whatever the connection carries and whatever happens, there
   are at most as many answers as calls, and while no call is in progress neither arriving bytes nor a passing deadline
   nor a breaking connection changes anything. *)
Theorem C27_answers_need_calls closed stream es :
  let w := run (wstep closed) (connect stream) es in
  length (w_out w) <= length (filter (fun e => match e with Call => true | _ => false end) es) /\
  (w_calling w = false -> forall e, e <> Call -> wstep closed w e = w) /\
  (w_calling w = true -> length (w_out w) < length (filter (fun e => match e with Call => true | _ => false end) es)).
Proof.
  intros w.
  assert (A : forall v e, length (w_out (wstep closed v e)) + (if w_calling (wstep closed v e) then 1 else 0)
              <= length (w_out v) + (if w_calling v then 1 else 0) + (if match e with Call => true | _ => false end then 1 else 0)).
  { intros v e. unfold WireModel.wstep.
    assert (D : forall k, w_calling v = true ->
       length (w_out (deliver gz_decode v k)) + (if w_calling (deliver gz_decode v k) then 1 else 0) <= length (w_out v) + 1).
    { intros k C. unfold deliver. destruct (on_read gz_decode (w_reader v) (firstn k (w_stream v))) as [r [[m sz|er]|]]; cbn [w_out w_calling];
        rewrite ?app_length; cbn [length]; lia. }
    destruct (w_failed v); [lia|].
    destruct e; destruct (w_calling v) eqn:C; cbn [w_out w_calling]; rewrite ?C; try lia.
    - pose proof (D 0 eq_refl). pose proof (D (chunk n (room (w_reader v)) (w_stream v)) eq_refl).
      destruct (Nat.eqb (room (w_reader v)) 0); [lia|]. destruct (w_stream v) eqn:S; [destruct closed; [lia|rewrite C; lia]|rewrite <- S in *; lia].
    - destruct (r_msg_size (w_reader v)); [unfold fail; cbn [w_out w_calling]; rewrite app_length; cbn [length]; lia|rewrite C; lia].
    - unfold fail. cbn [w_out w_calling]. rewrite app_length. cbn [length]. lia. }
  assert (B : forall l v, length (w_out (run (wstep closed) v l)) + (if w_calling (run (wstep closed) v l) then 1 else 0)
              <= length (w_out v) + (if w_calling v then 1 else 0) + length (filter (fun e => match e with Call => true | _ => false end) l)).
  { induction l as [|e l IH]; intros v; [cbn; lia|]. cbn [run fold_left filter].
    specialize (IH (wstep closed v e)). specialize (A v e). unfold run in *. cbn [fold_left] in *.
    destruct e; cbn [length] in *; lia. }
  specialize (B es (connect stream)). cbn [connect w_out w_calling length] in B. fold w in B.
  split; [destruct (w_calling w); lia|]. split; [|intros C; rewrite C in B; lia].
  intros C e NE. unfold WireModel.wstep. rewrite C. destruct (w_failed w); [reflexivity|]. destruct e; congruence.
Qed.

(* ---- C28 ---- *)

(* A connection that carries only a part of a frame never yields a message, in any
   history; at most one error is reported. *)
Theorem C28_no_message_from_a_part closed m p q es : gz_ok gz_encode gz_decode -> sendable m ->
  frame m = p ++ q -> q <> [] ->
  let w := run (wstep closed) (connect p) es in w_out w = [] \/ exists e, w_out w = [Error e].
Proof.
  intros GZ S E N w. pose proof (cut_run gz_encode gz_decode GZ compress_large closed m p q es S E N) as (co & EP & [(F & e & O)|(F & O & R)]).
  - right. exists e. exact O.
  - left. exact O.
Qed.

(* Neither does the blocking reader return one; and when the peer has closed the
   connection it returns an error after at most one answer of the transport more than
   there are bytes. *)
Theorem C28_blocking_read closed m p q turns : gz_ok gz_encode gz_decode -> sendable m ->
  frame m = p ++ q -> q <> [] ->
  match read_help gz_decode closed p turns with
  | Done _ _ _ => False
  | Failed _ => True
  | Waiting => closed = true -> answers turns <= length p
  end.
Proof. intros GZ S E N. exact (read_help_cut gz_encode gz_decode GZ compress_large closed m p q turns S E N). Qed.

(* The asynchronous reader reports the end of the stream at once within the header. *)
Theorem C28_closed_in_header m p q w n : gz_ok gz_encode gz_decode -> sendable m ->
  frame m = p ++ q -> q <> [] ->
  (exists es, w = run (wstep true) (connect p) es) -> w_calling w = true -> w_stream w = [] -> w_failed w = false ->
  r_msg_size (w_reader w) = None -> w_out (wstep true w (Bytes n)) = [Error UnexpectedEof].
Proof.
  intros GZ S E N (es & ->) C ES F MS.
  pose proof (cut_run gz_encode gz_decode GZ compress_large true m p q es S E N) as (co & EP & [(F' & e & O)|(_ & O & R)]); [congruence|].
  rewrite MS in R. destruct R as (RD & L4 & LS & FS).
  set (w := run _ _ _) in *. clearbody w.
  unfold WireModel.wstep. rewrite F, C, ES. unfold room. rewrite MS.
  destruct (Nat.eqb_spec (length (r_size_buf (w_reader w)) - r_read (w_reader w)) 0); [lia|].
  unfold deliver, on_read. rewrite MS, ES. cbn. now rewrite O.
Qed.

(* Within the body a call in progress ends with the deadline. *)
Theorem C28_deadline m p q es closed : gz_ok gz_encode gz_decode -> sendable m -> frame m = p ++ q -> q <> [] ->
  let w := run (wstep closed) (connect p) es in
  w_calling w = true -> w_failed w = false -> r_msg_size (w_reader w) <> None ->
  w_out (wstep closed w Expire) = [Error TimedOut] /\ w_failed (wstep closed w Expire) = true.
Proof.
  intros GZ S E N w C F MS.
  pose proof (cut_run gz_encode gz_decode GZ compress_large closed m p q es S E N) as (co & EP & [(F' & e & O)|(_ & O & R)]); [subst w; congruence|].
  fold w in O. clearbody w. unfold WireModel.wstep. rewrite F, C. destruct (r_msg_size (w_reader w)); [|congruence]. cbn. rewrite O. auto.
Qed.

(* ---- C57 ---- *)

(* While the calls are not cancelled after a header and the peer does not close the
   connection, the buffer for the message is never longer than the message. *)
Theorem C57_buffer_bounded_partial msgs es : gz_ok gz_encode gz_decode -> Forall sendable msgs ->
  undisturbed es -> no_cancel_at_header gz_decode false (connect (wire msgs)) es ->
  let w := run (wstep false) (connect (wire msgs)) es in
  match r_msg_size (w_reader w) with
  | None => r_msg_buf (w_reader w) = []
  | Some (size, _) => length (r_msg_buf (w_reader w)) = size /\ exists m, In m msgs /\ size = length (body m)
  end.
Proof.
  intros GZ S U N w.
  destruct (at_msg_run gz_encode gz_decode GZ compress_large msgs es S 0 [] _ (at_msg_start _ _ _) U N) as (k & part & A).
  fold w in A. destruct A as (F & O & L & E & R). unfold rd_ok in R. destruct (r_msg_size (w_reader w)) as [[size c]|]; [|tauto].
  destruct R as (m & bp & H1 & [= -> ->] & H3 & H4 & H5 & H6 & _). split; auto. exists m. split; auto. eapply nth_error_In; eauto.
Qed.

(* A peer that announces a message and then closes the connection: every turn of the
   reader's loop until the deadline lengthens the buffer by the announced size again. *)
Theorem C57_closed_after_header_refuted m n : gz_ok gz_encode gz_decode -> sendable m ->
  let h := firstn 4 (frame m) in
  let w := run (wstep true) (connect h) (Call :: Bytes 4 :: repeat (Bytes 1) n) in
  w_out w = [] /\ length (r_msg_buf (w_reader w)) = (n + 1) * length (body m).
Proof. intros GZ S. exact (closed_grows gz_encode gz_decode GZ compress_large m n S). Qed.
End Props.

(* ---- C29 ---- *)

Section Header.
Local Open Scope Z_scope.
(* The header gives back the length and the flag, for every length below 2^31. *)
Theorem C29_header len compressed : 0 <= len < 2 ^ 31 -> (compressed = true -> 0 < len) ->
  read_size (size_header len compressed) = (Z.to_nat len, compressed).
Proof. exact (read_size_header len compressed). Qed.

(* Exactly those: at and above 2^31 (up to 2^32 - 1) an uncompressed frame announces
   another length and that it is compressed. *)
Theorem C29_oversize_refuted len : 2 ^ 31 <= len < 2 ^ 32 ->
  read_size (size_header len false) = (Z.to_nat (2 ^ 32 - len), true).
Proof.
  intros H. unfold read_size, size_header. rewrite be_round.
  assert (E : as_i32 len = len - 2 ^ 32).
  { unfold as_i32. replace (len + 2 ^ 31) with ((len - 2 ^ 31) + 1 * 2 ^ 32) by lia.
    rewrite Z.mod_add by lia. rewrite Z.mod_small; lia. }
  rewrite E, as_i32_id by lia. f_equal; [f_equal; lia|]. apply Z.ltb_lt. lia.
Qed.

(* A stream of a declared length is read back, with what follows it left, for every
   length below 2^32. *)
Theorem C29_stream_round_trip stream rest : Z.of_nat (length stream) < 2 ^ 32 ->
  async_read_stream (async_write_stream (Z.of_nat (length stream)) stream ++ rest) = Some (stream, rest).
Proof.
  intros H. unfold async_read_stream, async_write_stream. rewrite <- app_assoc.
  set (hd := to_be_bytes (as_i32 (Z.of_nat (length stream)))).
  assert (HL : length hd = 4%nat) by reflexivity.
  rewrite app_length, HL. cbn [Nat.ltb Nat.leb Nat.add].
  assert (F4 : firstn 4 (hd ++ stream ++ rest) = hd).
  { rewrite firstn_app, HL, firstn_all2, Nat.sub_diag by lia. now rewrite firstn_O, app_nil_r. }
  assert (S4 : skipn 4 (hd ++ stream ++ rest) = stream ++ rest).
  { rewrite skipn_app, HL, skipn_all2, Nat.sub_diag by lia. reflexivity. }
  rewrite F4, S4. unfold hd. rewrite be_round.
  assert (E : as_u32 (as_i32 (as_i32 (Z.of_nat (length stream)))) = Z.of_nat (length stream)).
  { rewrite (as_i32_id (as_i32 _)).
    - unfold as_u32, as_i32. rewrite Zminus_mod_idemp_l. rewrite Z.mod_small; lia.
    - unfold as_i32. pose proof (Z.mod_pos_bound (Z.of_nat (length stream) + 2 ^ 31) (2 ^ 32)). lia. }
  rewrite E, Nat2Z.id, firstn_app, skipn_app, Nat.sub_diag, firstn_all, skipn_all. cbn. now rewrite app_nil_r.
Qed.
End Header.

(* ---- non-vacuity ---- *)
Section Examples.
(* a stand-in for the compressor that satisfies what is asked of it *)
Definition ex_enc (b : bytes) : bytes := 31 :: b.
Definition ex_dec (b : bytes) : option bytes := match b with 31 :: b' => Some b' | _ => None end.
Lemma ex_gz_ok : gz_ok ex_enc ex_dec.
Proof. split; [reflexivity|discriminate]. Qed.

Definition ex_m1 : json := JObj [([97], JArr [JNull; JNum [52; 50]; JStr [34; 10]])].
Definition ex_m2 : json := JStr [].
Lemma ex_sendable : Forall (sendable ex_enc true) [ex_m1; ex_m2].
Proof.
  repeat constructor; try (vm_compute; lia); try (vm_compute; reflexivity).
  exists 52, [50]. repeat constructor.
Qed.

(* bytes in pieces across the frames, and cancellations in the header and in the body *)
Definition ex_es : list event :=
  [Call; Bytes 3; Cancel; Call; Bytes 1; Bytes 7; Cancel; Call; Bytes 100; Call; Bytes 2; Bytes 2; Bytes 1; Cancel; Call; Bytes 9].
Example C26_example :
  undisturbed ex_es /\ no_cancel_at_header ex_dec false (connect (wire ex_enc true [ex_m1; ex_m2])) ex_es /\
  w_stream (run (wstep ex_dec false) (connect (wire ex_enc true [ex_m1; ex_m2])) ex_es) = [] /\
  w_out (run (wstep ex_dec false) (connect (wire ex_enc true [ex_m1; ex_m2])) ex_es) = [Message ex_m1 22; Message ex_m2 2].
Proof.
  split; [intros e I; vm_compute in I; repeat destruct I as [<-|I]; try contradiction; split; discriminate|].
  split.
  { vm_compute. repeat split; intros (H1 & H2 & sz & H3 & H4); discriminate. }
  split; vm_compute; reflexivity.
Qed.

Example C26_blocking_example :
  read_help ex_dec false (frame ex_enc true ex_m1 ++ [7]) [WouldBlock; Got 2; Interrupted; Got 9; Got 20; Got 90]
    = Done ex_m1 [7] [].
Proof. vm_compute. reflexivity. Qed.

(* the failing cancellation *)
Example C27_cancel_example :
  w_out (run (wstep ex_dec false) (connect (frame ex_enc true ex_m2)) [Call; Bytes 4; Cancel; Call; Bytes 9])
    = [Error BadMessage].
Proof. vm_compute. reflexivity. Qed.

Example C28_example : frame ex_enc true ex_m2 = [0; 0; 0; 2; 34] ++ [34] /\
  w_out (run (wstep ex_dec true) (connect [0; 0; 0; 2; 34]) [Call; Bytes 9; Bytes 9; Bytes 9; Expire]) = [Error TimedOut] /\
  read_help ex_dec true [0; 0; 0; 2; 34] [Got 9; Got 9; Got 9] = Failed UnexpectedEof.
Proof. split; [vm_compute; reflexivity|]. split; vm_compute; reflexivity. Qed.

Example C29_example : read_size (size_header 1000001 true) = (Z.to_nat 1000001, true) /\
  (2 ^ 31 <= 3000000000 < 2 ^ 32)%Z.
Proof. split; [apply C29_header; lia|lia]. Qed.
End Examples.

Print Assumptions C26_blocking_read.
Print Assumptions C26_messages_in_order.
Print Assumptions C26_all_messages.
Print Assumptions C27_cancelled_reads_resume_partial.
Print Assumptions C27_cancel_after_header_refuted.
Print Assumptions C27_answers_need_calls.
Print Assumptions C28_no_message_from_a_part.
Print Assumptions C28_blocking_read.
Print Assumptions C28_closed_in_header.
Print Assumptions C28_deadline.
Print Assumptions C57_buffer_bounded_partial.
Print Assumptions C57_closed_after_header_refuted.
Print Assumptions C29_header.
Print Assumptions C29_oversize_refuted.
Print Assumptions C29_stream_round_trip.
