From Verif Require Import Base JsonModel JsonProofs JsonlModel RunStateModel RunStateProofs AuthModel AuthSpec AuthProofs
  WireModel WireSpec WireProofs CodecModel CodecProofs HealthModel HealthSpec.
From Coq Require Import String NArith.
Local Open Scope list_scope.

(* ---- codecs ---- *)

Lemma lawful_health : lawful c_health.
Proof. apply lawful_struct; [distinct|auto with codecs]. Qed.

Lemma lawful_healthcheck s : lawful (c_healthcheck s).
Proof.
  constructor; cbn [c_healthcheck c_enc c_dec c_ok].
  - intros [] _. split; [exact I|]. split; [|discriminate]. rewrite eqb_text, String.eqb_refl. reflexivity.
  - intros [| | |n| |] a _ H; try discriminate. destruct RunStateModel.bytes_eqb; [|discriminate]. split; [exact I|simpl; lia].
Qed.

Lemma lawful_entity : lawful c_entity.
Proof. apply lawful_struct; [distinct|auto with codecs]. Qed.

Lemma lawful_ask s : lawful (c_ask s).
Proof.
  apply lawful_struct; [destruct s; distinct|]. apply lawful_both; apply lawful_req; [apply lawful_entity|apply lawful_healthcheck].
Qed.

Lemma entity_codec_ok e : entity_ok e -> c_ok c_entity e.
Proof.
  intros (L & F & T). cbn. repeat split; auto. now rewrite T.
Qed.

(* ---- sizes ---- *)

Lemma byte_text_length n : (n < 256)%N -> List.length (nat_text n) <= 3.
Proof.
  intros H.
  assert (X : forallb (fun k => List.length (nat_text (N.of_nat k)) <=? 3) (seq 0 256) = true) by (vm_compute; reflexivity).
  rewrite forallb_forall in X. specialize (X (N.to_nat n)). rewrite N2Nat.id in X. apply Nat.leb_le, X.
  apply in_seq. lia.
Qed.

Lemma sep_length_bound l k : Forall (fun x : bytes => List.length x <= k) l -> List.length (sep l) <= List.length l * S k.
Proof.
  induction 1 as [|x l Hx H IH]; simpl; [lia|]. destruct l as [|y l']; [simpl; lia|].
  rewrite app_length. cbn [List.length] in *. lia.
Qed.

Lemma id_length id : List.length id = 16 -> Forall (fun b => (b < 256)%N) id ->
  List.length (write (c_enc (c_array 16 u8) id)) <= 66.
Proof.
  intros L F. cbn [c_array c_enc c_vec u8 c_uint write List.length]. rewrite app_length.
  assert (H : List.length (sep (map write (map (c_enc u8) id))) <= 64).
  { pose proof (sep_length_bound (map write (map (c_enc u8) id)) 3) as X. rewrite !map_length, L in X. apply X.
    rewrite map_map. apply Forall_forall. intros b I. apply in_map_iff in I as (n & <- & I). cbn [u8 c_uint c_enc write].
    apply byte_text_length. rewrite Forall_forall in F. auto. }
  unfold u8, c_uint in H. cbn [c_enc] in H. simpl List.length. lia.
Qed.

Lemma ask_json s e : snd e = LocalClient ->
  c_enc (c_ask s) (e, tt) =
    JObj [(text "entity", JObj [(text "id", c_enc (c_array 16 u8) (fst e)); (text "tag", JStr (text "LocalClient"))]);
          (text "message", JStr (text (healthcheck_name s)))].
Proof. destruct e as [id t]. cbn [snd fst]. intros ->. reflexivity. Qed.

Lemma ask_length s e : entity_ok e -> 30 <= List.length (write (c_enc (c_ask s) (e, tt))) <= 200.
Proof.
  intros (L & F & T). rewrite ask_json by exact T. pose proof (id_length (fst e) L F) as H.
  set (x := c_enc (c_array 16 u8) (fst e)) in *. clearbody x. rewrite !write_obj. cbn [map write_member fst snd].
  cbn [sep]. rewrite !write_obj. cbn [map sep fst snd].
  unfold write_member. cbn [fst snd].
  repeat (rewrite app_length || cbn [List.length]).
  set (n := List.length (write x)) in *. clearbody n. destruct s; simpl; lia.
Qed.

Lemma esc_length b : List.length (esc b) <= 6.
Proof. unfold esc. repeat match goal with |- context [if ?c then _ else _] => destruct c end; simpl; lia. Qed.
Lemma write_str_length s : List.length (write_str s) <= 2 + 6 * List.length s.
Proof.
  unfold write_str. cbn [List.length]. rewrite app_length. cbn [List.length].
  assert (List.length (flat_map esc s) <= 6 * List.length s).
  { induction s as [|b s IH]; [simpl; lia|]. cbn [flat_map List.length]. rewrite app_length. pose proof (esc_length b). lia. }
  lia.
Qed.

Lemma health_json v : c_enc c_health (healthy v) = JObj [(text "healthy", JBool true); (text "version", JStr v)].
Proof. reflexivity. Qed.

Lemma health_length v : List.length v <= 100 -> List.length (write (c_enc c_health (healthy v))) <= 690.
Proof.
  intros H. rewrite health_json, write_obj. cbn [map sep]. unfold write_member. cbn [fst snd].
  pose proof (write_str_length v) as W. cbn [write].
  repeat (rewrite app_length || cbn [List.length]). set (n := List.length (write_str v)) in *. clearbody n. simpl. lia.
Qed.

Section P.
Context (gz_encode : bytes -> bytes) (gz_decode : bytes -> option bytes).
Hypothesis GZ : gz_ok gz_encode gz_decode.
Notation frame := (frame gz_encode true).
Notation body := (body gz_encode true).
Notation sendable := (sendable gz_encode true).
Notation wstep := (wstep gz_decode).

(* small messages go as they are *)
Lemma small_body m : List.length (write m) <= 700 -> body m = write m /\ snd (write_message_bytes_help gz_encode true m) = false.
Proof.
  intros H. unfold WireSpec.body, write_message_bytes_help, LARGE_MESSAGE_SIZE.
  destruct (Z.ltb_spec 1000000 (Z.of_nat (List.length (write m)))); [lia|]. auto.
Qed.

Lemma small_sendable m : json_ok m -> nesting m < 128 -> List.length (write m) <= 700 -> sendable m.
Proof. intros J N L. split; [|split]; auto. rewrite (proj1 (small_body m L)). lia. Qed.

Lemma ask_sendable s e : entity_ok e -> sendable (c_enc (c_ask s) (e, tt)).
Proof.
  intros E. pose proof (ask_length s e E). apply small_sendable; [| |lia].
  - apply (written _ (lawful_ask s)). split; [now apply entity_codec_ok|exact I].
  - destruct E as (L & F & T). rewrite ask_json by exact T. cbn [nesting]. 
    enough (nesting (c_enc (c_array 16 u8) (fst e)) <= 1) by (cbn [fold_right map snd nesting]; lia).
    cbn [c_array c_enc c_vec]. clear. induction (fst e) as [|b l IH]; [simpl; lia|]. cbn [map nesting fold_right c_enc u8 c_uint] in *. simpl in *. lia.
Qed.

Lemma health_sendable v : List.length v <= 100 -> sendable (c_enc c_health (healthy v)).
Proof.
  intros E. pose proof (health_length v E). apply small_sendable; [| |lia].
  - apply (written _ lawful_health). repeat split.
  - rewrite health_json. simpl. lia.
Qed.

Lemma frame_length m : List.length (frame m) = 4 + List.length (body m).
Proof. rewrite frame_eq, app_length, header_length. reflexivity. Qed.

(* the header of a small frame begins with a zero byte *)
Lemma frame_zero m : List.length (write m) <= 700 -> exists t, frame m = 0%nat :: t.
Proof.
  intros H. rewrite frame_eq. destruct (small_body m H) as [B C]. rewrite C, B. unfold size_header.
  rewrite as_i32_id by lia. unfold to_be_bytes. rewrite Z.mod_small by lia.
  rewrite (Z.div_small _ (2 ^ 24)) by lia. eexists. reflexivity.
Qed.

(* ---- a stream that announces more than it has ---- *)

Definition starved (size : nat) (p : bytes) (w : world) : Prop :=
  exists consumed, p = consumed ++ w_stream w /\
  ((w_failed w = true /\ exists e, w_out w = [WireModel.Error e]) \/
   (w_failed w = false /\ w_out w = [] /\
    match r_msg_size (w_reader w) with
    | None => r_read (w_reader w) = List.length consumed /\ List.length consumed < 4 /\ List.length (r_size_buf (w_reader w)) = 4 /\
              firstn (List.length consumed) (r_size_buf (w_reader w)) = consumed
    | Some (size', _) => size' = size /\ 4 <= List.length consumed /\ r_read (w_reader w) = List.length consumed - 4
    end)).

Ltac wcbn := cbn [w_stream w_reader w_calling w_failed w_out r_msg_size r_read r_size_buf r_msg_buf List.length fst snd Nat.eqb List.app].

Lemma starved_deliver size c p w n : 4 <= List.length p -> read_size (firstn 4 p) = (size, c) -> List.length p < 4 + size ->
  starved size p w -> w_failed w = false -> n <= List.length (w_stream w) -> n <= room (w_reader w) ->
  starved size p (deliver gz_decode w n).
Proof.
  intros L4p EH LT (co & EP & [(F & _)|(F & O & R)]) F' Ln Lr; [congruence|].
  set (b := firstn n (w_stream w)).
  assert (Lb : List.length b = n) by (unfold b; rewrite firstn_length; lia).
  assert (Es : w_stream w = b ++ skipn n (w_stream w)) by (symmetry; apply firstn_skipn).
  assert (LF : List.length co + List.length (w_stream w) = List.length p).
  { apply (f_equal (@List.length _)) in EP. rewrite app_length in EP. lia. }
  unfold deliver. fold b. unfold on_read. unfold room in Lr. destruct (r_msg_size (w_reader w)) as [[size' c']|] eqn:MS.
  - destruct R as (-> & L4 & RD). rewrite Lb.
    assert (Nat.eqb (r_read (w_reader w) + n) size = false) as -> by (apply Nat.eqb_neq; lia).
    exists (co ++ b). wcbn. split; [rewrite <- app_assoc, <- Es; auto|]. right. split; auto. split; auto.
    unfold prime. wcbn. rewrite app_length, Lb. repeat split; lia.
  - destruct R as (RD & L4 & LS & FS). rewrite Lb. destruct (Nat.eqb_spec n 0) as [->|Np].
    + exists co. wcbn. split; [exact EP|]. left. split; auto. eexists. rewrite O. reflexivity.
    + pose proof (store_length (r_size_buf (w_reader w)) (r_read (w_reader w)) b) as SL.
      pose proof (store_prefix (r_size_buf (w_reader w)) (r_read (w_reader w)) b) as SP.
      rewrite Lb, RD in SL, SP. rewrite FS in SP. specialize (SL ltac:(lia)). specialize (SP ltac:(lia)). rewrite RD.
      exists (co ++ b). destruct (Nat.eqb_spec (List.length co + n) 4) as [Full|NF]; wcbn.
      * split; [rewrite <- app_assoc, <- Es; auto|]. right. split; auto. split; auto.
        assert (E4 : firstn 4 p = co ++ b).
        { assert (EP2 : p = (co ++ b) ++ skipn n (w_stream w)) by (rewrite <- app_assoc, <- Es; exact EP).
          assert (LC : List.length (co ++ b) = 4) by (rewrite app_length; lia).
          rewrite EP2, firstn_app, LC, Nat.sub_diag, firstn_O, app_nil_r. apply firstn_all2. lia. }
        replace (store_at (r_size_buf (w_reader w)) (List.length co) b) with (co ++ b).
        2:{ rewrite <- SP. rewrite Full, <- LS. rewrite <- SL. now rewrite firstn_all. }
        assert (LC : List.length (co ++ b) = 4) by (rewrite app_length; lia).
        rewrite E4 in EH. rewrite EH. unfold prime. wcbn. rewrite LC. repeat split; lia.
      * split; [rewrite <- app_assoc, <- Es; auto|]. right. split; auto. split; auto.
        unfold prime. wcbn. rewrite app_length, Lb. repeat split; try lia. exact SP.
Qed.

Lemma starved_step closed size c p w e : 4 <= List.length p -> read_size (firstn 4 p) = (size, c) -> List.length p < 4 + size ->
  starved size p w -> starved size p (wstep closed w e).
Proof.
  intros L4 EH LT K. unfold WireModel.wstep. destruct (w_failed w) eqn:F; auto.
  assert (Kf : forall er, starved size p (fail w er)).
  { intros er. destruct K as (co & EP & [(F1 & _)|(_ & O & _)]); [congruence|]. exists co. unfold fail. wcbn. split; auto. left.
    split; auto. rewrite O. eexists. reflexivity. }
  destruct e as [| |n| |].
  - destruct (w_calling w); auto. destruct K as (co & EP & [(F1 & _)|(_ & O & R)]); [congruence|].
    exists co. wcbn. split; auto. right. split; auto. split; auto. unfold prime.
    destruct (r_msg_size (w_reader w)) as [[size' c']|] eqn:MS; wcbn; rewrite ?MS; auto.
  - destruct (w_calling w); auto. destruct K as (co & EP & [(F1 & _)|(_ & O & R)]); [congruence|].
    exists co. wcbn. split; auto.
  - destruct (w_calling w); auto. destruct (Nat.eqb_spec (room (w_reader w)) 0); [eapply starved_deliver; eauto; lia|].
    destruct (w_stream w) eqn:ES.
    + destruct closed; auto. eapply starved_deliver; eauto; lia.
    + rewrite <- ES. pose proof (chunk_le n (room (w_reader w)) (w_stream w)) as [? ?]. eapply starved_deliver; eauto.
  - destruct (w_calling w); auto. destruct (r_msg_size (w_reader w)); auto.
  - destruct (w_calling w); auto.
Qed.

Lemma starved_run closed size c p es : 4 <= List.length p -> read_size (firstn 4 p) = (size, c) -> List.length p < 4 + size ->
  forall m n out, w_out (run (wstep closed) (connect p) es) <> Message m n :: out.
Proof.
  intros L4 EH LT m n out H.
  assert (K : starved size p (run (wstep closed) (connect p) es)).
  { apply (run_invariant (wstep closed) (starved size p)).
    - intros w e. eapply starved_step; eauto.
    - exists []. cbn. split; auto. right. repeat split; auto; lia. }
  destruct K as (co & EP & [(F & e & O)|(F & O & _)]); congruence.
Qed.

(* four letters or digits announce a long message *)
Lemma alnum_size a b c d : is_alnum a -> is_alnum b -> is_alnum c -> is_alnum d ->
  exists size k, read_size [a; b; c; d] = (size, k) /\ (1000000 <= Z.of_nat size)%Z.
Proof.
  intros A B C D. unfold read_size, from_be_bytes. cbn [fold_left]. eexists. eexists. split; [reflexivity|].
  assert (forall x, is_alnum x -> (48 <= Z.of_nat x <= 122)%Z) as H by (unfold is_alnum; intros; lia).
  apply H in A, B, C, D. rewrite as_i32_id by lia. rewrite Z2Nat.id by lia. lia.
Qed.

(* ---- the handshake ---- *)

Definition sent (token : client_auth) (s : service) (e : list N * CodecModel.tag) : bytes :=
  send_header token ++ frame (c_enc (c_ask s) (e, tt)).

Lemma frame_ask_length s e : entity_ok e -> 30 <= List.length (frame (c_enc (c_ask s) (e, tt))) <= 204.
Proof.
  intros E. pose proof (ask_length s e E) as L. rewrite frame_length, (proj1 (small_body (c_enc (c_ask s) (e, tt)) ltac:(lia))). lia.
Qed.

Lemma refused auth token s e : server_ok auth -> client_ok token -> entity_ok e -> ~ admits auth token ->
  handshake auth (sent token s e) = None \/
  exists t, token = CToken t /\ handshake auth (sent token s e) = Some (RAdmin, sent token s e).
Proof.
  intros SO CO EO NA. unfold handshake, sent. pose proof (frame_ask_length s e EO) as FL.
  destruct auth as [|u a].
  - destruct token as [|t]; [exfalso; apply NA; exact I|]. right. eauto.
  - left. assert (LL : (List.length (send_header token ++ frame (c_enc (c_ask s) (e, tt))) <? TOKEN_LEN) = false).
    { apply Nat.ltb_ge. rewrite app_length. etransitivity; [exact (proj1 FL)|]. apply Nat.le_add_l. }
    rewrite LL. destruct SO as [[Lu Fu] [La Fa]]. unfold verify_header_help.
    assert (Hx : forall t, t = u \/ t = a -> AuthModel.bytes_eqb (firstn TOKEN_LEN (send_header token ++ frame (c_enc (c_ask s) (e, tt)))) t = false).
    { intros t Ht. destruct token as [|ct].
      - assert (AuthSpec.token t) as T by (destruct Ht as [->| ->]; split; auto).
        destruct T as [Lt Ft]. destruct AuthModel.bytes_eqb eqn:E; [|reflexivity]. apply bytes_eqb_spec in E.
        pose proof (ask_length s e EO). destruct (frame_zero (c_enc (c_ask s) (e, tt)) ltac:(lia)) as (r & R). rewrite R in E. cbn in E.
        subst t. inversion Ft as [|? ? A]. unfold is_alnum in A. lia.
      - destruct CO as [Lc _]. cbn [send_header]. unfold TOKEN_LEN. rewrite firstn_app, Lc, Nat.sub_diag, firstn_O, app_nil_r, <- Lc, firstn_all.
        destruct AuthModel.bytes_eqb eqn:E; [|reflexivity]. apply bytes_eqb_spec in E. subst t. exfalso. apply NA. cbn. tauto. }
    now rewrite !Hx by auto.
Qed.

Lemma admitted auth token s e : client_ok token -> entity_ok e -> admits auth token ->
  exists r, handshake auth (sent token s e) = Some (r, frame (c_enc (c_ask s) (e, tt))).
Proof.
  intros CO EO A. unfold handshake, sent. destruct auth as [|u a], token as [|t]; try contradiction.
  - exists RAdmin. reflexivity.
  - destruct CO as [Lc _]. cbn [send_header].
    match goal with |- context [?x <? TOKEN_LEN] => assert ((x <? TOKEN_LEN) = false) as -> end.
    { apply Nat.ltb_ge. rewrite app_length, Lc. apply Nat.le_add_r. }
    unfold TOKEN_LEN. rewrite firstn_app, skipn_app, Lc, Nat.sub_diag, firstn_O, app_nil_r, <- Lc, firstn_all, skipn_all.
    cbn [skipn List.app]. unfold verify_header_help.
    destruct A as [-> | ->].
    + assert (AuthModel.bytes_eqb u u = true) as -> by now apply bytes_eqb_spec. eauto.
    + assert (AuthModel.bytes_eqb a a = true) as -> by now apply bytes_eqb_spec. destruct AuthModel.bytes_eqb; eauto.
Qed.

(* ---- what the server writes ---- *)

Lemma serve_refuses s' auth v l token s e : server_ok auth -> client_ok token -> entity_ok e -> ~ admits auth token ->
  fst (serve gz_encode gz_decode s' auth v l (sent token s e)) = [].
Proof.
  intros SO CO EO NA. unfold serve. destruct (refused auth token s e SO CO EO NA) as [->|(t & -> & ->)]; [reflexivity|].
  assert (NM : forall m n out, w_out (run (wstep false) (connect (sent (CToken t) s e)) (l_events l)) <> Message m n :: out).
  { destruct CO as [Lt Ft]. unfold sent. cbn [send_header]. pose proof (frame_ask_length s e EO) as FL.
    destruct t as [|c1 [|c2 [|c3 [|c4 t]]]]; cbn in Lt; try lia.
    inversion Ft as [|? ? A1 F1]; subst. inversion F1 as [|? ? A2 F2]; subst. inversion F2 as [|? ? A3 F3]; subst. inversion F3 as [|? ? A4 F4]; subst.
    destruct (alnum_size c1 c2 c3 c4 A1 A2 A3 A4) as (size & k & RS & SZ).
    apply (starved_run false size k).
    - cbn [List.app List.length]. lia.
    - cbn [List.app firstn]. exact RS.
    - cbn [List.app List.length]. rewrite app_length. unfold bytes, byte in *. lia. }
  destruct w_out as [|[m n|er] out] eqn:E; [reflexivity| |reflexivity]. now destruct (NM m n out).
Qed.

Lemma serve_prefix s' auth v l b : exists q, frame (c_enc c_health (healthy v)) = fst (serve gz_encode gz_decode s' auth v l b) ++ q.
Proof.
  unfold serve. destruct handshake as [[r st]|]; [|now eexists]. destruct w_out as [|[m n|er] out]; try now eexists.
  destruct (c_dec (c_ask s') m) as [[x []]|]; [|now eexists]. cbn [fst]. destruct (l_cut l) as [k|]; cbn [cut_to].
  - exists (skipn k (frame (c_enc c_health (healthy v)))). symmetry. apply firstn_skipn.
  - exists []. now rewrite app_nil_r.
Qed.

Lemma read_empty closed ts : match read_help gz_decode closed [] ts with Done _ _ _ => False | _ => True end.
Proof.
  unfold read_help. pose proof (read_exact_short closed false ts 4 [] [] ltac:(simpl; lia)) as H.
  destruct (read_exact_help closed false 4 [] [] ts); [contradiction|exact I|exact I].
Qed.

(* an answer from a server of a queue: it admits the caller, and the version is its own *)
Lemma answered_abq token e s s' auth v l h : server_ok auth -> List.length v <= 100 -> client_ok token -> entity_ok e ->
  get_health gz_encode gz_decode token e s (Abq s' auth v) l = Answered h -> admits auth token /\ h = (true, v).
Proof.
  intros SO VO CO EO H. unfold get_health in H.
  destruct (l_connects l); [|discriminate]. destruct (l_sends l); [|discriminate]. cbn [negb conversation] in H. fold (sent token s e) in H.
  assert (SD := health_sendable v VO).
  destruct (serve gz_encode gz_decode s' auth v l (sent token s e)) as [reply closed] eqn:SV.
  pose proof (serve_prefix s' auth v l (sent token s e)) as (q & FQ). rewrite SV in FQ. cbn [fst] in FQ.
  split.
  - assert (NA : ~ ~ admits auth token).
    { intros NA. pose proof (serve_refuses s' auth v l token s e SO CO EO NA) as R. rewrite SV in R. cbn [fst] in R. subst reply.
      pose proof (read_empty closed (l_turns l)) as X. destruct read_help; try discriminate. contradiction. }
    destruct auth as [|u a], token as [|t]; cbn [admits] in *; try tauto.
    destruct (list_eq_dec Nat.eq_dec t u); [tauto|]. destruct (list_eq_dec Nat.eq_dec t a); tauto.
  - destruct q as [|c q].
    + rewrite app_nil_r in FQ. pose proof (read_help_ok gz_encode gz_decode GZ true closed _ [] (l_turns l) SD) as X.
      rewrite app_nil_r, FQ in X. destruct read_help as [m' st ts'|er|]; try discriminate. destruct X as (-> & _ & _).
      destruct (written _ lawful_health (healthy v)) as (_ & RD & _); [repeat split|]. rewrite RD in H. injection H as <-. reflexivity.
    + pose proof (read_help_cut gz_encode gz_decode GZ true closed _ reply (c :: q) (l_turns l) SD FQ ltac:(discriminate)) as X.
      destruct read_help; try discriminate. contradiction.
Qed.

(* ---- progress of the server's reading ---- *)

Definition bytes_events (es : list event) : nat := List.length (filter (fun e => match e with Bytes _ => true | _ => false end) es).

Lemma reading_ends m es : sendable m -> (forall e, In e es -> e <> Break /\ e <> Expire /\ e <> Cancel) ->
  forall w part, at_msg gz_encode true [m] 0 part w -> w_calling w = true -> List.length (w_stream w) <= bytes_events es ->
  exists n out, w_out (run (wstep false) w es) = Message m n :: out.
Proof.
  intros SM. assert (SF : Forall sendable [m]) by (constructor; auto).
  assert (Keep : forall es w, (forall e, In e es -> e <> Break /\ e <> Expire /\ e <> Cancel) ->
            (exists part, at_msg gz_encode true [m] 1 part w) -> exists n out, w_out (run (wstep false) w es) = Message m n :: out).
  { clear es. intros es w U (part & A).
    destruct (at_msg_run gz_encode gz_decode GZ true [m] es SF 1 part w A) as (k & part' & A').
    - intros e I. destruct (U e I) as (? & ? & ?). auto.
    - clear A. revert w. induction es as [|e es IH]; intros w; cbn; auto. split.
      + intros (X & _). destruct (U e (or_introl eq_refl)) as (_ & _ & ?). congruence.
      + apply IH. intros e' I. apply U. now right.
    - destruct k as [|k].
      + (* the answers are not taken back *)
        exfalso. destruct A' as (_ & O' & _). destruct A as (_ & O & _). cbn in O, O'.
        assert (M : forall es w, List.length (w_out w) <= List.length (w_out (run (wstep false) w es))).
        { clear. induction es as [|e es IH]; intros w; cbn [run fold_left]; [lia|]. etransitivity; [|apply IH].
          unfold WireModel.wstep. destruct (w_failed w); [lia|]. destruct e as [| |n| |]; destruct (w_calling w); cbn [w_out]; try lia.
          - assert (D : forall k, List.length (w_out w) <= List.length (w_out (deliver gz_decode w k))).
            { intros k. unfold deliver. destruct on_read as [r [[m' sz|er]|]]; cbn [w_out]; rewrite ?app_length; lia. }
            destruct (Nat.eqb _ 0); [apply D|]. destruct (w_stream w); [lia|]. apply D.
          - destruct (r_msg_size _); [|lia]. unfold fail. cbn [w_out]. rewrite app_length. lia.
          - unfold fail. cbn [w_out]. rewrite app_length. lia. }
        specialize (M es w). rewrite O, O' in M. cbn in M. lia.
      + destruct A' as (_ & O' & L & _). cbn in L. replace k with 0%nat in * by lia. cbn in O'. rewrite O'. eauto. }
  induction es as [|e es IH]; intros U w part A C LB.
  - cbn in LB. destruct A as (F & O & L & E & R). exfalso.
    assert (P : part = [] \/ exists m', nth_error [m] 0 = Some m' /\ List.length part < List.length (frame m')).
    { eapply part_short. unfold at_msg. eauto. }
    assert (w_stream w = []) as ES by (destruct (w_stream w); [reflexivity|cbn in LB; lia]). rewrite ES, app_nil_r in E.
    unfold WireSpec.wire in E. cbn [skipn flat_map] in E. rewrite app_nil_r in E.
    destruct P as [->|(m' & [= <-] & LT)].
    + apply (f_equal (@List.length _)) in E. rewrite frame_length in E. cbn in E. lia.
    + rewrite E in LT. lia.
  - cbn [run fold_left]. destruct (U e (or_introl eq_refl)) as (NB & NE & NC).
    assert (U' : forall e', In e' es -> e' <> Break /\ e' <> Expire /\ e' <> Cancel) by (intros e' I; apply U; now right).
    destruct (at_msg_step gz_encode gz_decode GZ true [m] 0 part w e SF A NB NE) as (k' & part' & A'); [intros (X & _); congruence|].
    destruct k' as [|k'].
    2:{ assert (k' = 0%nat) as -> by (destruct A' as (_ & _ & L & _); cbn in L; lia). apply Keep; eauto. }
    destruct e as [| |n| |]; try congruence.
    + apply (IH U' _ part' A').
      * unfold WireModel.wstep. destruct (w_failed w); [exact C|]. now rewrite C.
      * unfold WireModel.wstep. destruct (w_failed w); [exact LB|]. rewrite C. exact LB.
    + assert (C' : w_calling (wstep false w (Bytes n)) = true /\ List.length (w_stream (wstep false w (Bytes n))) <= bytes_events es).
      { destruct A as (F & O & L & E & R). destruct A' as (F' & O' & _).
        unfold bytes_events in *. cbn [filter List.length] in LB.
        assert (P : 0 < room (w_reader w)) by (eapply room_pos; eauto).
        unfold WireModel.wstep in *. rewrite F, C in *.
        assert (Nat.eqb (room (w_reader w)) 0 = false) as Z by (apply Nat.eqb_neq; lia). rewrite Z in *.
        destruct (w_stream w) as [|c st] eqn:ES; [rewrite ES; split; [exact C|cbn; lia]|]. rewrite <- ES in *.
        assert (N : w_stream w <> []) by congruence.
        pose proof (chunk_pos n (room (w_reader w)) (w_stream w) P N). set (k := chunk _ _ _) in *. clearbody k.
        unfold deliver in *. destruct on_read as [r [[m' sz|er]|]]; cbn [w_out w_calling w_stream w_failed] in *.
        - rewrite O in O'. discriminate.
        - discriminate.
        - split; [reflexivity|]. rewrite skipn_length. lia. }
      destruct C' as [C' L']. exact (IH U' _ part' A' C' L').
Qed.

Lemma answered_smooth token e s s' auth v l : List.length v <= 100 -> client_ok token -> entity_ok e ->
  admits auth token -> smooth gz_decode l -> c_dec (c_ask s') (c_enc (c_ask s) (e, tt)) = Some (e, tt) ->
  get_health gz_encode gz_decode token e s (Abq s' auth v) l = Answered (true, v).
Proof.
  intros VO CO EO A (H1 & H2 & H3 & H4 & (rest & H5 & H6) & H7 & H8) DEC.
  unfold get_health. rewrite H1, H2. cbn [negb conversation]. fold (sent token s e). unfold serve.
  destruct (admitted auth token s e CO EO A) as (r & ->).
  set (m := c_enc (c_ask s) (e, tt)) in *. assert (SM : sendable m) by now apply ask_sendable.
  assert (OUT : exists n out, w_out (run (wstep false) (connect (frame m)) (l_events l)) = Message m n :: out).
  { rewrite H5 in *. cbn [run fold_left]. 
    pose proof (at_msg_start gz_encode true [m]) as ST. unfold WireSpec.wire in ST. cbn [flat_map] in ST. rewrite app_nil_r in ST.
    destruct (at_msg_step gz_encode gz_decode GZ true [m] 0 [] (connect (frame m)) Call) as (k & part & A1); auto; try discriminate.
    { intros (X & _). discriminate. }
    assert (k = 0%nat) as ->.
    { destruct A1 as (_ & O & L & _). cbn in O. destruct k; [reflexivity|]. destruct k; cbn in L, O; [discriminate|lia]. }
    apply (reading_ends m rest SM) with (part := part); auto.
    - intros e' I. apply H4. now right.
    - cbn [WireModel.wstep connect w_failed w_calling w_stream]. pose proof (frame_ask_length s e EO). unfold bytes_events. fold m in H. unfold bytes, byte in *. lia. }
  destruct OUT as (n & out & ->). rewrite DEC. rewrite H3. cbn [cut_to].
  pose proof (read_help_ok gz_encode gz_decode GZ true true (c_enc c_health (healthy v)) [] (l_turns l) (health_sendable v VO)) as X.
  rewrite app_nil_r in X. destruct read_help as [m' st ts'|er|].
  - destruct X as (-> & _ & _). destruct (written _ lawful_health (healthy v)) as (_ & RD & _); [repeat split|]. rewrite RD. reflexivity.
  - exfalso. apply X. intros t I. specialize (H7 t I). tauto.
  - pose proof (health_length v VO) as HL. 
    assert (SB : List.length (write (c_enc c_health (healthy v))) <= 700) by lia.
    rewrite frame_length, (proj1 (small_body _ SB)) in X. unfold bytes, byte in *. lia.
Qed.

(* ---- the caller ---- *)

Lemma read_help_done closed p ts m rest ts' : read_help gz_decode closed p ts = Done m rest ts' ->
  exists size bd c, p = size ++ bd ++ rest /\ List.length size = 4 /\ read_size size = (List.length bd, c) /\ parse gz_decode c bd = Some m.
Proof.
  unfold read_help. destruct (Nat.lt_ge_cases (List.length p) 4) as [L|L].
  - pose proof (read_exact_short closed false ts 4 [] p L) as H. destruct read_exact_help; [contradiction|discriminate|discriminate].
  - pose proof (read_exact_enough closed false ts 4 [] p L) as H.
    destruct (read_exact_help closed false 4 [] p ts) as [b s t|er|]; [|discriminate|discriminate].
    destruct H as (-> & -> & _ & _). cbn [List.app]. destruct (read_size (firstn 4 p)) as [n c] eqn:RS.
    destruct (Nat.lt_ge_cases (List.length (skipn 4 p)) n) as [L2|L2].
    + pose proof (read_exact_short closed true t n [] (skipn 4 p) L2) as H. destruct read_exact_help; [contradiction|discriminate|discriminate].
    + pose proof (read_exact_enough closed true t n [] (skipn 4 p) L2) as H.
      destruct (read_exact_help closed true n [] (skipn 4 p) t) as [b2 s2 t2|er|]; [|discriminate|discriminate].
      destruct H as (-> & -> & _ & _). cbn [List.app]. destruct parse as [m'|] eqn:PA; [|discriminate]. intros [= <- <- <-].
      exists (firstn 4 p), (firstn n (skipn 4 p)), c. rewrite !firstn_skipn. split; [reflexivity|].
      rewrite !firstn_length, !Nat.min_l by lia. auto.
Qed.

Lemma read_help_waits p ts : read_help gz_decode true p ts = Waiting -> answers ts <= List.length p.
Proof.
  unfold read_help. destruct (Nat.lt_ge_cases (List.length p) 4) as [L|L].
  - pose proof (read_exact_short true false ts 4 [] p L) as H. destruct read_exact_help; [contradiction|discriminate|auto].
  - pose proof (read_exact_enough true false ts 4 [] p L) as H.
    destruct (read_exact_help true false 4 [] p ts) as [b s t|er|]; [|discriminate|lia].
    destruct H as (-> & -> & _ & A). cbn [List.app]. destruct (read_size (firstn 4 p)) as [n c] eqn:RS.
    assert (LS : List.length (skipn 4 p) = List.length p - 4) by apply skipn_length.
    destruct (Nat.lt_ge_cases (List.length (skipn 4 p)) n) as [L2|L2].
    + pose proof (read_exact_short true true t n [] (skipn 4 p) L2) as H.
      destruct read_exact_help; [contradiction|discriminate|]. specialize (H eq_refl). lia.
    + pose proof (read_exact_enough true true t n [] (skipn 4 p) L2) as H.
      destruct (read_exact_help true true n [] (skipn 4 p) t) as [b2 s2 t2|er|]; [|discriminate|lia].
      destruct (parse _ _ _); discriminate.
Qed.

Lemma found_in {A} name (ms : list (bytes * A)) a : find_field name ms = One a -> In (text name, a) ms.
Proof.
  unfold find_field. destruct (filter _ ms) as [|[k x] [|]] eqn:F; try discriminate. intros [= <-].
  assert (I : In (k, x) (filter (fun kv => RunStateModel.bytes_eqb (fst kv) (text name)) ms)) by (rewrite F; left; reflexivity).
  apply filter_In in I as [I E]. cbn [fst snd] in *. unfold RunStateModel.bytes_eqb in E. destruct (list_eq_dec Nat.eq_dec k (text name)); [now subst|discriminate].
Qed.

Lemma health_read m h v : c_dec c_health m = Some (h, v) -> exists ms, m = JObj ms /\ In (text "healthy", JBool h) ms /\ In (text "version", JStr v) ms.
Proof.
  unfold c_health, c_struct, both_parts, req. cbn [c_dec p_dec].
  destruct m as [| | | | |ms]; try discriminate. intros H. exists ms. split; [reflexivity|].
  destruct (find_field "healthy" ms) as [|j|] eqn:F1; try discriminate.
  destruct (find_field "version" ms) as [|j2|] eqn:F2; try (destruct j; discriminate).
  apply found_in in F1, F2. cbn in H. destruct j as [|hb| | | |]; try discriminate. destruct j2 as [| | |vs| |]; try discriminate.
  injection H as <- <-. auto.
Qed.

Lemma answered_stranger token e s reply l v :
  get_health gz_encode gz_decode token e s (Stranger reply) l = Answered (true, v) ->
  says_healthy gz_decode (fst (reply (sent token s e))) v.
Proof.
  unfold get_health. destruct (l_connects l); [|discriminate]. destruct (l_sends l); [|discriminate]. cbn [negb conversation].
  fold (sent token s e). destruct (reply (sent token s e)) as [r closed]. cbn [fst].
  destruct (read_help gz_decode closed r (l_turns l)) as [m rest ts'| |] eqn:R; try discriminate.
  destruct (c_dec c_health m) as [h|] eqn:D; [|discriminate]. intros [= ->].
  apply health_read in D as (ms & -> & I1 & I2). apply read_help_done in R as (size & bd & c & E & L & RS & PA).
  exists size, bd, rest, c, ms. repeat split; assumption.
Qed.

Lemma sent_request token s e : sent token s e = request gz_encode token s e.
Proof. reflexivity. Qed.

Lemma get_health_ends token e s p l : concludes gz_encode gz_decode p l (request gz_encode token s e) ->
  get_health gz_encode gz_decode token e s p l <> Hangs.
Proof.
  unfold concludes, get_health. rewrite <- sent_request. destruct (l_connects l); [|discriminate]. destruct (l_sends l); [|discriminate]. cbn [negb].
  fold (sent token s e). destruct conversation as [[r closed]|]; [|discriminate]. intros (-> & L).
  destruct (read_help gz_decode true r (l_turns l)) as [m rest ts'| |] eqn:R; [destruct (c_dec c_health m); discriminate|discriminate|].
  apply read_help_waits in R. lia.
Qed.

(* ---- the loop ---- *)
Notation check_all := (check_all gz_encode gz_decode).
Notation get_health := (get_health gz_encode gz_decode).

Definition line_of (token : client_auth) (entities : nat -> list N * CodecModel.tag) (at_ : address -> place) (links : nat -> link)
  (i : nat) (x : service * address) (ln : line) : Prop :=
  about ln = x /\
  match ln with
  | HealthyLine s a v => get_health token (entities i) s (at_ a) (links i) = Answered (true, v)
  | UnhealthyLine s a => forall v, get_health token (entities i) s (at_ a) (links i) <> Answered (true, v)
  end.

Fixpoint lines_of token entities at_ links (i : nat) (l : list (service * address)) (ls : list line) : Prop :=
  match l, ls with
  | x :: l', ln :: ls' => line_of token entities at_ links i x ln /\ lines_of token entities at_ links (S i) l' ls'
  | _, [] => True
  | [], _ :: _ => False
  end.

Lemma check_all_lines token entities at_ links to_check : forall i ok lines,
  match check_all token entities at_ links i to_check ok lines with
  | Exit code ls => exists new, ls = lines ++ new /\ map about new = to_check /\ lines_of token entities at_ links i to_check new /\
                      (code = 0%nat \/ code = 1%nat) /\ (code = 0%nat <-> ok = true /\ Forall is_healthy new)
  | Never ls => exists new, ls = lines ++ new /\ lines_of token entities at_ links i to_check new
  | _ => False
  end.
Proof.
  induction to_check as [|[s a] rest IH]; intros i ok lines; cbn [HealthModel.check_all].
  - exists []. rewrite app_nil_r. split; [reflexivity|]. split; [reflexivity|]. split; [exact I|].
    destruct ok; (split; [auto|split; [intros H; split; [congruence|constructor]|intros [H _]; congruence]]).
  - assert (St : forall ln ok', line_of token entities at_ links i (s, a) ln -> (is_healthy ln /\ ok' = ok \/ ~ is_healthy ln /\ ok' = false) ->
      match check_all token entities at_ links (S i) rest ok' (lines ++ [ln]) with
      | Exit code ls => exists new, ls = lines ++ new /\ map about new = (s, a) :: rest /\ lines_of token entities at_ links i ((s, a) :: rest) new /\
                          (code = 0%nat \/ code = 1%nat) /\ (code = 0%nat <-> ok = true /\ Forall is_healthy new)
      | Never ls => exists new, ls = lines ++ new /\ lines_of token entities at_ links i ((s, a) :: rest) new
      | _ => False
      end).
    { intros ln ok' LO HO. specialize (IH (S i) ok' (lines ++ [ln])).
      destruct (check_all token entities at_ links (S i) rest ok' (lines ++ [ln])) as [| |code ls|ls]; auto.
      - destruct IH as (new & -> & M & L & C1 & C2). exists (ln :: new). rewrite <- app_assoc. cbn [List.app map lines_of].
        split; [reflexivity|]. split; [f_equal; [exact (proj1 LO)|exact M]|]. split; [auto|]. split; [auto|].
        rewrite C2. rewrite Forall_cons_iff. destruct HO as [[H ->]|[H ->]]; intuition discriminate.
      - destruct IH as (new & -> & L). exists (ln :: new). rewrite <- app_assoc. cbn [List.app lines_of]. auto. }
    destruct (get_health token (entities i) s (at_ a) (links i)) as [[[|] v]| |] eqn:G.
    + apply St; [split; [reflexivity|exact G]|left; split; [exact I|reflexivity]].
    + apply St; [split; [reflexivity|intros v'; rewrite G; discriminate]|right; split; [exact (fun x => x)|reflexivity]].
    + apply St; [split; [reflexivity|intros v'; rewrite G; discriminate]|right; split; [exact (fun x => x)|reflexivity]].
    + exists []. rewrite app_nil_r. split; [reflexivity|exact I].
Qed.

Lemma check_all_ends token entities at_ links to_check : forall i ok lines,
  (forall k s a, nth_error to_check k = Some (s, a) -> get_health token (entities (i + k)) s (at_ a) (links (i + k)) <> Hangs) ->
  exists code ls, check_all token entities at_ links i to_check ok lines = Exit code ls.
Proof.
  induction to_check as [|[s a] rest IH]; intros i ok lines H; cbn [HealthModel.check_all]; [eauto|].
  pose proof (H 0 s a eq_refl) as H0. rewrite Nat.add_0_r in H0.
  assert (H' : forall k s a, nth_error rest k = Some (s, a) -> get_health token (entities (S i + k)) s (at_ a) (links (S i + k)) <> Hangs).
  { intros k s' a' N. specialize (H (S k) s' a' N). now rewrite Nat.add_succ_r in H. }
  destruct (get_health token (entities i) s (at_ a) (links i)) as [[[|] v]| |]; try (apply IH; exact H'). congruence.
Qed.

Lemma check_all_up token entities at_ links to_check version : forall i lines,
  (forall k s a, nth_error to_check k = Some (s, a) -> get_health token (entities (i + k)) s (at_ a) (links (i + k)) = Answered (true, version a)) ->
  check_all token entities at_ links i to_check true lines =
    Exit 0 (lines ++ map (fun x => HealthyLine (fst x) (snd x) (version (snd x))) to_check).
Proof.
  induction to_check as [|[s a] rest IH]; intros i lines H; cbn [HealthModel.check_all map]; [now rewrite app_nil_r|].
  pose proof (H 0 s a eq_refl) as H0. rewrite Nat.add_0_r in H0. rewrite H0, IH.
  - rewrite <- app_assoc. reflexivity.
  - intros k s' a' N. specialize (H (S k) s' a' N). now rewrite Nat.add_succ_r in H.
Qed.

Lemma lines_of_in token entities at_ links ln : forall l i ls, lines_of token entities at_ links i l ls -> In ln ls ->
  exists k x, nth_error l k = Some x /\ line_of token entities at_ links (i + k) x ln.
Proof.
  induction l as [|x l IH]; intros i [|y ls] H I; cbn in H, I; try contradiction.
  destruct H as [H1 H2]. destruct I as [->|I].
  - exists 0, x. rewrite Nat.add_0_r. auto.
  - destruct (IH (S i) ls H2 I) as (k & x' & N & L). exists (S k), x'. rewrite Nat.add_succ_r. auto.
Qed.
End P.
