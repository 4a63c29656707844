From Coq Require Import String NArith ZArith.
From Verif Require Import Base JsonModel JsonProofs JsonlModel RunStateModel RunStateProofs AuthModel AuthSpec AuthProofs
  WireModel WireSpec WireProofs CodecModel CodecSpec CodecProofs ManifestCodecModel ManifestCodecProofs HealthModel HealthSpec HealthProofs
  ProtocolModel ProtocolSpec.
Local Open Scope list_scope.

(* ---- enums ---- *)

Definition picks {A} (m : arm A) (a : A) : Prop :=
  match m with Plain _ _ is => is a = true | Holds _ _ _ get => get a <> None end.
Definition arm_ok {A} (m : arm A) : Prop :=
  match m with
  | Plain _ a is => forall x, is x = true <-> x = a
  | Holds _ c make get => lawful c /\ forall a b, get a = Some b <-> a = make b
  end.
Definition apart {A} (m m' : arm A) : Prop := forall a, picks m a -> picks m' a -> False.

Lemma name_differs (n n0 : string) : n <> n0 -> RunStateModel.bytes_eqb (text n) (text n0) = false.
Proof. intros H. rewrite eqb_text. now apply String.eqb_neq. Qed.

Lemma enum_written {A} (arms : list (arm A)) a : NoDup (map arm_name arms) -> Forall arm_ok arms -> ok_enum arms a ->
  exists n, In n (map arm_name arms) /\
    ((enc_enum arms a = JStr (text n) /\ dec_plain arms (text n) = Some a) \/
     (exists v, enc_enum arms a = variant n v /\ json_ok v /\ dec_holding arms (text n) v = Some a)).
Proof.
  induction arms as [|m arms IH]; intros ND F H; [contradiction|].
  inversion ND as [|? ? NI ND']; subst. inversion F as [|? ? M F']; subst. clear ND F. specialize (IH ND' F').
  destruct m as [n0 a0 is|B n0 c make get]; cbn [ok_enum enc_enum dec_plain dec_holding map arm_name] in *.
  - destruct (is a) eqn:E.
    + exists n0. split; [left; reflexivity|left]. split; [reflexivity|]. rewrite bytes_eqb_refl. f_equal. symmetry. now apply M.
    + destruct (IH H) as (n & I & D). exists n. split; [right; exact I|].
      assert (n <> n0) as X by (intros ->; contradiction). rewrite (name_differs _ _ X). exact D.
  - destruct M as [L G]. destruct (get a) as [b|] eqn:E.
    + destruct (written _ L b H) as (J & R & _). exists n0. split; [left; reflexivity|right]. exists (c_enc c b).
      split; [reflexivity|]. split; [exact J|]. rewrite bytes_eqb_refl, R. cbn. f_equal. symmetry. now apply G.
    + destruct (IH H) as (n & I & D). exists n. split; [right; exact I|].
      assert (n <> n0) as X by (intros ->; contradiction). rewrite (name_differs _ _ X). exact D.
Qed.

Lemma enum_picked {A} (arms : list (arm A)) a : ok_enum arms a -> exists m, In m arms /\ picks m a.
Proof.
  induction arms as [|m arms IH]; [contradiction|]. destruct m as [n0 a0 is|B n0 c make get]; cbn [ok_enum]; intros H.
  - destruct (is a) eqn:E; [eexists; split; [left; reflexivity|exact E]|]. destruct (IH H) as (m & I & P). exists m. split; [right; exact I|exact P].
  - destruct (get a) eqn:E; [eexists; split; [left; reflexivity|cbn; congruence]|]. destruct (IH H) as (m & I & P). exists m. split; [right; exact I|exact P].
Qed.

Lemma enum_plain {A} (arms : list (arm A)) n a : Forall arm_ok arms -> ForallOrdPairs apart arms -> dec_plain arms n = Some a ->
  ok_enum arms a /\ nesting (enc_enum arms a) = 0.
Proof.
  induction arms as [|m arms IH]; intros F D H; [discriminate|].
  inversion F as [|? ? M F']; subst. inversion D as [|? ? X D']; subst. rewrite Forall_forall in X.
  destruct m as [n0 a0 is|B n0 c make get]; cbn [ok_enum enc_enum dec_plain] in *.
  - destruct RunStateModel.bytes_eqb.
    + injection H as <-. rewrite (proj2 (M a0) eq_refl). auto.
    + destruct (IH F' D' H) as [K N]. destruct (enum_picked _ _ K) as (m & I & P).
      destruct (is a) eqn:E; [|auto]. now destruct (X m I a E P).
  - destruct (IH F' D' H) as [K N]. destruct (enum_picked _ _ K) as (m & I & P).
    destruct (get a) eqn:E; [|auto]. destruct (X m I a); [cbn; congruence|exact P].
Qed.

Lemma enum_holding {A} (arms : list (arm A)) n v a : Forall arm_ok arms -> ForallOrdPairs apart arms -> json_ok v ->
  dec_holding arms n v = Some a -> ok_enum arms a /\ nesting (enc_enum arms a) <= S (nesting v).
Proof.
  induction arms as [|m arms IH]; intros F D J H; [discriminate|].
  inversion F as [|? ? M F']; subst. inversion D as [|? ? X D']; subst. rewrite Forall_forall in X.
  destruct m as [n0 a0 is|B n0 c make get]; cbn [ok_enum enc_enum dec_holding] in *.
  - destruct (IH F' D' J H) as [K N]. destruct (enum_picked _ _ K) as (m & I & P).
    destruct (is a) eqn:E; [|auto]. now destruct (X m I a E P).
  - destruct RunStateModel.bytes_eqb.
    + destruct M as [L G]. destruct (c_dec c v) as [b|] eqn:E; [|discriminate]. injection H as <-.
      rewrite (proj2 (G (make b) b) eq_refl). destruct (readable _ L _ _ J E). rewrite nesting_variant. split; [assumption|lia].
    + destruct (IH F' D' J H) as [K N]. destruct (enum_picked _ _ K) as (m & I & P).
      destruct (get a) eqn:E; [|auto]. destruct (X m I a); [cbn; congruence|exact P].
Qed.

Lemma lawful_enum {A} (arms : list (arm A)) : NoDup (map arm_name arms) -> Forall arm_ok arms -> ForallOrdPairs apart arms ->
  lawful (c_enum arms).
Proof.
  intros ND F D. constructor; cbn [c_enum c_enc c_dec c_ok].
  - intros a H. destruct (enum_written arms a ND F H) as (n & _ & [[-> R]|(v & -> & J & R)]).
    + split; [exact I|]. split; [exact R|discriminate].
    + split; [apply variant_ok, J|]. split; [exact R|discriminate].
  - intros [| | |n| |l] a J H; try discriminate.
    + destruct (enum_plain arms n a F D H) as [K N]. split; [exact K|]. cbn [nesting]. lia.
    + destruct l as [|(k, v) [|]]; try discriminate. apply single_ok in J. rewrite nesting_single. exact (enum_holding arms k v a F D J H).
Qed.

(* ---- parts ---- *)

Lemma lawful_never : lawful c_never.
Proof. constructor; [intros []|discriminate]. Qed.

Lemma lawful_none : lawful_part p_none.
Proof.
  constructor; cbn.
  - reflexivity.
  - constructor.
  - intros [] l _ _ _. reflexivity.
  - intros ms a _ _. split; [exact I|constructor].
Qed.

Lemma lawful_i32 : lawful i32.
Proof.
  constructor; cbn [i32 c_enc c_dec c_ok].
  - intros z H. split; [apply num_ok_z|]. rewrite text_z_text. split; [|discriminate].
    destruct (Z.leb_spec (- 2 ^ 31) z); [|lia]. destruct (Z.ltb_spec z (2 ^ 31)); [reflexivity|lia].
  - intros [] a _ H; try discriminate. destruct (text_z text) as [z|]; [|discriminate].
    destruct (Z.leb_spec (- 2 ^ 31) z); [|discriminate]. destruct (Z.ltb_spec z (2 ^ 31)); [|discriminate]. injection H as <-. 
    split; [lia|cbn [nesting]; lia].
Qed.

Lemma lawful_nonzero : lawful nonzero_u64.
Proof.
  constructor; cbn [nonzero_u64 c_enc c_dec c_ok].
  - intros n (H & N). destruct (written _ lawful_u64 n H) as (J & R & X). split; [exact J|]. split; [|exact X].
    rewrite R. destruct n; [congruence|reflexivity].
  - intros j n J H. destruct (c_dec u64 j) as [m|] eqn:E; [|discriminate]. destruct (readable _ lawful_u64 _ _ J E) as [K L].
    destruct m; [discriminate|]. injection H as <-. repeat split; auto. discriminate.
Qed.

Lemma span_all d c r : Forall (fun x => is_digit x = true) d -> is_digit c = false -> span_digits (d ++ c :: r) = (d, c :: r).
Proof.
  induction 1 as [|x d X _ IH]; intros C; cbn [List.app span_digits]; [now rewrite C|]. rewrite X, (IH C). reflexivity.
Qed.

Definition lead_ok (d : bytes) : bool := match d with 48 :: _ :: _ => false | _ => true end.
Lemma octet_text n : (n < 256)%N -> List.length (nat_text n) <= 3 /\ lead_ok (nat_text n) = true.
Proof.
  intros H. 
  assert (X : forallb (fun k => (List.length (nat_text (N.of_nat k)) <=? 3) && lead_ok (nat_text (N.of_nat k)))%bool (seq 0 256) = true) by (vm_compute; reflexivity).
  rewrite forallb_forall in X. specialize (X (N.to_nat n)). rewrite N2Nat.id in X. 
  specialize (X ltac:(apply in_seq; lia)). apply andb_prop in X as [X Y]. split; [now apply Nat.leb_le|exact Y].
Qed.

Lemma octet_round n c r : (n < 256)%N -> is_digit c = false -> octet_then c (nat_text n ++ c :: r) = Some (n, r).
Proof.
  intros H C. unfold octet_then, octet.
  assert (D : Forall (fun x => is_digit x = true) (nat_text n)).
  { destruct (nat_text_start n) as (x & t & -> & X & T). constructor; auto. }
  rewrite (span_all _ c r D C), text_nat_text. destruct (octet_text n H) as [L Z].
  apply Nat.leb_le in L. rewrite L. change (match nat_text n with 48 :: _ :: _ => false | _ => true end) with (lead_ok (nat_text n)).
  rewrite Z. apply N.ltb_lt in H. rewrite H. cbn [andb expect]. rewrite Nat.eqb_refl. reflexivity.
Qed.

Section Addr.
Context {V : Type} (show6 : V -> bytes) (parse6 : bytes -> option V).
Hypothesis V6OK : addr6_ok show6 parse6.

Lemma octet_then_small c b n r : octet_then c b = Some (n, r) -> (n < 256)%N.
Proof.
  unfold octet_then, octet. destruct (span_digits b) as [d r0]. destruct (text_nat d) as [m|]; [|discriminate].
  destruct (_ && _)%bool eqn:E; [|discriminate]. destruct (expect c r0); [|discriminate]. intros [= <- <-].
  apply andb_prop in E as [_ E]. now apply N.ltb_lt in E.
Qed.

Lemma parse4_shows a b c d p : (a < 256)%N -> (b < 256)%N -> (c < 256)%N -> (d < 256)%N -> (p < 2 ^ 16)%N ->
  parse4 (V := V) (show_addr show6 (V4 a b c d p)) = Some (V4 a b c d p).
Proof.
  intros A B C D P. cbv beta delta [parse4 show_addr]. cbn [List.app].
  do 4 (rewrite octet_round by (assumption || reflexivity)). rewrite text_nat_text. apply N.ltb_lt in P. rewrite P. reflexivity.
Qed.

Lemma parse4_bracket t : parse4 (V := V) (91 :: t) = None.
Proof. reflexivity. Qed.

Lemma parse4_small x y : parse4 (V := V) x = Some y -> exists a b c d p, y = V4 a b c d p /\
  (a < 256)%N /\ (b < 256)%N /\ (c < 256)%N /\ (d < 256)%N /\ (p < 2 ^ 16)%N.
Proof.
  cbv beta delta [parse4]. intros H.
  destruct (octet_then 46 x) as [[a r1]|] eqn:E1; [|discriminate]. destruct (octet_then 46 r1) as [[b r2]|] eqn:E2; [|discriminate].
  destruct (octet_then 46 r2) as [[c r3]|] eqn:E3; [|discriminate]. destruct (octet_then 58 r3) as [[d r4]|] eqn:E4; [|discriminate].
  destruct (text_nat r4) as [p|]; [|discriminate]. destruct (N.ltb_spec p (2 ^ 16)) as [P|]; [|discriminate]. injection H as <-.
  apply octet_then_small in E1, E2, E3, E4. exists a, b, c, d, p. auto 10.
Qed.

Lemma lawful_addr : lawful (c_addr show6 parse6).
Proof.
  destruct V6OK as [R6 B6]. constructor; cbn [c_addr c_enc c_dec c_ok].
  - intros a H. split; [exact I|]. split; [|discriminate]. unfold parse_addr. destruct a as [a b c d p|v].
    + destruct H as (A & B & C & D & P). rewrite parse4_shows by assumption. reflexivity.
    + cbn [show_addr]. destruct (B6 v) as (t & E). rewrite E, parse4_bracket, <- E, R6. reflexivity.
  - intros [| | |s| |] a _ H; try discriminate. split; [|cbn [nesting]; lia]. unfold parse_addr in H.
    destruct (parse4 s) as [x|] eqn:E.
    + injection H as <-. destruct (parse4_small s x E) as (a & b & c & d & p & -> & K). exact K.
    + destruct (parse6 s); [|discriminate]. injection H as <-. exact I.
Qed.
End Addr.

(* ---- the messages ---- *)

Ltac arms := apply lawful_enum;
  [distinct
  |repeat (apply Forall_cons || apply Forall_nil); cbn [arm_ok];
   first [intros []; split; intros ?; congruence
         |split; [auto 10 with codecs
                 |let x := fresh in intros x; destruct x; intros; repeat match goal with b : _ * _ |- _ => destruct b end; split; cbv beta iota; intros ?; congruence]]
  |repeat (apply FOP_cons || apply FOP_nil); repeat (apply Forall_cons || apply Forall_nil); intros []; cbn [picks]; congruence].

#[export] Hint Resolve lawful_never lawful_none lawful_i32 lawful_nonzero lawful_manifest_result : codecs.
#[export] Hint Extern 5 (lawful (c_struct _)) => apply lawful_struct; [distinct|] : codecs.

Lemma lawful_queue_message : lawful c_queue_message. Proof. arms. Qed.
Lemma lawful_work_message : lawful c_work_message. Proof. arms. Qed.
Lemma lawful_strategy : lawful c_strategy. Proof. arms. Qed.
#[export] Hint Resolve lawful_strategy : codecs.
Lemma lawful_invoke : lawful c_invoke_work. Proof. struct. Qed.
#[export] Hint Resolve lawful_invoke : codecs.
Lemma lawful_negotiator_message : lawful c_negotiator_message. Proof. arms. Qed.
Lemma lawful_to {M} (c : codec M) : lawful c -> lawful (c_to c).
Proof. intros L. apply lawful_struct; [cbv; repeat (constructor; [simpl; intuition discriminate|]); constructor|]. apply lawful_both; apply lawful_req; [apply CodecProofs.lawful_entity|exact L]. Qed.
Lemma lawful_run_status : lawful c_run_status. Proof. arms. Qed.
Lemma lawful_results_response : lawful c_results_response. Proof. arms. Qed.
Lemma lawful_assigned_kind : lawful c_assigned_kind. Proof. arms. Qed.
Lemma lawful_cancel_reason : lawful c_cancel_reason. Proof. arms. Qed.
#[export] Hint Resolve lawful_assigned_kind lawful_cancel_reason : codecs.
Lemma lawful_assigned : lawful c_assigned. Proof. apply lawful_struct; [distinct|auto with codecs]. Qed.
Lemma lawful_active_runs : lawful c_active_runs. Proof. apply lawful_struct; [distinct|auto with codecs]. Qed.
Lemma lawful_ack name : lawful (c_tagged name p_none).
Proof. apply lawful_tagged; [distinct|apply lawful_none]. Qed.

Section Addr2.
Context {V : Type} (show6 : V -> bytes) (parse6 : bytes -> option V).
Hypothesis V6OK : addr6_ok show6 parse6.
Lemma lawful_negotiator_info : lawful (c_negotiator_info show6 parse6).
Proof. apply lawful_struct; [distinct|]. apply lawful_both; apply lawful_req; [now apply lawful_addr|apply lawful_str]. Qed.
Lemma lawful_context : lawful (c_context show6 parse6).
Proof.
  apply lawful_struct; [distinct|]. apply lawful_both; [|apply lawful_both]; apply lawful_req; try now apply lawful_addr. apply lawful_assigned.
Qed.
Lemma lawful_attach : lawful (c_attach_response show6 parse6).
Proof. pose proof lawful_context as LC. arms. Qed.
End Addr2.

(* ---- depth ---- *)

Lemma to_deep {M} (c : codec M) e m d : 3 <= d -> nesting (c_enc c m) <= d -> nesting (c_enc (c_to c) (e, m)) <= S d.
Proof.
  intros D H. unfold c_to. cbn [c_struct c_enc]. apply obj_deep. cbn [both_parts req p_slots fst snd app].
  pose proof (entity_deep e). constructor; [|constructor; [|constructor]]; unfold slot_le; cbn [snd if_some]; lia.
Qed.

Lemma queue_message_deep d m : queue_deep d m -> nesting (c_enc c_queue_message m) <= 3 + d.
Proof.
  destruct m as [| |r l|r|r x|r l|r|r|r]; cbn [queue_deep]; intros H; try (simpl; lia).
  - change (nesting (variant "NegotiatorInfo" (obj [("run_id"%string, Some (JStr r)); ("deprecations"%string, Some (c_enc (c_vec c_never) l))])) <= 3 + d).
    rewrite nesting_variant. enough (nesting (obj [("run_id"%string, Some (JStr r)); ("deprecations"%string, Some (c_enc (c_vec c_never) l))]) <= 2) by lia.
    apply obj_deep. constructor; [|constructor; [|constructor]]; unfold slot_le; cbn [snd if_some]; [simpl; lia|].
    destruct l as [|[] ?]. simpl. lia.
  - change (nesting (variant "ManifestResult" (JArr [JStr r; c_enc c_manifest_result x])) <= 3 + d). rewrite nesting_variant.
    enough (nesting (JArr [JStr r; c_enc c_manifest_result x]) <= S d) by lia. apply arr_deep. constructor; [cbn [nesting]; lia|]. constructor; [exact H|constructor].
  - change (nesting (variant "WorkerResult" (JArr [JStr r; c_enc (c_vec c_associated) l])) <= 3 + d). rewrite nesting_variant.
    enough (nesting (JArr [JStr r; c_enc (c_vec c_associated) l]) <= S (S d)) by lia. apply arr_deep. constructor; [cbn [nesting]; lia|].
    constructor; [|constructor]. cbn [c_vec c_enc]. apply arr_deep. rewrite Forall_map. exact H.
Qed.

Lemma work_message_deep m : nesting (c_enc c_work_message m) <= 5.
Proof.
  destruct m as [|r|r|r e]; try (simpl; lia).
  change (nesting (variant "RetryManifestPartition" (obj [("run_id"%string, Some (JStr r)); ("entity"%string, Some (c_enc c_entity e))])) <= 5).
  rewrite nesting_variant. apply le_n_S. apply obj_deep. pose proof (entity_deep e).
  constructor; [|constructor; [|constructor]]; unfold slot_le; cbn [snd if_some]; [simpl; lia|lia].
Qed.

Lemma invoke_deep i : nesting (c_enc c_invoke_work i) <= 2.
Proof.
  unfold c_invoke_work. cbn [c_struct c_enc]. apply obj_deep. cbn [as_record both_parts req p_slots fst snd app].
  unfold slot_le. constructor; [simpl; lia|]. constructor; [simpl; lia|]. constructor; [destruct (iw_strategy i); simpl; lia|]. constructor; [|constructor].
  cbn [snd if_some c_array c_enc]. exact (nums_flat u8 (iw_command_hash i) flat_u8).
Qed.
Lemma negotiator_message_deep m : nesting (c_enc c_negotiator_message m) <= 4.
Proof.
  destruct m as [|i]; [simpl; lia|].
  change (nesting (variant "WantsToAttach" (obj [("invoke_data"%string, Some (c_enc c_invoke_work i))])) <= 4).
  rewrite nesting_variant. apply le_n_S. apply obj_deep. constructor; [|constructor]. exact (invoke_deep i).
Qed.

Lemma results_response_deep x : nesting (c_enc c_results_response x) <= 5.
Proof.
  destruct x as [| |l|e]; try (simpl; lia).
  change (nesting (variant "RunInProgress" (obj [("active_runners"%string, Some (c_enc (c_vec c_tag) l))])) <= 5).
  rewrite nesting_variant. apply le_n_S. apply (obj_deep 3). constructor; [|constructor]. exact (tags_deep l).
Qed.
Lemma run_status_deep x : nesting (c_enc c_run_status x) <= 2.
Proof. destruct x; simpl; lia. Qed.
Lemma attach_deep {V} (show6 : V -> bytes) parse6 x : nesting (c_enc (c_attach_response show6 parse6) x) <= 5.
Proof. destruct x as [z|[]|(a & b & k & c)| |e]; try (simpl; lia). destruct k; simpl; lia. Qed.

(* ---- what fits is written ---- *)

Lemma entity_writable e : an_entity e -> c_ok c_entity e.
Proof. intros ((O & L) & T). cbn. repeat split; auto. Qed.
Lemma queue_writable m : queue_fits m -> c_ok c_queue_message m.
Proof. destruct m as [| |r l|r|r x|r l|r|r|r]; cbn; auto. intros _. split; [exact I|]. induction l; constructor; auto. Qed.
Lemma work_writable m : work_fits m -> c_ok c_work_message m.
Proof. destruct m; cbn [work_fits]; intros H; try exact I. split; [exact I|]. now apply entity_writable. Qed.
Lemma negotiator_writable m : negotiator_fits m -> c_ok c_negotiator_message m.
Proof.
  destruct m as [|i]; [intros _; exact I|]. intros (B & U & O & L). cbn. destruct (iw_strategy i); repeat split; auto; lia.
Qed.

Lemma entity_read e : c_ok c_entity e -> an_entity e.
Proof. intros ((O & L) & T). repeat split; auto. Qed.
Lemma queue_read m : c_ok c_queue_message m -> queue_fits m.
Proof. destruct m as [| |r l|r|r x|r l|r|r|r]; cbn; tauto. Qed.
Lemma work_read m : c_ok c_work_message m -> work_fits m.
Proof. destruct m; cbn [work_fits]; auto. intros (_ & E). now apply entity_read. Qed.
Lemma negotiator_read m : c_ok c_negotiator_message m -> negotiator_fits m.
Proof.
  destruct m as [|i]; [intros _; exact I|]. intros (_ & (B & Z) & _ & (O & L)). split; [apply N.neq_0_lt_0; exact Z|]. repeat split; assumption.
Qed.

(* ---- the wire ---- *)

Section Wire.
Context (gz_encode : bytes -> bytes) (gz_decode : bytes -> option bytes).
Hypothesis GZ : gz_ok gz_encode gz_decode.
Notation frame := (frame gz_encode true).
Notation sendable := (sendable gz_encode true).

Lemma short_sendable {A} (c : codec A) a : lawful c -> c_ok c a -> nesting (c_enc c a) < 128 -> short gz_encode c a -> sendable (c_enc c a).
Proof.
  intros L OK N SH. split; [apply (written _ L a OK)|]. split; [exact N|].
  unfold short in SH. rewrite frame_length in SH. lia.
Qed.

Lemma frame_alone m : frame m = wire gz_encode true [m].
Proof. unfold WireSpec.wire. cbn [flat_map]. now rewrite app_nil_r. Qed.

Lemma taken_alone {A} (c : codec A) a es : lawful c -> c_ok c a -> sendable (c_enc c a) ->
  let m := c_enc c a in
  (undisturbed es -> no_cancel_at_header gz_decode false (connect (frame m)) es ->
     takes c (run (wstep gz_decode false) (connect (frame m)) es) = StillReading \/
     takes c (run (wstep gz_decode false) (connect (frame m)) es) = Takes a) /\
  (reads_on (List.length (frame m)) es -> takes c (run (wstep gz_decode false) (connect (frame m)) es) = Takes a).
Proof.
  intros L OK S m. destruct (written _ L a OK) as (_ & R & _). fold m in S, R. rewrite frame_alone. split.
  - intros U NC. destruct (at_msg_run gz_encode gz_decode GZ true [m] es ltac:(constructor; auto) 0 [] _ (at_msg_start _ _ _) U NC) as (k & part & A').
    destruct A' as (_ & O & K & _). unfold takes. rewrite O. cbn [List.length] in K. destruct k as [|k]; [left; reflexivity|right].
    cbn [firstn delivered map]. unfold delivered. cbn [map]. rewrite R. reflexivity.
  - intros (U & rest & -> & B). rewrite <- frame_alone in B.
    destruct (reading_ends gz_encode gz_decode GZ m rest S) with (w := wstep gz_decode false (connect (wire gz_encode true [m])) Call) (part := @nil nat) as (n & out & O).
    + intros e I. apply U. now right.
    + destruct (at_msg_step gz_encode gz_decode GZ true [m] 0 [] _ Call ltac:(constructor; auto) (at_msg_start _ _ _)) as (k' & p' & A'); try discriminate.
      { intros (X & _). discriminate. }
      pose proof A' as (_ & O' & K & E & _). 
      destruct k' as [|k']; [|destruct k'; [discriminate|cbn in K; lia]].
      assert (p' = []) as -> by (cbn [skipn wstep connect w_failed w_calling w_stream] in E; apply (f_equal (@List.length _)) in E; rewrite app_length in E; destruct p'; [reflexivity|cbn [List.length] in E; unfold bytes, byte in *; lia]).
      exact A'.
    + reflexivity.
    + unfold bytes_events. cbn [wstep connect w_failed w_calling w_stream]. rewrite <- frame_alone. exact B.
    + cbn [run fold_left]. unfold takes. unfold run in O. rewrite O, R. reflexivity.
Qed.

Lemma admitted_any auth token stream : client_ok token -> admits auth token ->
  exists r, handshake auth (send_header token ++ stream) = Some (r, stream).
Proof.
  intros CO A. unfold handshake. destruct auth as [|u a], token as [|t]; try contradiction.
  - exists RAdmin. reflexivity.
  - destruct CO as [Lc _]. cbn [send_header].
    match goal with |- context [?x <? TOKEN_LEN] => assert ((x <? TOKEN_LEN) = false) as -> end.
    { apply Nat.ltb_ge. rewrite app_length, Lc. apply Nat.le_add_r. }
    unfold TOKEN_LEN. rewrite firstn_app, skipn_app, Lc, Nat.sub_diag, firstn_O, app_nil_r, <- Lc, firstn_all, skipn_all.
    cbn [skipn List.app]. unfold verify_header_help.
    destruct A as [-> | ->].
    + assert (AuthModel.bytes_eqb u u = true) as -> by now apply bytes_eqb_spec. eauto.
    + assert (AuthModel.bytes_eqb a a = true) as -> by now apply bytes_eqb_spec. destruct AuthModel.bytes_eqb; eauto.
Qed.

Lemma understands {A} (c : codec A) a : lawful c -> c_ok c a -> nesting (c_enc c a) < 128 -> short gz_encode c a ->
  understood gz_encode gz_decode c a.
Proof.
  intros L OK N SH auth token es CO AD. pose proof (short_sendable c a L OK N SH) as S.
  unfold serves, says. destruct (admitted_any auth token (frame (c_enc c a)) CO AD) as (r & ->).
  exact (taken_alone c a es L OK S).
Qed.

Lemma hears_it {A} (c : codec A) a : lawful c -> c_ok c a -> nesting (c_enc c a) < 128 -> short gz_encode c a ->
  heard_as_said gz_encode gz_decode c a.
Proof.
  intros L OK N SH. pose proof (short_sendable c a L OK N SH) as S. split; [|split].
  - intros es. apply (taken_alone c a es L OK S).
  - intros es. apply (taken_alone c a es L OK S).
  - intros closed turns F E. unfold hears_blocking.
    pose proof (read_help_ok gz_encode gz_decode GZ true closed (c_enc c a) [] turns S) as X. rewrite app_nil_r in X.
    destruct read_help as [m st ts|er|].
    + destruct X as (-> & _ & _). destruct (written _ L a OK) as (_ & R & _). rewrite R. reflexivity.
    + exfalso. apply X. intros t I. apply F in I. destruct t; tauto.
    + exfalso. lia.
Qed.

(* whatever was read is a JSON value of the model *)
Lemma read_sound closed stream es : Forall (fun x => match x with Message m _ => json_ok m | WireModel.Error _ => True end)
  (w_out (run (wstep gz_decode closed) (connect stream) es)).
Proof.
  apply (run_invariant (wstep gz_decode closed) (fun w => Forall (fun x => match x with Message m _ => json_ok m | WireModel.Error _ => True end) (w_out w))).
  2: constructor.
  intros w e H.
  assert (D : forall k, Forall (fun x => match x with Message m _ => json_ok m | WireModel.Error _ => True end) (w_out (deliver gz_decode w k))).
  { intros k. unfold deliver. destruct on_read as [r [[m sz|er]|]] eqn:E; cbn [w_out]; [|apply Forall_app; split; [exact H|constructor; [exact I|constructor]]|exact H].
    apply Forall_app. split; [exact H|]. constructor; [|constructor].
    unfold on_read in E. 
    repeat match type of E with context [match ?x with _ => _ end] => destruct x eqn:?; try discriminate end.
    all: injection E as <- <- <-.
    all: match goal with H : parse _ _ _ = Some _ |- _ => unfold parse in H end.
    all: repeat match goal with H : match ?x with _ => _ end = Some _ |- _ => destruct x; try discriminate end.
    all: match goal with H : read_json _ = Some _ |- _ => apply read_json_sound in H; tauto end. }
  assert (FL : forall er, Forall (fun x => match x with Message m _ => json_ok m | WireModel.Error _ => True end) (w_out (fail w er))).
  { intros er. unfold fail. cbn [w_out]. apply Forall_app. split; [exact H|constructor; [exact I|constructor]]. }
  unfold wstep. destruct (w_failed w); [exact H|]. destruct e as [| |n| |]; destruct (w_calling w); cbn [w_out]; try exact H.
  - destruct (Nat.eqb _ 0); [apply D|]. destruct (w_stream w); [destruct closed; [apply D|exact H]|apply D].
  - destruct (r_msg_size _); [apply FL|exact H].
  - apply FL.
Qed.

Lemma takes_sound {A} (c : codec A) closed stream es a : lawful c ->
  takes c (run (wstep gz_decode closed) (connect stream) es) = Takes a -> c_ok c a.
Proof.
  intros L H. unfold takes in H. pose proof (read_sound closed stream es) as F.
  destruct (w_out _) as [|[m n|er] out]; try discriminate. inversion F as [|? ? J _]; subst.
  destruct (c_dec c m) as [x|] eqn:E; [|discriminate]. injection H as <-. apply (readable _ L _ _ J E).
Qed.

Lemma serves_sound {A} (c : codec A) auth sent es a : lawful c -> serves gz_decode c auth sent es = Takes a -> c_ok c a /\ showed auth sent.
Proof.
  intros L H. unfold serves in H. destruct (handshake auth sent) as [[r st]|] eqn:E; [|discriminate].
  split; [exact (takes_sound c false st es a L H)|].
  destruct auth as [|u ad]; [exact I|]. unfold handshake in E. destruct (_ <? _); [discriminate|].
  unfold verify_header_help in E. cbn [showed]. exists (skipn TOKEN_LEN sent). unfold bytes, byte in *.
  destruct (AuthModel.bytes_eqb (firstn TOKEN_LEN sent) u) eqn:E1.
  - left. apply bytes_eqb_spec in E1. rewrite <- E1. symmetry. apply firstn_skipn.
  - destruct (AuthModel.bytes_eqb (firstn TOKEN_LEN sent) ad) eqn:E2; [|discriminate]. right. apply bytes_eqb_spec in E2. rewrite <- E2. symmetry. apply firstn_skipn.
Qed.

(* ---- who is not admitted ---- *)

Lemma frame_first m : (Z.of_nat (List.length (frame m)) < 2 ^ 31)%Z -> exists c t, frame m = c :: t /\ ~ is_alnum c.
Proof.
  intros H. rewrite frame_length, Nat2Z.inj_add in H. rewrite frame_eq. unfold size_header. rewrite as_i32_id by lia.
  pose proof (Zle_0_nat (List.length (body gz_encode true m))) as P.
  unfold WireSpec.body in *. unfold write_message_bytes_help in *. cbn [andb] in *.
  destruct (Z.ltb_spec LARGE_MESSAGE_SIZE (Z.of_nat (List.length (write m)))) as [LT|GE]; cbn [fst snd] in *.
  - set (n := Z.of_nat (List.length (gz_encode (write m)))) in *.
    assert (n <> 0)%Z as NZ.
    { unfold n. destruct (gz_encode (write m)) eqn:E; [now apply (proj2 GZ) in E|cbn [List.length]; lia]. }
    clearbody n. unfold to_be_bytes. eexists. eexists. split; [reflexivity|].
    assert (E : (- n mod 2 ^ 32 = 2 ^ 32 - n)%Z) by (symmetry; apply Z.mod_unique with (-1)%Z; lia). rewrite E.
    assert (128 <= (2 ^ 32 - n) / 2 ^ 24)%Z by (apply Z.div_le_lower_bound; lia). unfold is_alnum. lia.
  - unfold LARGE_MESSAGE_SIZE in GE. set (n := Z.of_nat (List.length (write m))) in *. clearbody n.
    unfold to_be_bytes. eexists. eexists. split; [reflexivity|]. rewrite Z.mod_small by lia. rewrite Z.div_small by lia. unfold is_alnum. simpl. lia.
Qed.

Lemma alnum_size_large a b c d : is_alnum a -> is_alnum b -> is_alnum c -> is_alnum d ->
  exists size k, read_size [a; b; c; d] = (size, k) /\ (800000000 <= Z.of_nat size)%Z.
Proof.
  intros A B C D. unfold read_size, from_be_bytes. cbn [fold_left]. eexists. eexists. split; [reflexivity|].
  assert (forall x, is_alnum x -> (48 <= Z.of_nat x <= 122)%Z) as H by (unfold is_alnum; intros; lia).
  apply H in A, B, C, D. rewrite as_i32_id by lia. rewrite Z2Nat.id by lia. lia.
Qed.

Lemma not_taken {A B} (c : codec A) (c' : codec B) a auth token es x : server_ok auth -> client_ok token -> ~ admits auth token ->
  (Z.of_nat (List.length (says gz_encode c token a)) < 800000000)%Z ->
  serves gz_decode c' auth (says gz_encode c token a) es <> Takes x.
Proof.
  intros SO CO NA SZ. unfold serves, says in *. rewrite app_length in SZ. 
  assert (SF : (Z.of_nat (List.length (frame (c_enc c a))) < 2 ^ 31)%Z) by (unfold bytes, byte in *; lia).
  destruct (frame_first (c_enc c a) SF) as (f & ft & EF & NF).
  destruct auth as [|u ad].
  - destruct token as [|t]; [exfalso; apply NA; exact I|]. cbn [handshake send_header] in *.
    unfold takes. 
    assert (NM : forall m n out, w_out (run (wstep gz_decode false) (connect (t ++ frame (c_enc c a))) es) <> Message m n :: out).
    { destruct CO as [Lt Ft]. 
      destruct t as [|c1 [|c2 [|c3 [|c4 t]]]]; cbn [List.length] in Lt; try lia.
      inversion Ft as [|? ? A1 F1]; subst. inversion F1 as [|? ? A2 F2]; subst. inversion F2 as [|? ? A3 F3]; subst. inversion F3 as [|? ? A4 F4]; subst.
      destruct (alnum_size_large c1 c2 c3 c4 A1 A2 A3 A4) as (size & k & RS & SZ').
      apply (starved_run gz_decode false size k).
      - cbn [List.app List.length]. lia.
      - cbn [List.app firstn]. exact RS.
      - cbn [List.app List.length] in *. rewrite app_length. unfold bytes, byte in *. lia. }
    destruct w_out as [|[m n|er] out] eqn:E; try discriminate. now destruct (NM m n out).
  - unfold handshake. destruct (_ <? _) eqn:LL; [discriminate|]. apply Nat.ltb_ge in LL. destruct SO as [[Lu Fu] [La Fa]].
    assert (Hx : forall t, t = u \/ t = ad -> AuthModel.bytes_eqb (firstn TOKEN_LEN (send_header token ++ frame (c_enc c a))) t = false).
    { intros t Ht. destruct (AuthModel.bytes_eqb _ t) eqn:E; [|reflexivity]. exfalso. apply bytes_eqb_spec in E.
      destruct token as [|ct]; cbn [send_header List.app] in E.
      - rewrite EF in E. unfold TOKEN_LEN in E. cbn [firstn] in E. apply NF.
        destruct Ht as [-> | ->]; rewrite <- E in *; [inversion Fu|inversion Fa]; assumption.
      - destruct CO as [Lc _]. unfold TOKEN_LEN in E. rewrite firstn_app, Lc, Nat.sub_diag, firstn_O, app_nil_r, <- Lc, firstn_all in E.
        subst ct. apply NA. exact Ht. }
    unfold verify_header_help. rewrite (Hx u (or_introl eq_refl)), (Hx ad (or_intror eq_refl)). discriminate.
Qed.
End Wire.

(* ---- services are not confused ---- *)

(* what is read of a message of an enum *)
Lemma to_read {M} (c : codec M) j e m : c_dec (c_to c) j = Some (e, m) ->
  exists ms v, j = JObj ms /\ find_field "message" ms = One v /\ c_dec c v = Some m.
Proof.
  unfold c_to. cbn [c_struct c_dec]. destruct j as [| | | | |ms]; try discriminate. cbn [both_parts req p_dec].
  destruct (find_field "entity" ms) as [|x|]; try discriminate. destruct (c_dec c_entity x); [|discriminate].
  destruct (find_field "message" ms) as [|v|] eqn:F; try discriminate. destruct (c_dec c v) eqn:D; [|discriminate].
  intros [= <- <-]. eauto.
Qed.

Definition plain_names {A} (arms : list (arm A)) : list string :=
  flat_map (fun m => match m with Plain n _ _ => [n] | Holds _ _ _ _ => [] end) arms.
Definition holding_names {A} (arms : list (arm A)) : list string :=
  flat_map (fun m => match m with Plain _ _ _ => [] | Holds n _ _ _ => [n] end) arms.

Lemma plain_in {A} (arms : list (arm A)) n a : dec_plain arms n = Some a -> exists k, n = text k /\ In k (plain_names arms).
Proof.
  induction arms as [|[n0 a0 is|B n0 c mk get] arms IH]; cbn [dec_plain plain_names flat_map]; [discriminate| |].
  - destruct (RunStateModel.bytes_eqb n (text n0)) eqn:E; intros H.
    + apply eqb_true in E. exists n0. split; [exact E|left; reflexivity].
    + destruct (IH H) as (k & E' & I). exists k. split; [exact E'|right; exact I].
  - intros H. destruct (IH H) as (k & E' & I). exists k. split; [exact E'|exact I].
Qed.
Lemma holding_in {A} (arms : list (arm A)) n v a : dec_holding arms n v = Some a -> exists k, n = text k /\ In k (holding_names arms).
Proof.
  induction arms as [|[n0 a0 is|B n0 c mk get] arms IH]; cbn [dec_holding holding_names flat_map]; [discriminate| |].
  - intros H. destruct (IH H) as (k & E' & I). exists k. split; [exact E'|exact I].
  - destruct (RunStateModel.bytes_eqb n (text n0)) eqn:E; intros H.
    + apply eqb_true in E. exists n0. split; [exact E|left; reflexivity].
    + destruct (IH H) as (k & E' & I). exists k. split; [exact E'|right; exact I].
Qed.

Lemma enums_apart {A B} (la : list (arm A)) (lb : list (arm B)) j a b :
  (forall k, In k (holding_names la) -> ~ In k (holding_names lb)) ->
  c_dec (c_enum la) j = Some a -> c_dec (c_enum lb) j = Some b ->
  exists k, j = JStr (text k) /\ In k (plain_names la) /\ In k (plain_names lb).
Proof.
  intros D. cbn [c_enum c_dec]. destruct j as [| | |n| |l]; try discriminate.
  - intros H H'. destruct (plain_in _ _ _ H) as (k & -> & I). destruct (plain_in _ _ _ H') as (k' & E & I'). apply text_inj in E. subst k'. eauto.
  - destruct l as [|(k, v) [|]]; try discriminate. intros H H'. exfalso.
    destruct (holding_in _ _ _ _ H) as (n & -> & I). destruct (holding_in _ _ _ _ H') as (n' & E & I'). apply text_inj in E. subst n'. exact (D n I I').
Qed.
