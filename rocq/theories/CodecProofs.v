From Verif Require Import Base JsonModel JsonProofs JsonlModel RunStateModel RunStateProofs CodecModel CodecSpec.
From Coq Require Import String Sorted.

(* ---- what reading gives ---- *)

Lemma span_num_ok b t r : span_num b = (t, r) -> Forall (fun c => is_num c = true) t.
Proof.
  revert t r. induction b as [|c b IH]; intros t r H; simpl in H; [injection H as <- <-; constructor|].
  destruct (is_num c) eqn:E; [|injection H as <- <-; constructor].
  destruct (span_num b) as (t', r') eqn:S'. injection H as <- <-. constructor; [exact E|]. eapply IH; reflexivity.
Qed.

Lemma read_elems_sound rv (P : json -> Prop) : (forall b v r, rv b = Some (v, r) -> P v) ->
  forall fuel b l r, read_elems rv fuel b = Some (l, r) -> Forall P l.
Proof.
  intros H fuel. induction fuel as [|fuel IH]; intros b l r E; [discriminate|]. cbn [read_elems] in E.
  destruct (rv b) as [(v, b1)|] eqn:V; [|discriminate].
  destruct (skip_ws b1) as [|c b2]; [discriminate|].
  destruct (Nat.eqb c c_rbrack); [injection E as <- <-; constructor; eauto|].
  destruct (Nat.eqb c c_comma); [|discriminate].
  destruct (read_elems rv fuel b2) as [(vs, r')|] eqn:R; [|discriminate]. injection E as <- <-. constructor; eauto.
Qed.

Lemma read_members_sound rv (P : json -> Prop) : (forall b v r, rv b = Some (v, r) -> P v) ->
  forall fuel b l r, read_members rv fuel b = Some (l, r) -> Forall (fun kv => P (snd kv)) l.
Proof.
  intros H fuel. induction fuel as [|fuel IH]; intros b l r E; [discriminate|]. cbn [read_members] in E.
  destruct (skip_ws b) as [|q b0]; [discriminate|].
  destruct (Nat.eqb q c_quote); [|discriminate].
  destruct (read_str b0) as [(k, b1)|]; [|discriminate].
  destruct (skip_ws b1) as [|c b2]; [discriminate|].
  destruct (Nat.eqb c c_colon); [|discriminate].
  destruct (rv b2) as [(v, b3)|] eqn:V; [|discriminate].
  destruct (skip_ws b3) as [|d b4]; [discriminate|].
  destruct (Nat.eqb d c_rbrace); [injection E as <- <-; constructor; [simpl; eauto|constructor]|].
  destruct (Nat.eqb d c_comma); [|discriminate].
  destruct (read_members rv fuel b4) as [(vs, r')|] eqn:R; [|discriminate]. injection E as <- <-. constructor; [simpl; eauto|eauto].
Qed.

Lemma nesting_arr_lt l n : 0 < n -> Forall (fun x => nesting x < n) l -> nesting (JArr l) < S n.
Proof.
  intros Z H. simpl. apply le_n_S.
  induction H as [|x l Hx _ IH]; simpl; lia.
Qed.
Lemma nesting_obj_lt l n : 0 < n -> Forall (fun kv => nesting (snd kv) < n) l -> nesting (JObj l) < S n.
Proof.
  intros Z H. simpl. apply le_n_S.
  induction H as [|x l Hx _ IH]; simpl; lia.
Qed.

Lemma read_value_sound d : forall b j r, 0 < d -> read_value d b = Some (j, r) -> json_ok j /\ nesting j < d.
Proof.
  induction d as [|d IH]; intros b j r Z H; [lia|]. cbn [read_value] in H.
  destruct (skip_ws b) as [|c b1]; [discriminate|].
  destruct (Nat.eqb c c_quote).
  { destruct (read_str b1) as [(s, r')|]; [|discriminate]. injection H as <- <-. split; [exact I|simpl; lia]. }
  destruct (Nat.eqb c c_lbrack).
  { destruct d as [|d]; [discriminate|].
    destruct (skip_ws b1) as [|x b2]; [discriminate|].
    destruct (Nat.eqb x c_rbrack); [injection H as <- <-; split; [exact I|simpl; lia]|].
    destruct (read_elems (read_value (S d)) (List.length b1) b1) as [(l, r')|] eqn:E; [|discriminate]. injection H as <- <-.
    apply read_elems_sound with (P := fun j => json_ok j /\ nesting j < S d) in E; [|intros; eapply IH; eauto; lia].
    split; [apply json_ok_arr; eapply Forall_impl; [|exact E]; cbn; tauto|].
    apply nesting_arr_lt; [lia|]. eapply Forall_impl; [|exact E]; cbn; tauto. }
  destruct (Nat.eqb c c_lbrace).
  { destruct d as [|d]; [discriminate|].
    destruct (skip_ws b1) as [|x b2]; [discriminate|].
    destruct (Nat.eqb x c_rbrace); [injection H as <- <-; split; [exact I|simpl; lia]|].
    destruct (read_members (read_value (S d)) (List.length b1) b1) as [(l, r')|] eqn:E; [|discriminate]. injection H as <- <-.
    apply read_members_sound with (P := fun j => json_ok j /\ nesting j < S d) in E; [|intros; eapply IH; eauto; lia].
    split; [apply json_ok_obj; eapply Forall_impl; [|exact E]; cbn; tauto|].
    apply nesting_obj_lt; [lia|]. eapply Forall_impl; [|exact E]; cbn; tauto. }
  destruct (is_digit c || Nat.eqb c 45) eqn:D.
  { destruct (span_num b1) as (t, r') eqn:E. destruct (is_number (c :: t)) eqn:IN; [|discriminate]. injection H as <- <-. split; [|simpl; lia].
    split; [exact IN|]. exists c, t. split; [reflexivity|]. split; [exact D|]. eapply span_num_ok; eauto. }
  repeat match type of H with match ?x with _ => _ end = _ => destruct x as [?|] end; try discriminate;
    injection H as <- <-; split; try exact I; simpl; lia.
Qed.

Lemma read_json_sound b j : read_json b = Some j -> json_ok j /\ nesting j < 128.
Proof.
  unfold read_json. destruct (read_value recursion_limit b) as [(j', r)|] eqn:E; [|discriminate].
  intro H. assert (j' = j) as -> by (destruct (skip_ws r); congruence).
  apply read_value_sound in E; [exact E|]. unfold recursion_limit. lia.
Qed.

(* ---- canonical values ---- *)

Lemma ltb_irrefl a : bytes_ltb a a = false.
Proof. induction a as [|x a IH]; simpl; [reflexivity|]. rewrite Nat.ltb_irrefl, Nat.eqb_refl, IH. reflexivity. Qed.
Lemma ltb_trans a b c : bytes_ltb a b = true -> bytes_ltb b c = true -> bytes_ltb a c = true.
Proof.
  revert b c. induction a as [|x a IH]; intros [|y b] [|z c]; simpl; try congruence.
  rewrite !orb_true_iff, !andb_true_iff, !Nat.ltb_lt, !Nat.eqb_eq.
  intros [H1|(-> & H1)] [H2|(-> & H2)]; [left; lia|left; lia|left; lia|right; eauto].
Qed.
Lemma ltb_total a b : bytes_ltb a b = false -> bytes_ltb b a = false -> a = b.
Proof.
  revert b. induction a as [|x a IH]; intros [|y b]; simpl; try congruence.
  rewrite !orb_false_iff, !Nat.ltb_ge. intros (H1 & H2) (H3 & H4).
  assert (x = y) as -> by lia. rewrite Nat.eqb_refl in *. simpl in *. rewrite (IH b); auto.
Qed.

Definition key_lt (x y : bytes * json) : Prop := bytes_ltb (fst x) (fst y) = true.
Definition sorted := StronglySorted key_lt.

Lemma insert_in k v l x : In x (insert_key k v l) -> x = (k, v) \/ In x l.
Proof.
  induction l as [|(k', v') l IH]; simpl; [intuition congruence|].
  destruct (bytes_ltb k k'); [simpl; intuition congruence|].
  destruct (bytes_ltb k' k); simpl; intuition congruence.
Qed.

Lemma insert_sorted k v l : sorted l -> sorted (insert_key k v l).
Proof.
  induction 1 as [|(k', v') l S' IH F]; simpl; [repeat constructor|].
  destruct (bytes_ltb k k') eqn:E1.
  - constructor; [constructor; assumption|]. constructor; [exact E1|].
    eapply Forall_impl; [|exact F]. intros (k2, v2) H. unfold key_lt in *. cbn in *. eapply ltb_trans; eauto.
  - destruct (bytes_ltb k' k) eqn:E2.
    + constructor; [exact IH|]. apply Forall_forall. intros x X. apply insert_in in X. destruct X as [->|X].
      * exact E2.
      * rewrite Forall_forall in F. apply F, X.
    + assert (k = k') as -> by (apply ltb_total; assumption). constructor; [exact S'|]. exact F.
Qed.

Definition merge (l m : list (bytes * json)) := fold_left (fun m kv => insert_key (fst kv) (snd kv) m) l m.

Lemma merge_sorted l : forall m, sorted m -> sorted (merge l m).
Proof. induction l as [|(k, v) l IH]; intros m S'; simpl; [exact S'|]. apply IH, insert_sorted, S'. Qed.

Lemma merge_in l : forall m x, In x (merge l m) -> In x l \/ In x m.
Proof.
  induction l as [|(k, v) l IH]; intros m x H; simpl in *; [right; exact H|].
  apply IH in H. destruct H as [H|H]; [left; right; exact H|].
  apply insert_in in H. destruct H as [->|H]; [left; left; reflexivity|right; exact H].
Qed.

Lemma insert_last k v m : Forall (fun x => bytes_ltb (fst x) k = true) m -> insert_key k v m = m ++ [(k, v)].
Proof.
  induction 1 as [|(k', v') m H _ IH]; simpl; [reflexivity|]. cbn in H.
  destruct (bytes_ltb k k') eqn:E.
  - pose proof (ltb_trans _ _ _ H E) as X. rewrite ltb_irrefl in X. discriminate.
  - rewrite H, IH. reflexivity.
Qed.

Lemma merge_id l : forall m, sorted (m ++ l) -> merge l m = m ++ l.
Proof.
  induction l as [|(k, v) l IH]; intros m S'; [simpl; rewrite app_nil_r; reflexivity|].
  cbn [merge fold_left fst snd]. fold (merge l (insert_key k v m)).
  rewrite insert_last.
  - rewrite IH; rewrite <- app_assoc; [reflexivity|exact S'].
  - clear IH. induction m as [|x m IH]; [constructor|]. inversion S' as [|? ? S2 F]; subst.
    constructor; [|apply IH, S2]. rewrite Forall_forall in F. apply (F (k, v)). apply in_app_iff. right. left. reflexivity.
Qed.

Lemma insert_new k v l : In (k, v) (insert_key k v l).
Proof.
  induction l as [|(k', v') l IH]; simpl; [auto|]. destruct (bytes_ltb k k'); [left; reflexivity|].
  destruct (bytes_ltb k' k); [right; exact IH|left; reflexivity].
Qed.

Lemma insert_keeps k v l k0 v0 : k0 <> k -> In (k0, v0) l -> In (k0, v0) (insert_key k v l).
Proof.
  intro N. induction l as [|(k', v') l IH]; simpl; [intros []|]. intros [E|H].
  - injection E as -> ->. destruct (bytes_ltb k k0) eqn:E1; [right; left; reflexivity|].
    destruct (bytes_ltb k0 k) eqn:E2; [left; reflexivity|]. exfalso. apply N. apply ltb_total; assumption.
  - destruct (bytes_ltb k k'); [right; right; exact H|]. destruct (bytes_ltb k' k); right; [exact (IH H)|exact H].
Qed.

Lemma sorted_unique m k v w : sorted m -> In (k, v) m -> In (k, w) m -> v = w.
Proof.
  induction 1 as [|x m S' IH F]; [intros []|]. rewrite Forall_forall in F. unfold key_lt in F.
  intros [->|H] [E|H2]; [congruence| | |exact (IH H H2)].
  - specialize (F _ H2). cbn in F. rewrite ltb_irrefl in F. discriminate.
  - subst x. specialize (F _ H). cbn in F. rewrite ltb_irrefl in F. discriminate.
Qed.

Lemma merge_keeps l : forall m k v, ~ In k (map fst l) -> In (k, v) m -> In (k, v) (merge l m).
Proof.
  induction l as [|(k', v') l IH]; intros m k v N H; [exact H|]. cbn [merge fold_left fst snd]. apply IH.
  - intro X. apply N. right. exact X.
  - apply insert_keeps; [|exact H]. intro E. apply N. left. cbn. congruence.
Qed.

Lemma merge_last a k v b m : ~ In k (map fst b) -> In (k, v) (merge (a ++ (k, v) :: b) m).
Proof.
  intro N. unfold merge. rewrite fold_left_app. cbn [fold_left fst snd]. apply merge_keeps; [exact N|]. apply insert_new.
Qed.

Lemma last_of_key (l : list (bytes * json)) k : In k (map fst l) -> exists a v b, l = a ++ (k, v) :: b /\ ~ In k (map fst b).
Proof.
  induction l as [|(k', v') l IH]; [intros []|]. intro H.
  destruct (in_dec (list_eq_dec Nat.eq_dec) k (map fst l)) as [I|I].
  - destruct (IH I) as (a & v & b & -> & N). exists ((k', v') :: a), v, b. split; [reflexivity|exact N].
  - destruct H as [<-|H]; [|contradiction]. exists [], v', l. split; [reflexivity|exact I].
Qed.

Lemma merge_exact l k v : In (k, v) (merge l []) <-> exists a b, l = a ++ (k, v) :: b /\ ~ In k (map fst b).
Proof.
  split.
  - intro H. pose proof (merge_in _ _ _ H) as [X|[]].
    destruct (last_of_key l k) as (a & w & b & -> & N); [apply in_map_iff; exists (k, v); auto|].
    exists a, b. split; [|exact N]. do 2 f_equal. f_equal. symmetry.
    eapply sorted_unique; [|exact H|apply merge_last, N]. apply merge_sorted. constructor.
  - intros (a & b & -> & N). apply merge_last, N.
Qed.

Lemma canon_obj l : canon (JObj l) = JObj (merge (map (fun kv => (fst kv, canon (snd kv))) l) []).
Proof.
  cbn [canon]. unfold merge. f_equal. f_equal. apply map_ext. intros (k, v). reflexivity.
Qed.

Lemma canon_idem j : canon (canon j) = canon j.
Proof.
  induction j as [|b|t|s|l IH|l IH] using json_ind'; try reflexivity.
  - cbn [canon]. f_equal. rewrite map_map. apply map_ext_in. intros x X. rewrite Forall_forall in IH. apply IH, X.
  - rewrite canon_obj. set (S' := merge _ _). rewrite canon_obj. f_equal.
    assert (V : map (fun kv => (fst kv, canon (snd kv))) S' = S').
    { rewrite <- (map_id S') at 2. apply map_ext_in. intros (k, v) X. cbn.
      unfold S' in X. apply merge_in in X. destruct X as [X|[]].
      apply in_map_iff in X. destruct X as ((k0, v0) & E & X). cbn in E. injection E as <- <-.
      rewrite Forall_forall in IH. specialize (IH _ X). cbn in IH. rewrite IH. reflexivity. }
    rewrite V. apply (merge_id S' []). apply merge_sorted. constructor.
Qed.

Lemma canon_ok j : json_ok j -> json_ok (canon j).
Proof.
  induction j as [|b|t|s|l IH|l IH] using json_ind'; intro OK; try exact OK.
  - cbn [canon]. apply json_ok_arr. apply json_ok_arr in OK. apply Forall_forall. intros x X.
    apply in_map_iff in X. destruct X as (y & <- & Y). rewrite Forall_forall in IH, OK. auto.
  - rewrite canon_obj. apply json_ok_obj. apply json_ok_obj in OK. apply Forall_forall. intros x X.
    apply merge_in in X. destruct X as [X|[]]. apply in_map_iff in X. destruct X as (y & <- & Y). cbn.
    rewrite Forall_forall in IH, OK. auto.
Qed.

Lemma canon_nesting j : nesting (canon j) <= nesting j.
Proof.
  induction j as [|b|t|s|l IH|l IH] using json_ind'; try (simpl; lia).
  - cbn [canon]. rewrite Forall_forall in IH.
    enough (nesting (JArr (map canon l)) < S (nesting (JArr l))) by lia.
    apply nesting_arr_lt; [simpl; lia|]. apply Forall_forall. intros x X. apply in_map_iff in X.
    destruct X as (y & <- & Y). pose proof (IH y Y). pose proof (nesting_arr l y Y). lia.
  - rewrite canon_obj. rewrite Forall_forall in IH.
    match goal with |- nesting ?x <= nesting ?y => enough (nesting x < S (nesting y)) by lia end.
    apply nesting_obj_lt; [simpl; lia|]. apply Forall_forall. intros x X. apply merge_in in X. destruct X as [X|[]].
    apply in_map_iff in X. destruct X as (y & <- & Y). cbn [fst snd]. pose proof (IH y Y). pose proof (nesting_obj l y Y). lia.
Qed.

(* ---- lawful codecs ---- *)

Record lawful {A} (c : codec A) : Prop := {
  written : forall a, c_ok c a -> json_ok (c_enc c a) /\ c_dec c (c_enc c a) = Some a /\ c_enc c a <> JNull;
  readable : forall j a, json_ok j -> c_dec c j = Some a -> c_ok c a /\ nesting (c_enc c a) <= nesting j }.

Lemma lawful_str : lawful c_str.
Proof.
  constructor; cbn.
  - intros a _. split; [exact I|]. split; [reflexivity|discriminate].
  - intros [] a _ H; try discriminate. injection H as <-. split; [exact I|simpl; lia].
Qed.
Lemma lawful_bool : lawful c_bool.
Proof.
  constructor; cbn.
  - intros a _. split; [exact I|]. split; [reflexivity|discriminate].
  - intros [] a _ H; try discriminate. injection H as <-. split; [exact I|simpl; lia].
Qed.

Lemma lawful_uint bound : lawful (c_uint bound).
Proof.
  constructor; cbn [c_uint c_enc c_dec c_ok].
  - intros a H. split; [apply num_ok_nat|]. rewrite text_nat_text. apply N.ltb_lt in H. rewrite H. split; [reflexivity|discriminate].
  - intros [] a _ H; try discriminate. destruct (text_nat text) as [n|]; [|discriminate].
    destruct (N.ltb n bound) eqn:E; [|discriminate]. injection H as <-. split; [apply N.ltb_lt, E|simpl; lia].
Qed.
Lemma lawful_f64 : lawful f64.
Proof.
  constructor; cbn.
  - intros a H. split; [exact H|]. split; [reflexivity|discriminate].
  - intros [] a OK H; try discriminate. injection H as <-. split; [exact OK|simpl; lia].
Qed.

Lemma seq_opt_map {A B} (f : B -> option A) (g : A -> B) l : Forall (fun a => f (g a) = Some a) l -> seq_opt (map f (map g l)) = Some l.
Proof. induction 1 as [|a l H _ IH]; simpl; [reflexivity|]. rewrite H, IH. reflexivity. Qed.

Lemma seq_opt_some {A B} (f : B -> option A) l : forall r, seq_opt (map f l) = Some r -> Forall2 (fun b a => f b = Some a) l r.
Proof.
  induction l as [|b l IH]; intros r H; simpl in H; [injection H as <-; constructor|].
  destruct (f b) as [a|] eqn:E; [|discriminate]. destruct (seq_opt (map f l)) as [r'|]; [|discriminate].
  injection H as <-. constructor; [exact E|apply IH; reflexivity].
Qed.

(* The nesting of a rewritten array. *)
Lemma nesting_arr_mono (l l' : list json) : Forall2 (fun x y => nesting x <= nesting y) l l' -> nesting (JArr l) <= nesting (JArr l').
Proof. simpl. intro H. apply le_n_S. induction H as [|x y l l' E _ IH]; simpl; lia. Qed.

Lemma lawful_vec {A} (c : codec A) : lawful c -> lawful (c_vec c).
Proof.
  intros [W R]. constructor; cbn [c_vec c_enc c_dec c_ok].
  - intros l H. split.
    + apply json_ok_arr. apply Forall_forall. intros x X. apply in_map_iff in X. destruct X as (a & <- & Y).
      rewrite Forall_forall in H. apply W, H, Y.
    + split; [|discriminate]. apply seq_opt_map. eapply Forall_impl; [|exact H]. intros a Y. apply W, Y.
  - intros [] a OK H; try discriminate. apply seq_opt_some in H. apply json_ok_arr in OK.
    assert (G : Forall (c_ok c) a /\ Forall2 (fun x y => nesting x <= nesting y) (map (c_enc c) a) l).
    { induction H as [|b x l a E _ IH]; [split; constructor|].
      inversion OK as [|? ? O1 O2]; subst. destruct (IH O2) as (G1 & G2). destruct (R _ _ O1 E) as (R1 & R2).
      split; constructor; assumption. }
    destruct G as (G1 & G2). split; [exact G1|apply nesting_arr_mono, G2].
Qed.

Lemma lawful_array {A} n (c : codec A) : lawful c -> lawful (c_array n c).
Proof.
  intros L. pose proof (lawful_vec c L) as [W R]. constructor; cbn [c_array c_enc c_dec c_ok].
  - intros l (H & E). destruct (W l H) as (W1 & W2 & W3). split; [exact W1|]. split; [|exact W3].
    rewrite W2, E, Nat.eqb_refl. reflexivity.
  - intros j l OK H. destruct (c_dec (c_vec c) j) as [l'|] eqn:D; [|discriminate].
    destruct (Nat.eqb (List.length l') n) eqn:E; [|discriminate]. injection H as ->. apply Nat.eqb_eq in E.
    destruct (R _ _ OK D) as (R1 & R2). split; [split; assumption|exact R2].
Qed.

Lemma lawful_pair {A B} (a : codec A) (b : codec B) : lawful a -> lawful b -> lawful (c_pair a b).
Proof.
  intros [WA RA] [WB RB]. constructor; cbn [c_pair c_enc c_dec c_ok].
  - intros (x, y) (X & Y). cbn [fst snd] in *. destruct (WA x X) as (A1 & A2 & _), (WB y Y) as (B1 & B2 & _).
    split; [|split; [rewrite A2, B2; reflexivity|discriminate]]. apply json_ok_arr. repeat constructor; assumption.
  - intros [] (x, y) OK H; try discriminate. destruct l as [|p [|q [|? ?]]]; try discriminate.
    destruct (c_dec a p) as [x'|] eqn:DX; [|discriminate]. destruct (c_dec b q) as [y'|] eqn:DY; [|discriminate].
    injection H as -> ->. apply json_ok_arr in OK. inversion OK as [|? ? O1 O2]; subst. inversion O2 as [|? ? O3 O4]; subst.
    destruct (RA _ _ O1 DX), (RB _ _ O3 DY). cbn [fst snd]. split; [split; assumption|].
    apply nesting_arr_mono. repeat constructor; assumption.
Qed.

Lemma lawful_meta : lawful c_meta.
Proof.
  constructor; cbn [c_meta c_enc c_dec c_ok].
  - intros m (OK & C). split; [exact OK|]. rewrite C. split; [reflexivity|discriminate].
  - intros j m OK H. destruct (canon j) as [| | | | |l] eqn:C; try discriminate. injection H as ->.
    rewrite <- C. split; [|apply canon_nesting]. split; [apply canon_ok, OK|apply canon_idem].
Qed.

(* ---- structs ---- *)

Definition top (ms : list (bytes * json)) : nat := fold_right (fun x m => Nat.max (nesting (snd x)) m) 0 ms.
Lemma nesting_top ms : nesting (JObj ms) = S (top ms).
Proof. reflexivity. Qed.
Lemma top_in ms kv : In kv ms -> nesting (snd kv) <= top ms.
Proof. induction ms as [|x ms IH]; simpl; [tauto|]. intros [->|H]; [lia|]. specialize (IH H). lia. Qed.
Lemma top_le ms n : Forall (fun kv => nesting (snd kv) <= n) ms -> top ms <= n.
Proof. induction 1; simpl; lia. Qed.

Definition slot_ok (s : slot) : Prop := if_some json_ok (snd s).
Definition slot_le (n : nat) (s : slot) : Prop := if_some (fun j => nesting j <= n) (snd s).

Record lawful_part {A} (p : part A) : Prop := {
  names : forall a, map fst (p_slots p a) = p_names p;
  slots_ok : forall a, p_ok p a -> Forall slot_ok (p_slots p a);
  slots_read : forall a l, p_ok p a -> incl (p_slots p a) l -> NoDup (map fst l) -> p_dec p (members l) = Some a;
  part_readable : forall ms a, Forall (fun kv => json_ok (snd kv)) ms -> p_dec p ms = Some a ->
    p_ok p a /\ Forall (slot_le (top ms)) (p_slots p a) }.

Lemma text_inj a b : text a = text b -> a = b.
Proof.
  unfold text. intro H.
  rewrite <- (string_of_list_ascii_of_string a), <- (string_of_list_ascii_of_string b). f_equal.
  revert H. generalize (list_ascii_of_string a) (list_ascii_of_string b). intros l l'. revert l'.
  induction l as [|x l IH]; intros [|y l'] H; try discriminate; [reflexivity|].
  simpl in H. injection H as H1 H2. f_equal; [|apply IH, H2].
  rewrite <- (Ascii.ascii_nat_embedding x), <- (Ascii.ascii_nat_embedding y), H1. reflexivity.
Qed.

Lemma bytes_eqb_refl a : bytes_eqb a a = true.
Proof. unfold bytes_eqb. destruct (list_eq_dec Nat.eq_dec a a); congruence. Qed.
Lemma bytes_eqb_neq a b : a <> b -> bytes_eqb (text a) (text b) = false.
Proof. intro H. unfold bytes_eqb. destruct (list_eq_dec Nat.eq_dec (text a) (text b)) as [E|]; [apply text_inj in E; congruence|reflexivity]. Qed.

Lemma filter_other name l : ~ In name (map fst l) ->
  filter (fun kv => bytes_eqb (fst kv) (text name)) (members l) = [].
Proof.
  induction l as [|(k, v) l IH]; intro H; [reflexivity|]. cbn in H. unfold members. cbn [flat_map snd fst].
  rewrite filter_app. fold (members l). rewrite IH by tauto. rewrite app_nil_r.
  destruct v as [j|]; [|reflexivity]. cbn. rewrite bytes_eqb_neq by intuition. reflexivity.
Qed.

Lemma find_member name v l : NoDup (map fst l) -> In (name, v) l ->
  find_field name (members l) = match v with Some j => One j | None => Missing end.
Proof.
  intros N H. unfold find_field.
  assert (E : filter (fun kv => bytes_eqb (fst kv) (text name)) (members l) = match v with Some j => [(text name, j)] | None => [] end).
  { induction l as [|(k, w) l IH]; [destruct H|]. cbn in N. inversion N as [|? ? N1 N2]; subst.
    unfold members. cbn [flat_map snd fst]. rewrite filter_app. fold (members l). destruct H as [H|H].
    - injection H as -> ->. rewrite filter_other by exact N1. rewrite app_nil_r.
      destruct v as [j|]; [|reflexivity]. cbn. rewrite bytes_eqb_refl. reflexivity.
    - rewrite IH by assumption.
      assert (K : k <> name). { intros ->. apply N1. apply in_map_iff. exists (name, v). auto. }
      destruct w as [j|]; [|reflexivity]. cbn [filter fst]. rewrite bytes_eqb_neq by exact K. reflexivity. }
  rewrite E. destruct v; reflexivity.
Qed.

Lemma found_in {A} name (ms : list (bytes * A)) a : find_field name ms = One a -> In (text name, a) ms.
Proof.
  unfold find_field. intro H.
  destruct (filter (fun kv => bytes_eqb (fst kv) (text name)) ms) as [|(k, x) [|? ?]] eqn:F; try discriminate.
  injection H as <-. cbn.
  assert (I : In (k, x) (filter (fun kv => bytes_eqb (fst kv) (text name)) ms)) by (rewrite F; left; reflexivity).
  apply filter_In in I. destruct I as (I & E). cbn in E. unfold bytes_eqb in E.
  destruct (list_eq_dec Nat.eq_dec k (text name)); [subst; exact I|discriminate].
Qed.

Lemma lawful_req {A} name (c : codec A) : lawful c -> lawful_part (req name c).
Proof.
  intros [W R]. constructor; cbn [req p_names p_slots p_dec p_ok].
  - reflexivity.
  - intros a H. constructor; [apply W, H|constructor].
  - intros a l H I N. rewrite (find_member name (Some (c_enc c a)) l N) by (apply I; left; reflexivity). apply W, H.
  - intros ms a OK H. destruct (find_field name ms) as [|j|] eqn:F; try discriminate. apply found_in in F.
    rewrite Forall_forall in OK. specialize (OK _ F). cbn in OK. destruct (R _ _ OK H) as (R1 & R2).
    split; [exact R1|]. constructor; [|constructor]. cbn. apply top_in in F. cbn in F. lia.
Qed.

Lemma read_opt_sound {A} name (c : codec A) ms a : lawful c -> Forall (fun kv => json_ok (snd kv)) ms -> read_opt name c ms = Some a ->
  if_some (fun x => c_ok c x /\ nesting (c_enc c x) <= top ms) a.
Proof.
  intros [W R] OK H. unfold read_opt in H. destruct (find_field name ms) as [|j|] eqn:F; try discriminate.
  - injection H as <-. exact I.
  - apply found_in in F. rewrite Forall_forall in OK. specialize (OK _ F). cbn in OK.
    apply top_in in F. cbn in F.
    assert (X : a = None \/ exists x, a = Some x /\ c_dec c j = Some x).
    { destruct j; [left; congruence| | | | | ];
        (destruct (c_dec c _) as [x|] eqn:D; [|discriminate]; right; exists x; cbn in H; split; congruence). }
    destruct X as [->|(x & -> & D)]; [exact I|]. destruct (R _ _ OK D). cbn. split; [assumption|lia].
Qed.

Lemma read_opt_some {A} name (c : codec A) ms j : j <> JNull -> find_field name ms = One j -> read_opt name c ms = option_map Some (c_dec c j).
Proof. intros N F. unfold read_opt. rewrite F. destruct j; [congruence|reflexivity..]. Qed.

Lemma lawful_opt {A} name (c : codec A) : lawful c -> lawful_part (opt name c).
Proof.
  intros L. pose proof L as [W R]. constructor; cbn [opt p_names p_slots p_dec p_ok].
  - reflexivity.
  - intros a H. constructor; [|constructor]. destruct a as [x|]; [|exact I]. apply W, H.
  - intros [x|] l H I N; cbn in *.
    + destruct (W x H) as (_ & W2 & W3).
      rewrite (read_opt_some name c _ (c_enc c x) W3); [rewrite W2; reflexivity|].
      rewrite (find_member name (Some (c_enc c x)) l N) by (apply I; left; reflexivity). reflexivity.
    + unfold read_opt. rewrite (find_member name None l N) by (apply I; left; reflexivity). reflexivity.
  - intros ms a OK H. apply (read_opt_sound name c ms a L OK) in H. destruct a as [x|]; cbn in *.
    + split; [apply H|]. constructor; [cbn; apply H|constructor].
    + split; [exact I|]. constructor; [exact I|constructor].
Qed.

Lemma lawful_nullable {A} name (c : codec A) : lawful c -> lawful_part (nullable name c).
Proof.
  intros L. pose proof L as [W R]. constructor; cbn [nullable p_names p_slots p_dec p_ok].
  - reflexivity.
  - intros a H. constructor; [|constructor]. destruct a as [x|]; [|exact I]. apply W, H.
  - intros [x|] l H I N; cbn in *.
    + destruct (W x H) as (_ & W2 & W3).
      rewrite (read_opt_some name c _ (c_enc c x) W3); [rewrite W2; reflexivity|].
      rewrite (find_member name (Some (c_enc c x)) l N) by (apply I; left; reflexivity). reflexivity.
    + unfold read_opt. rewrite (find_member name (Some JNull) l N) by (apply I; left; reflexivity). reflexivity.
  - intros ms a OK H. apply (read_opt_sound name c ms a L OK) in H. destruct a as [x|]; cbn in *.
    + split; [apply H|]. constructor; [cbn; apply H|constructor].
    + split; [exact I|]. constructor; [cbn; lia|constructor].
Qed.

Lemma lawful_both {A B} (a : part A) (b : part B) : lawful_part a -> lawful_part b -> lawful_part (a +++ b).
Proof.
  intros [NA SA RA PA] [NB SB RB PB]. constructor; cbn [both_parts p_names p_slots p_dec p_ok].
  - intros (x, y). rewrite map_app, NA, NB. reflexivity.
  - intros (x, y) (X & Y). apply Forall_app. split; [apply SA, X|apply SB, Y].
  - intros (x, y) l (X & Y) I N. cbn in *. apply incl_app_inv in I. destruct I as (I1 & I2).
    rewrite (RA x l X I1 N), (RB y l Y I2 N). reflexivity.
  - intros ms (x, y) OK H. destruct (p_dec a ms) as [x'|] eqn:DA; [|discriminate].
    destruct (p_dec b ms) as [y'|] eqn:DB; [|discriminate]. injection H as -> ->.
    destruct (PA _ _ OK DA), (PB _ _ OK DB). split; [split; assumption|]. apply Forall_app. split; assumption.
Qed.

Lemma lawful_record {A B} (of : A -> B) (to : B -> A) (p : part A) :
  (forall b, of (to b) = b) -> (forall a, to (of a) = a) -> lawful_part p -> lawful_part (as_record of to p).
Proof.
  intros E1 E2 [NA SA RA PA]. constructor; cbn [as_record p_names p_slots p_dec p_ok].
  - intro b. apply NA.
  - intros b H. apply SA, H.
  - intros b l H I N. rewrite (RA (to b) l H I N). cbn. rewrite E1. reflexivity.
  - intros ms b OK H. destruct (p_dec p ms) as [a|] eqn:D; [|discriminate]. injection H as <-. rewrite E2. exact (PA _ _ OK D).
Qed.

Lemma members_ok l : Forall slot_ok l -> Forall (fun kv => json_ok (snd kv)) (members l).
Proof.
  induction 1 as [|(k, v) l H _ IH]; [constructor|]. unfold members. cbn [flat_map snd fst]. apply Forall_app.
  split; [|exact IH]. destruct v as [j|]; [constructor; [exact H|constructor]|constructor].
Qed.
Lemma members_le n l : Forall (slot_le n) l -> Forall (fun kv => nesting (snd kv) <= n) (members l).
Proof.
  induction 1 as [|(k, v) l H _ IH]; [constructor|]. unfold members. cbn [flat_map snd fst]. apply Forall_app.
  split; [|exact IH]. destruct v as [j|]; [constructor; [exact H|constructor]|constructor].
Qed.
Lemma obj_ok l : Forall slot_ok l -> json_ok (obj l).
Proof. intro H. apply json_ok_obj, members_ok, H. Qed.
Lemma obj_le l ms : Forall (slot_le (top ms)) l -> nesting (obj l) <= nesting (JObj ms).
Proof. intro H. unfold obj. rewrite !nesting_top. apply le_n_S, top_le, members_le, H. Qed.

Lemma lawful_struct {A} (p : part A) : NoDup (p_names p) -> lawful_part p -> lawful (c_struct p).
Proof.
  intros N [NA SA RA PA]. constructor; cbn [c_struct c_enc c_dec c_ok].
  - intros a H. split; [apply obj_ok, SA, H|]. split; [|discriminate]. cbn. apply RA; [exact H|apply incl_refl|rewrite NA; exact N].
  - intros [] a OK H; try discriminate. apply json_ok_obj in OK. destruct (PA _ _ OK H) as (P1 & P2).
    split; [exact P1|apply obj_le, P2].
Qed.

Lemma tagged_read {A} name (p : part A) a : NoDup ("type"%string :: p_names p) -> lawful_part p -> p_ok p a ->
  let l := ("type"%string, Some (JStr (text name))) :: p_slots p a in
  json_ok (obj l) /\ find_field "type" (members l) = One (JStr (text name)) /\ p_dec p (members l) = Some a.
Proof.
  intros N [NA SA RA PA] H l.
  assert (N' : NoDup (map fst l)) by (unfold l; cbn; rewrite NA; exact N).
  split; [|split].
  - apply obj_ok. constructor; [exact I|apply SA, H].
  - apply (find_member "type" (Some (JStr (text name))) l N'). left. reflexivity.
  - apply RA; [exact H|apply incl_tl, incl_refl|exact N'].
Qed.

Lemma tagged_le {A} name (p : part A) ms a : lawful_part p -> Forall (fun kv => json_ok (snd kv)) ms -> p_dec p ms = Some a ->
  p_ok p a /\ nesting (obj (("type"%string, Some (JStr (text name))) :: p_slots p a)) <= nesting (JObj ms).
Proof.
  intros [NA SA RA PA] OK H. destruct (PA _ _ OK H) as (P1 & P2). split; [exact P1|].
  apply obj_le. constructor; [cbn; lia|exact P2].
Qed.

Lemma lawful_tagged {A} name (p : part A) : NoDup ("type"%string :: p_names p) -> lawful_part p -> lawful (c_tagged name p).
Proof.
  intros N L. constructor; cbn [c_tagged c_enc c_dec c_ok].
  - intros a H. destruct (tagged_read name p a N L H) as (T1 & _ & T3). split; [exact T1|]. split; [exact T3|discriminate].
  - intros [] a OK H; try discriminate. apply json_ok_obj in OK. apply tagged_le; assumption.
Qed.

(* ---- trees of attempts ---- *)

Section Tree.
Context {B C : Type} (pb : part B) (pc : part C).
Context (LB : lawful_part pb) (LC : lawful_part pc).
Context (N : NoDup (p_names pb ++ "past_attempts"%string :: p_names pc)).

Section Ind.
Context (P : tree B C -> Prop) (H : forall b past c, if_some (Forall P) past -> P (Res b past c)).
Fixpoint tree_ind' (t : tree B C) : P t :=
  match t with
  | Res b past c =>
      H b past c
        (match past as o return if_some (Forall P) o with
         | Some l => (fix go l : Forall P l := match l with [] => Forall_nil _ | x :: l' => Forall_cons _ (tree_ind' x) (go l') end) l
         | None => I
         end)
  end.
End Ind.

Lemma tree_ok_eq b past c : tree_ok pb pc (Res b past c) <-> p_ok pb b /\ p_ok pc c /\ if_some (Forall (tree_ok pb pc)) past.
Proof.
  cbn [tree_ok]. destruct past as [l|]; cbn [if_some]; [|tauto].
  enough (E : (fix go l := match l with [] => True | x :: l' => tree_ok pb pc x /\ go l' end) l <-> Forall (tree_ok pb pc) l) by (rewrite E; tauto).
  induction l as [|x l IH]; split; intro G; auto; [constructor; tauto|inversion G; tauto].
Qed.

Definition tree_slots (b : B) (past : option (list (tree B C))) (c : C) : list slot :=
  p_slots pb b ++ ("past_attempts"%string, option_map (fun l => JArr (map (enc_tree pb pc) l)) past) :: p_slots pc c.

Definition attempts_of (v : json) : option (option (list (tree B C))) :=
  match v with
  | JNull => Some None
  | JArr l => option_map Some (seq_opt (map (dec_tree pb pc) l))
  | _ => None
  end.

Lemma find_map {X Y} (f : X -> Y) name ms :
  find_field name (map (fun '(k, v) => (k, f v)) ms) =
  match find_field name ms with Missing => Missing | One x => One (f x) | Twice => Twice end.
Proof.
  unfold find_field.
  assert (E : filter (fun kv => bytes_eqb (fst kv) (text name)) (map (fun '(k, v) => (k, f v)) ms) =
              map (fun '(k, v) => (k, f v)) (filter (fun kv => bytes_eqb (fst kv) (text name)) ms)).
  { induction ms as [|(k, v) ms IH]; [reflexivity|]. cbn [map filter fst]. destruct (bytes_eqb k (text name)); [cbn [map]; rewrite IH; reflexivity|exact IH]. }
  rewrite E. destruct (filter _ ms) as [|(k, v) [|(k2, v2) r]]; reflexivity.
Qed.

Lemma dec_tree_obj ms : dec_tree pb pc (JObj ms) =
  match p_dec pb ms, find_field "past_attempts" ms, p_dec pc ms with
  | Some b, Missing, Some c => Some (Res b None c)
  | Some b, One v, Some c => match attempts_of v with Some past => Some (Res b past c) | None => None end
  | _, _, _ => None
  end.
Proof.
  cbn [dec_tree].
  change (map (fun '(k, v) => (k, match v with
            | JNull => Some None
            | JArr l => option_map Some (seq_opt (map (dec_tree pb pc) l))
            | _ => None
            end)) ms) with (map (fun '(k, v) => (k, attempts_of v)) ms).
  rewrite find_map. destruct (p_dec pb ms); [|reflexivity].
  destruct (find_field "past_attempts" ms); destruct (p_dec pc ms); try reflexivity; destruct (attempts_of _); reflexivity.
Qed.

Lemma tree_names b past c : NoDup (map fst (tree_slots b past c)).
Proof. unfold tree_slots. rewrite map_app. cbn. rewrite (names pb LB), (names pc LC). exact N. Qed.

Lemma lawful_tree : lawful (c_tree pb pc).
Proof.
  constructor; cbn [c_tree c_enc c_dec c_ok].
  - intro t. induction t as [b past c IH] using tree_ind'. intro OK. apply tree_ok_eq in OK. destruct OK as (Ob & Oc & Op).
    change (enc_tree pb pc (Res b past c)) with (obj (tree_slots b past c)).
    assert (IH' : if_some (Forall (fun t => json_ok (enc_tree pb pc t) /\ dec_tree pb pc (enc_tree pb pc t) = Some t)) past).
    { destruct past as [l|]; [|exact I]. cbn in *. apply Forall_forall. intros x X. rewrite Forall_forall in IH, Op.
      destruct (IH x X (Op x X)) as (I1 & I2 & _). split; assumption. }
    split; [|split; [|discriminate]].
    + apply obj_ok. unfold tree_slots. apply Forall_app. split; [apply (slots_ok pb LB), Ob|]. constructor; [|apply (slots_ok pc LC), Oc].
      cbn. destruct past as [l|]; [|exact I]. cbn [option_map if_some]. apply json_ok_arr. apply Forall_forall.
      intros x X. apply in_map_iff in X. destruct X as (y & <- & Y). cbn in IH'. rewrite Forall_forall in IH'. apply (IH' y Y).
    + unfold obj. rewrite dec_tree_obj.
      rewrite (slots_read pb LB b _ Ob); [|unfold tree_slots; apply incl_appl, incl_refl|apply tree_names].
      rewrite (slots_read pc LC c _ Oc); [|unfold tree_slots; apply incl_appr, incl_tl, incl_refl|apply tree_names].
      rewrite (find_member "past_attempts" (option_map (fun l => JArr (map (enc_tree pb pc) l)) past) _ (tree_names b past c));
        [|unfold tree_slots; apply in_app_iff; right; left; reflexivity].
      destruct past as [l|]; [|reflexivity]. cbn [option_map attempts_of]. cbn in IH'.
      rewrite seq_opt_map; [reflexivity|]. eapply Forall_impl; [|exact IH']. cbn. tauto.
  - intro j.
    enough (Q : (forall a, json_ok j -> dec_tree pb pc j = Some a -> tree_ok pb pc a /\ nesting (enc_tree pb pc a) <= nesting j) /\
                match j with
                | JArr vs => Forall (fun v => forall a, json_ok v -> dec_tree pb pc v = Some a -> tree_ok pb pc a /\ nesting (enc_tree pb pc a) <= nesting v) vs
                | _ => True
                end) by apply Q.
    induction j as [|x|t|s|l IH|l IH] using json_ind'; try (split; [intros a OK H; discriminate|exact I]).
    { split; [intros a OK H; discriminate|]. eapply Forall_impl; [|exact IH]. intros v (V & _). exact V. }
    split; [|exact I]. intros a OK H.
    rewrite dec_tree_obj in H. apply json_ok_obj in OK.
    destruct (p_dec pb l) as [b|] eqn:Db; [|discriminate].
    destruct (part_readable pb LB _ _ OK Db) as (Ob & Sb).
    assert (X : exists past c, a = Res b past c /\ p_dec pc l = Some c /\
                if_some (Forall (tree_ok pb pc)) past /\
                slot_le (top l) ("past_attempts"%string, option_map (fun l => JArr (map (enc_tree pb pc) l)) past)).
    { destruct (find_field "past_attempts" l) as [|v|] eqn:F; destruct (p_dec pc l) as [c|] eqn:Dc; try discriminate.
      - injection H as <-. exists None, c. repeat split; auto.
      - destruct (attempts_of v) as [past|] eqn:A; [|discriminate]. injection H as <-. exists past, c.
        split; [reflexivity|]. split; [reflexivity|]. apply found_in in F.
        pose proof (top_in _ _ F) as T. cbn in T. rewrite Forall_forall in IH, OK. specialize (IH _ F). specialize (OK _ F). cbn in IH, OK.
        destruct v as [| | | |vs|]; cbn in A; try discriminate; [injection A as <-; split; exact I|].
        destruct (seq_opt (map (dec_tree pb pc) vs)) as [ts|] eqn:Q; [|discriminate]. injection A as <-.
        apply seq_opt_some in Q.
        pose proof (proj2 IH) as IH2. cbn in IH2.
        apply json_ok_arr in OK.
        assert (G : Forall (tree_ok pb pc) ts /\ Forall2 (fun x y => nesting x <= nesting y) (map (enc_tree pb pc) ts) vs).
        { clear -Q OK IH2. induction Q as [|v t vs ts E _ IHq]; [split; constructor|].
          inversion OK as [|? ? O1 O2]; subst. inversion IH2 as [|? ? I1 I2]; subst. destruct (IHq O2 I2) as (G1 & G2).
          destruct (I1 _ O1 E). split; constructor; assumption. }
        destruct G as (G1 & G2). split; [exact G1|]. cbn [slot_le snd option_map if_some]. apply nesting_arr_mono in G2. unfold slot_le. cbn. cbn in G2, T. lia. }
    destruct X as (past & c & -> & Dc & Op & Sp). destruct (part_readable pc LC _ _ OK Dc) as (Oc & Sc).
    split; [apply tree_ok_eq; auto|].
    change (enc_tree pb pc (Res b past c)) with (obj (tree_slots b past c)). apply obj_le. unfold tree_slots.
    apply Forall_app. split; [exact Sb|]. constructor; assumption.
Qed.
End Tree.

(* ---- the types ---- *)

Ltac distinct := cbv; repeat (constructor; [simpl; intuition discriminate|]); constructor.
Create HintDb codecs.
#[export] Hint Resolve lawful_str lawful_bool lawful_uint lawful_f64 lawful_vec lawful_array lawful_pair lawful_meta
  lawful_req lawful_opt lawful_nullable lawful_both : codecs.
Ltac record := apply lawful_record; [intros []; reflexivity|cbn; intros; repeat match goal with x : _ * _ |- _ => destruct x end; reflexivity|auto 40 with codecs].
Ltac struct := apply lawful_struct; [distinct|record].
Ltac tagged := apply lawful_tagged; [distinct|record].

Lemma lawful_u8 : lawful u8. Proof. apply lawful_uint. Qed.
Lemma lawful_u32 : lawful u32. Proof. apply lawful_uint. Qed.
Lemma lawful_u64 : lawful u64. Proof. apply lawful_uint. Qed.
Lemma lawful_u128 : lawful u128. Proof. apply lawful_uint. Qed.
#[export] Hint Resolve lawful_u8 lawful_u32 lawful_u64 lawful_u128 : codecs.
Opaque u8 u32 u64 u128.

Lemma lawful_location : lawful c_location. Proof. struct. Qed.
#[export] Hint Resolve lawful_location : codecs.
Lemma lawful_oob : lawful c_oob. Proof. struct. Qed.
#[export] Hint Resolve lawful_oob : codecs.
Lemma lawful_trouble : lawful_part p_trouble. Proof. record. Qed.
#[export] Hint Resolve lawful_trouble : codecs.

Lemma eqb_text a b : bytes_eqb (text a) (text b) = String.eqb a b.
Proof.
  destruct (String.eqb_spec a b) as [->|H]; [apply bytes_eqb_refl|apply bytes_eqb_neq, H].
Qed.

Lemma nesting_variant n v : nesting (variant n v) = S (nesting v).
Proof. unfold variant. rewrite nesting_top. cbn. lia. Qed.
Lemma nesting_single k v : nesting (JObj [(k, v)]) = S (nesting v).
Proof. rewrite nesting_top. cbn. lia. Qed.
Lemma variant_ok n v : json_ok (variant n v) <-> json_ok v.
Proof.
  unfold variant. rewrite json_ok_obj. split; intro H; [inversion H; assumption|constructor; [exact H|constructor]].
Qed.
Lemma single_ok k v : json_ok (JObj [(k, v)]) -> json_ok v.
Proof. rewrite json_ok_obj. intro H. inversion H. assumption. Qed.

Lemma nesting_pos_obj l : 1 <= nesting (JObj l).
Proof. rewrite nesting_top. lia. Qed.

Definition no_trouble : trouble := {| tr_exception := None; tr_backtrace := None |}.
Lemma no_trouble_ok : p_ok p_trouble no_trouble.
Proof. split; exact I. Qed.

Lemma plain_tag n : json_ok (obj [("type"%string, Some (JStr (text n)))]) /\
  find_field "type" (members [("type"%string, Some (JStr (text n)))]) = One (JStr (text n)).
Proof. exact (match tagged_read n p_trouble no_trouble ltac:(distinct) lawful_trouble no_trouble_ok with conj a (conj b _) => conj a b end). Qed.

Lemma lawful_v2_status : lawful c_v2_status.
Proof.
  constructor; cbn [c_v2_status c_enc c_dec c_ok].
  - intros s H. destruct s as [t|t| | | | |];
      try (destruct (tagged_read "failure" p_trouble t ltac:(distinct) lawful_trouble H) as (T1 & T2 & T3));
      try (destruct (tagged_read "error" p_trouble t ltac:(distinct) lawful_trouble H) as (T1' & T2' & T3')).
    + split; [exact T1|]. split; [|discriminate]. unfold obj. rewrite T2, !eqb_text, T3. reflexivity.
    + split; [exact T1'|]. split; [|discriminate]. unfold obj. rewrite T2', !eqb_text, T3'. reflexivity.
    + destruct (plain_tag "success") as (P1 & P2). split; [exact P1|]. split; [|discriminate]. unfold obj. rewrite P2, !eqb_text. reflexivity.
    + destruct (plain_tag "pending") as (P1 & P2). split; [exact P1|]. split; [|discriminate]. unfold obj. rewrite P2, !eqb_text. reflexivity.
    + destruct (plain_tag "skipped") as (P1 & P2). split; [exact P1|]. split; [|discriminate]. unfold obj. rewrite P2, !eqb_text. reflexivity.
    + destruct (plain_tag "todo") as (P1 & P2). split; [exact P1|]. split; [|discriminate]. unfold obj. rewrite P2, !eqb_text. reflexivity.
    + destruct (plain_tag "timed_out") as (P1 & P2). split; [exact P1|]. split; [|discriminate]. unfold obj. rewrite P2, !eqb_text. reflexivity.
  - intros [] a OK H; try discriminate. apply json_ok_obj in OK.
    destruct (find_field "type" l) as [|[| | |n| |]|]; try discriminate.
    repeat match type of H with (if ?c then _ else _) = _ => destruct c end; try discriminate;
      try (injection H as <-; split; [exact I|]; exact (nesting_pos_obj l));
      destruct (p_dec p_trouble l) as [t|] eqn:D; try discriminate; injection H as <-.
    + exact (tagged_le "failure" p_trouble l t lawful_trouble OK D).
    + exact (tagged_le "error" p_trouble l t lawful_trouble OK D).
Qed.

Lemma lawful_trouble_struct : lawful (c_struct p_trouble).
Proof. apply lawful_struct; [distinct|apply lawful_trouble]. Qed.

Ltac enums := rewrite ?variant_ok; unfold variant; rewrite ?eqb_text; cbn [String.eqb Ascii.eqb Bool.eqb].

Lemma lawful_status : lawful c_status.
Proof.
  pose proof lawful_trouble_struct as [W R]. constructor; cbn [c_status c_enc c_dec c_ok].
  - intros s H. destruct s as [t| |t| | | | |]; try (destruct (W t H) as (W1 & W2 & _));
      (split; [try exact I; try (apply variant_ok; exact W1)|split; [|discriminate]]);
      unfold variant; rewrite !eqb_text; cbn [String.eqb Ascii.eqb Bool.eqb]; rewrite ?W2; reflexivity.
  - intros [| | |n| |l] a OK H; try discriminate.
    + repeat match type of H with (if ?c then _ else _) = _ => destruct c end; try discriminate;
        injection H as <-; (split; [exact I|simpl; lia]).
    + destruct l as [|(k, v) [|]]; try discriminate.
      repeat match type of H with (if ?c then _ else _) = _ => destruct c end; try discriminate;
        (destruct (c_dec (c_struct p_trouble) v) as [t|] eqn:D; [|discriminate]); injection H as <-; apply single_ok in OK;
        destruct (R _ _ OK D) as (R1 & R2); (split; [exact R1|]); rewrite nesting_variant, nesting_single; lia.
Qed.

Lemma lawful_runtime : lawful c_runtime.
Proof.
  pose proof lawful_f64 as [W1 R1]. pose proof lawful_u64 as [W2 R2]. constructor; cbn [c_runtime c_enc c_dec c_ok].
  - intros [f|n] H.
    + destruct (W1 f H) as (X & Y & _). split; [apply variant_ok, X|]. split; [|discriminate].
      unfold variant. rewrite eqb_text. cbn [String.eqb Ascii.eqb Bool.eqb]. rewrite Y. reflexivity.
    + destruct (W2 n H) as (X & Y & _). split; [apply variant_ok, X|]. split; [|discriminate].
      unfold variant. rewrite !eqb_text. cbn [String.eqb Ascii.eqb Bool.eqb]. rewrite Y. reflexivity.
  - intros [| | | | |l] a OK H; try discriminate. destruct l as [|(k, v) [|]]; try discriminate. apply single_ok in OK.
    destruct (bytes_eqb k _); [|destruct (bytes_eqb k _); [|discriminate]].
    + destruct (c_dec f64 v) as [f|] eqn:D; [|discriminate]. injection H as <-. destruct (R1 _ _ OK D).
      split; [assumption|]. rewrite nesting_variant, nesting_single. lia.
    + destruct (c_dec u64 v) as [f|] eqn:D; [|discriminate]. injection H as <-. destruct (R2 _ _ OK D).
      split; [assumption|]. rewrite nesting_variant, nesting_single. lia.
Qed.
#[export] Hint Resolve lawful_v2_status lawful_status lawful_runtime : codecs.

Lemma lawful_v2_core : lawful_part p_v2_core. Proof. record. Qed.
Lemma lawful_errors : lawful_part p_errors. Proof. unfold p_errors. auto with codecs. Qed.
Lemma lawful_core : lawful_part p_core. Proof. record. Qed.
#[export] Hint Resolve lawful_errors : codecs.
Lemma lawful_rest : lawful_part p_rest. Proof. record. Qed.

Lemma lawful_v2_result : lawful c_v2_result.
Proof. apply lawful_tree; [apply lawful_v2_core|apply lawful_errors|distinct]. Qed.
Lemma lawful_result_spec : lawful c_result_spec.
Proof. apply lawful_tree; [apply lawful_core|apply lawful_rest|distinct]. Qed.
#[export] Hint Resolve lawful_v2_result lawful_result_spec : codecs.

Lemma lawful_worker_runner : lawful c_worker_runner. Proof. unfold c_worker_runner. auto with codecs. Qed.
#[export] Hint Resolve lawful_worker_runner : codecs.
Lemma lawful_runner_meta : lawful c_runner_meta. Proof. struct. Qed.
#[export] Hint Resolve lawful_runner_meta : codecs.
Lemma lawful_test_result : lawful c_test_result. Proof. apply lawful_struct; [distinct|apply lawful_both; auto with codecs]. Qed.
Lemma lawful_stdio : lawful c_stdio. Proof. apply lawful_struct; [distinct|auto with codecs]. Qed.
#[export] Hint Resolve lawful_test_result lawful_stdio : codecs.
Lemma lawful_associated : lawful c_associated. Proof. struct. Qed.
#[export] Hint Resolve lawful_associated : codecs.
Lemma lawful_version : lawful c_version. Proof. apply lawful_tagged; [distinct|auto with codecs]. Qed.
Lemma lawful_specification : lawful c_specification. Proof. tagged. Qed.
#[export] Hint Resolve lawful_version lawful_specification : codecs.
Lemma lawful_runner_info : lawful c_runner_info. Proof. apply lawful_struct; [distinct|auto with codecs]. Qed.
#[export] Hint Resolve lawful_runner_info : codecs.
Lemma lawful_summary : lawful c_summary. Proof. apply lawful_struct; [distinct|auto with codecs]. Qed.

Lemma lawful_results_line : lawful c_results_line.
Proof.
  pose proof (lawful_vec _ lawful_associated) as [W1 R1]. pose proof lawful_summary as [W2 R2].
  constructor; cbn [c_results_line c_enc c_dec c_ok].
  - intros [f|n] H.
    + destruct (W1 f H) as (X & Y & _). split; [apply variant_ok, X|]. split; [|discriminate].
      unfold variant. rewrite eqb_text. cbn [String.eqb Ascii.eqb Bool.eqb]. rewrite Y. reflexivity.
    + destruct (W2 n H) as (X & Y & _). split; [apply variant_ok, X|]. split; [|discriminate].
      unfold variant. rewrite !eqb_text. cbn [String.eqb Ascii.eqb Bool.eqb]. rewrite Y. reflexivity.
  - intros [| | | | |l] a OK H; try discriminate. destruct l as [|(k, v) [|]]; try discriminate. apply single_ok in OK.
    destruct (bytes_eqb k _); [|destruct (bytes_eqb k _); [|discriminate]].
    + destruct (c_dec (c_vec c_associated) v) as [f|] eqn:D; [|discriminate]. injection H as <-. destruct (R1 _ _ OK D).
      split; [assumption|]. rewrite nesting_variant, nesting_single. lia.
    + destruct (c_dec c_summary v) as [f|] eqn:D; [|discriminate]. injection H as <-. destruct (R2 _ _ OK D).
      split; [assumption|]. rewrite nesting_variant, nesting_single. lia.
Qed.

Lemma lawful_tag : lawful c_tag.
Proof.
  pose proof lawful_worker_runner as [W R]. constructor; cbn [c_tag c_enc c_dec c_ok].
  - intros [r| |] H; try (split; [exact I|split; [unfold variant; rewrite ?eqb_text; reflexivity|discriminate]]).
    destruct (W r H) as (X & Y & _). split; [apply variant_ok, X|]. split; [|discriminate].
    unfold variant. rewrite eqb_text. cbn [String.eqb Ascii.eqb Bool.eqb]. rewrite Y. reflexivity.
  - intros [| | |n| |l] a OK H; try discriminate.
    + repeat match type of H with (if ?c then _ else _) = _ => destruct c end; try discriminate;
        injection H as <-; (split; [exact I|simpl; lia]).
    + destruct l as [|(k, v) [|]]; try discriminate. apply single_ok in OK. destruct (bytes_eqb k _); [|discriminate].
      destruct (c_dec c_worker_runner v) as [f|] eqn:D; [|discriminate]. injection H as <-. destruct (R _ _ OK D).
      split; [assumption|]. rewrite nesting_variant, nesting_single. lia.
Qed.
#[export] Hint Resolve lawful_tag : codecs.
Lemma lawful_entity : lawful c_entity. Proof. apply lawful_struct; [distinct|auto with codecs]. Qed.

Lemma lawful_worker_result : lawful c_worker_result.
Proof.
  pose proof (lawful_pair _ _ lawful_str (lawful_vec _ lawful_associated)) as [W R].
  constructor; cbn [c_worker_result c_enc c_dec c_ok].
  - intros r H. destruct (W r H) as (X & Y & _). split; [apply variant_ok, X|]. split; [|discriminate].
    unfold variant. rewrite eqb_text. cbn [String.eqb Ascii.eqb Bool.eqb]. exact Y.
  - intros [| | | | |l] a OK H; try discriminate. destruct l as [|(k, v) [|]]; try discriminate. apply single_ok in OK.
    destruct (bytes_eqb k _); [|discriminate]. destruct (R _ _ OK H).
    split; [assumption|]. rewrite nesting_variant, nesting_single. lia.
Qed.
#[export] Hint Resolve lawful_entity lawful_worker_result : codecs.
Lemma lawful_request : lawful c_request. Proof. apply lawful_struct; [distinct|auto with codecs]. Qed.

Lemma lawful_result_message : lawful c_result_message.
Proof.
  assert (P1 : lawful_part p_one) by (unfold p_one; auto with codecs).
  assert (P2 : lawful_part p_last) by (unfold p_last; auto with codecs).
  assert (P3 : lawful_part p_single) by (unfold p_single; auto with codecs).
  assert (P4 : lawful_part p_multiple) by (unfold p_multiple; auto with codecs).
  assert (S3 : lawful (c_struct p_single)) by (apply lawful_struct; [distinct|exact P3]).
  assert (S4 : lawful (c_struct p_multiple)) by (apply lawful_struct; [distinct|exact P4]).
  constructor; cbn [c_result_message c_enc c_dec c_ok].
  - intros [r|r|r|rs] H.
    + destruct (tagged_read "incremental_result" p_one r ltac:(distinct) P1 H) as (T1 & T2 & T3).
      split; [exact T1|]. split; [|discriminate]. unfold dec_incremental, obj. rewrite T2, eqb_text, T3. reflexivity.
    + destruct (tagged_read "incremental_result_done" p_last r ltac:(distinct) P2 H) as (T1 & T2 & T3).
      split; [exact T1|]. split; [|discriminate]. unfold dec_incremental, obj. rewrite T2, !eqb_text, T3. reflexivity.
    + destruct (written _ S3 r H) as (W1 & W2 & W3). split; [exact W1|]. split; [|discriminate].
      change (obj (p_slots p_single r)) with (c_enc (c_struct p_single) r). rewrite W2. reflexivity.
    + destruct (written _ S4 rs H) as (W1 & W2 & W3). split; [exact W1|]. split; [|discriminate].
      change (obj (p_slots p_multiple rs)) with (c_enc (c_struct p_multiple) rs). rewrite W2. reflexivity.
  - intros j a OK H. unfold orelse in H. destruct (dec_incremental j) as [m|] eqn:D1.
    { injection H as <-. unfold dec_incremental in D1. destruct j as [| | | | |l]; try discriminate. apply json_ok_obj in OK.
      destruct (find_field "type" l) as [|[| | |n| |]|]; try discriminate.
      destruct (bytes_eqb n _); [|destruct (bytes_eqb n _); [|discriminate]].
      - destruct (p_dec p_one l) as [t|] eqn:D; [|discriminate]. injection D1 as <-. exact (tagged_le "incremental_result" p_one l t P1 OK D).
      - destruct (p_dec p_last l) as [t|] eqn:D; [|discriminate]. injection D1 as <-. exact (tagged_le "incremental_result_done" p_last l t P2 OK D). }
    destruct (c_dec (c_struct p_single) j) as [r|] eqn:D2; cbn [option_map] in H.
    { injection H as <-. exact (readable _ S3 _ _ OK D2). }
    destruct (c_dec (c_struct p_multiple) j) as [r|] eqn:D3; cbn [option_map] in H; [|discriminate].
    injection H as <-. exact (readable _ S4 _ _ OK D3).
Qed.

(* ---- from texts to texts ---- *)

Lemma text_round {A} (c : codec A) a : lawful c -> c_ok c a -> nesting (c_enc c a) < 128 -> from_text c (to_text c a) = Some a.
Proof.
  intros [W R] H N. destruct (W a H) as (W1 & W2 & _). unfold from_text, to_text. rewrite read_json_write; assumption.
Qed.

Lemma from_text_inv {A} (c : codec A) b a : from_text c b = Some a -> exists j, read_json b = Some j /\ c_dec c j = Some a.
Proof.
  unfold from_text. generalize (read_json b). intros [j|] H; [|discriminate]. exists j. split; [reflexivity|exact H].
Qed.

Lemma text_sound {A} (c : codec A) b a : lawful c -> from_text c b = Some a ->
  exists j, read_json b = Some j /\ c_ok c a /\ nesting (c_enc c a) <= nesting j /\ nesting j < 128.
Proof.
  intros L H. destruct (from_text_inv c b a H) as (j & E & D). exists j.
  destruct (read_json_sound b j E) as (S1 & S2). destruct (readable c L _ _ S1 D) as (R1 & R2).
  split; [exact E|]. split; [exact R1|]. split; [exact R2|exact S2].
Qed.

(* ---- depth ---- *)

Lemma obj_deep n l : Forall (slot_le n) l -> nesting (obj l) <= S n.
Proof. intro H. unfold obj. rewrite nesting_top. apply le_n_S, top_le, members_le, H. Qed.
Lemma arr_deep n l : Forall (fun j => nesting j <= n) l -> nesting (JArr l) <= S n.
Proof. simpl. intro H. apply le_n_S. induction H; simpl; lia. Qed.
Lemma obj_in k j l : In (k, Some j) l -> nesting j < nesting (obj l).
Proof.
  intro H. unfold obj. rewrite nesting_top. apply PeanoNat.Nat.lt_succ_r. apply (top_in (members l) (text k, j)).
  unfold members. apply in_flat_map. exists (k, Some j). split; [exact H|left; reflexivity].
Qed.
Lemma nums_flat (c : codec N) l : (forall n, nesting (c_enc c n) = 0) -> nesting (c_enc (c_vec c) l) <= 1.
Proof.
  intro H. cbn [c_vec c_enc]. apply arr_deep. apply Forall_forall. intros x X. apply in_map_iff in X. destruct X as (y & <- & _). rewrite H. lia.
Qed.
Transparent u8 u32 u64 u128.
Lemma flat_u8 n : nesting (c_enc u8 n) = 0. Proof. reflexivity. Qed.
Lemma flat_u32 n : nesting (c_enc u32 n) = 0. Proof. reflexivity. Qed.
Lemma flat_u64 n : nesting (c_enc u64 n) = 0. Proof. reflexivity. Qed.
Lemma flat_u128 n : nesting (c_enc u128 n) = 0. Proof. reflexivity. Qed.

Lemma status_deep s : nesting (c_enc c_status (normal_status s)) <= S (nesting (c_enc c_v2_status s)).
Proof.
  destruct s as [t|t| | | | |]; simpl; lia.
Qed.

Opaque c_status c_v2_status.
Definition with_output (out : option (list N * list N)) (t : result_spec) : result_spec :=
  match t with
  | Res k past e => Res k past {| k_errors := k_errors e; k_stderr := option_map fst out; k_stdout := option_map snd out; k_timestamp := k_timestamp e |}
  end.

Lemma attach_eq c s t : attach c (s, t) = (s, with_output (Some c) t).
Proof. destruct t; reflexivity. Qed.
Lemma with_none now r : with_output None (normal now r) = normal now r.
Proof. destruct r; reflexivity. Qed.

Ltac slots := cbn [p_v2_core p_core p_rest p_errors both_parts as_record req opt nullable p_slots fst snd app
  v_status v_id v_display_name v_output v_runtime v_meta v_location v_started v_finished v_lineage
  k_status k_id k_display_name k_output k_runtime k_meta k_location k_started k_finished k_lineage
  k_errors k_stderr k_stdout k_timestamp normal_core normal_status tree_slots].

Lemma some_in {A} (f : A -> json) k (o : option A) l n :
  In (k, option_map f o) l -> n = nesting (obj l) -> slot_le n (k, option_map f o).
Proof.
  intros H ->. destruct o as [a|]; [|exact I]. unfold slot_le. cbn [option_map snd if_some] in *. apply obj_in in H. lia.
Qed.
Lemma enc_v2_eq v past errors : enc_tree p_v2_core p_errors (Res v past errors) = obj (tree_slots p_v2_core p_errors v past errors).
Proof. reflexivity. Qed.
Lemma enc_res_eq k past e : enc_tree p_core p_rest (Res k past e) = obj (tree_slots p_core p_rest k past e).
Proof. reflexivity. Qed.

Lemma str_le n k s : slot_le n (k, Some (c_enc c_str s)). Proof. unfold slot_le. cbn. lia. Qed.
Lemma strs_le n k (o : option bytes) : slot_le n (k, option_map (c_enc c_str) o).
Proof. destruct o; unfold slot_le; cbn; [lia|exact I]. Qed.

Lemma normal_deep now out r : nesting (c_enc c_result_spec (with_output out (normal now r))) <= S (nesting (c_enc c_v2_result r)).
Proof.
  revert out. cbn [c_result_spec c_v2_result c_tree c_enc].
  induction r as [v past errors IH] using tree_ind'. intro out. cbn [normal with_output]. rewrite enc_v2_eq, enc_res_eq.
  assert (V : 1 <= nesting (obj (tree_slots p_v2_core p_errors v past errors))) by apply nesting_pos_obj.
  remember (nesting (obj (tree_slots p_v2_core p_errors v past errors))) as n eqn:En. apply obj_deep.
  unfold tree_slots at 1. apply Forall_app. split; [|constructor; [|]].
  - destruct v as [st id dn ou rt me lo sa fa li]. cbn [normal_core]. slots.
    repeat match goal with |- Forall _ (_ :: _) => constructor | |- Forall _ [] => constructor end;
      try apply str_le; try apply strs_le.
    + unfold slot_le. cbn [snd if_some]. pose proof (status_deep st) as Sd.
      enough (nesting (c_enc c_v2_status st) < n) by lia. subst n. eapply (obj_in "status"). unfold tree_slots. slots. simpl. auto.
    + unfold slot_le. cbn [snd if_some c_runtime c_enc]. rewrite nesting_variant, flat_u64. lia.
    + unfold slot_le. cbn [snd if_some]. apply PeanoNat.Nat.lt_le_incl. subst n. eapply (obj_in "meta"). unfold tree_slots. slots. simpl. auto 10.
    + eapply some_in; [|exact En]. unfold tree_slots. slots. simpl. auto 10.
    + eapply some_in; [|exact En]. unfold tree_slots. slots. simpl. auto 20.
  - destruct past as [l|]; [|exact I]. unfold slot_le. cbn [option_map snd if_some].
    destruct n as [|n']; [lia|]. apply arr_deep. apply Forall_forall. intros x X.
    apply in_map_iff in X. destruct X as (y & <- & Y). apply in_map_iff in Y. destruct Y as (z & <- & Z).
    cbn in IH. rewrite Forall_forall in IH. specialize (IH z Z None). rewrite with_none in IH.
    assert (G : nesting (JArr (map (enc_tree p_v2_core p_errors) l)) < S n').
    { rewrite En. eapply (obj_in "past_attempts"). unfold tree_slots. apply in_app_iff. right. left. reflexivity. }
    pose proof (nesting_arr (map (enc_tree p_v2_core p_errors) l) (enc_tree p_v2_core p_errors z) (in_map _ _ _ Z)). lia.
  - slots. repeat match goal with |- Forall _ (_ :: _) => constructor | |- Forall _ [] => constructor end.
    + eapply some_in; [|exact En]. unfold tree_slots. apply in_app_iff. right. right. slots. left. reflexivity.
    + destruct out as [o|]; [|exact I]. unfold slot_le. cbn [option_map snd if_some]. pose proof (nums_flat u8 (fst o) flat_u8). lia.
    + destruct out as [o|]; [|exact I]. unfold slot_le. cbn [option_map snd if_some]. pose proof (nums_flat u8 (snd o) flat_u8). lia.
    + unfold slot_le. cbn [snd if_some]. rewrite flat_u128. lia.
Qed.

Transparent c_status c_v2_status.
Opaque u8 u32 u64 u128.

Lemma normal_ok now out r : (now < 2 ^ 128)%N -> if_some (fun o => c_ok (c_vec u8) (fst o) /\ c_ok (c_vec u8) (snd o)) out ->
  c_ok c_v2_result r -> c_ok c_result_spec (with_output out (normal now r)).
Proof.
  intros Hn. revert out. cbn [c_result_spec c_v2_result c_tree c_ok].
  induction r as [v past errors IH] using tree_ind'. intros out Ho H. apply tree_ok_eq in H. destruct H as (Hv & He & Hp).
  cbn [normal with_output]. apply tree_ok_eq. split; [|split].
  - destruct v as [st id dn ou rt me lo sa fa li].
    cbn [p_v2_core p_core both_parts as_record req opt p_ok fst snd v_status v_id v_display_name v_output v_runtime v_meta
         v_location v_started v_finished v_lineage normal_core k_status k_id k_display_name k_output k_runtime k_meta
         k_location k_started k_finished k_lineage] in *.
    destruct Hv as (H1 & H2 & H3 & H4 & H5 & H6). split; [destruct st; exact H1|].
    split; [exact H2|]. split; [exact H3|]. split; [exact H4|]. split; [exact H5|exact H6].
  - cbn [p_rest both_parts as_record req opt p_ok fst snd k_errors k_stderr k_stdout k_timestamp].
    split; [exact He|]. destruct out as [o|]; cbn in *; tauto.
  - destruct past as [l|]; [|exact I]. cbn in *. apply Forall_forall. intros x X. apply in_map_iff in X. destruct X as (y & <- & Y).
    rewrite Forall_forall in IH, Hp. specialize (IH y Y None I (Hp y Y)). rewrite with_none in IH. exact IH.
Qed.

(* The depth of a request that brings results to the queue. *)
Lemma request_deep d e run (l : list associated) : 2 <= d ->
  Forall (fun a => Forall (fun t => nesting (c_enc c_result_spec (snd t)) <= d) (a_results a)) l ->
  nesting (c_enc c_request (e, (run, l))) <= d + 7.
Proof.
  intros Hd H. replace (d + 7) with (S (d + 6)) by lia.
  unfold c_request. cbn [c_struct c_enc]. apply obj_deep. cbn [both_parts req p_slots fst snd app].
  constructor; [|constructor; [|constructor]]; unfold slot_le; cbn [snd if_some].
  - destruct e as (id, t). unfold c_entity. cbn [c_struct c_enc].
    enough (X : nesting (obj (p_slots (req "id" (c_array 16 u8) +++ req "tag" c_tag) (id, t))) <= 3) by lia.
    apply obj_deep. cbn [both_parts req p_slots fst snd app]. constructor; [|constructor; [|constructor]]; unfold slot_le; cbn [snd if_some].
    + pose proof (nums_flat u8 id flat_u8). cbn [c_array c_enc]. lia.
    + destruct t as [r| |]; [|simpl; lia..]. cbn [c_tag c_enc]. rewrite nesting_variant. apply le_n_S. apply arr_deep.
      repeat constructor; rewrite flat_u32; lia.
  - unfold c_worker_result. cbn [c_enc]. rewrite nesting_variant. replace (d + 6) with (S (S (S (d + 3)))) by lia. apply le_n_S.
    cbn [c_pair c_enc fst snd]. apply arr_deep. constructor; [simpl; lia|]. constructor; [|constructor].
    cbn [c_vec c_enc]. apply arr_deep. apply Forall_forall. intros x X. apply in_map_iff in X. destruct X as (a & <- & A).
    rewrite Forall_forall in H. specialize (H a A). unfold c_associated. cbn [c_struct c_enc].
    replace (d + 3) with (S (d + 2)) by lia. apply obj_deep.
    cbn [both_parts as_record req nullable p_slots fst snd app].
    assert (SD : forall o, nesting (c_enc c_stdio o) <= d + 2).
    { intro o. enough (nesting (c_enc c_stdio o) <= 2) by lia. unfold c_stdio. cbn [c_struct c_enc]. apply obj_deep.
      cbn [both_parts req p_slots fst snd app].
      constructor; [|constructor; [|constructor]]; unfold slot_le; cbn [snd if_some]; apply nums_flat, flat_u8. }
    constructor; [|constructor; [|constructor; [|constructor; [|constructor; [|constructor]]]]]; unfold slot_le; cbn [snd if_some].
    + pose proof (nums_flat u8 (a_work_id a) flat_u8). cbn [c_array c_enc]. lia.
    + rewrite flat_u32. lia.
    + cbn [c_vec c_enc]. replace (d + 2) with (S (S d)) by lia. apply arr_deep. apply Forall_forall. intros x X.
      apply in_map_iff in X. destruct X as (t & <- & T). rewrite Forall_forall in H. specialize (H t T).
      unfold c_test_result. cbn [c_struct c_enc]. apply obj_deep. cbn [both_parts req p_slots fst snd app].
      constructor; [|constructor; [|constructor]]; unfold slot_le; cbn [snd if_some]; [|exact H].
      enough (nesting (c_enc c_runner_meta (fst t)) <= 2) by lia. unfold c_runner_meta. cbn [c_struct c_enc]. apply obj_deep.
      cbn [both_parts as_record req p_slots fst snd app].
      constructor; [|constructor; [|constructor; [|constructor]]]; unfold slot_le; cbn [snd if_some]; [|simpl; lia..].
      unfold c_worker_runner. cbn [c_pair c_enc]. apply arr_deep. repeat constructor; rewrite flat_u32; lia.
    + apply SD.
    + destruct (a_after a) as [o|]; [apply SD|simpl; lia].
Qed.

Lemma line_deep (e : list N * tag) run l : nesting (c_enc c_results_line (Results l)) < nesting (c_enc c_request (e, (run, l))).
Proof.
  cbn [c_results_line c_enc]. rewrite nesting_variant.
  assert (A : nesting (c_enc c_worker_result (run, l)) < nesting (c_enc c_request (e, (run, l)))).
  { unfold c_request. cbn [c_struct c_enc]. apply (obj_in "message"). cbn [both_parts req p_slots fst snd app]. right. left. reflexivity. }
  unfold c_worker_result in A. cbn [c_enc] in A. rewrite nesting_variant in A. cbn [c_pair c_enc fst snd] in A.
  pose proof (nesting_arr [c_enc c_str run; c_enc (c_vec c_associated) l] (c_enc (c_vec c_associated) l) ltac:(right; left; reflexivity)). lia.
Qed.

Lemma summary_deep s : nesting (c_enc c_results_line (Summary s)) <= 4.
Proof.
  cbn [c_results_line c_enc]. rewrite nesting_variant. apply le_n_S. unfold c_summary. cbn [c_struct c_enc]. apply obj_deep.
  cbn [both_parts req p_slots fst snd app]. constructor; [|constructor; [|constructor]]; unfold slot_le; cbn [snd if_some].
  - rewrite flat_u64. lia.
  - unfold c_runner_info. cbn [c_struct c_enc]. apply obj_deep. cbn [both_parts req p_slots fst snd app].
    constructor; [|constructor; [|constructor]]; unfold slot_le; cbn [snd if_some].
    + unfold c_version. cbn [c_tagged c_enc]. apply obj_deep. cbn [both_parts req p_slots fst snd app].
      repeat constructor; unfold slot_le; cbn [snd if_some]; rewrite ?flat_u64; simpl; lia.
    + unfold c_specification. cbn [c_tagged c_enc]. apply obj_deep. cbn [both_parts as_record req p_slots fst snd app].
      repeat constructor.
Qed.

(* ---- what a worker makes of a runner's words ---- *)

Opaque read_json.

Lemma normal_says now out r : says now out r (with_output out (normal now r)).
Proof.
  revert out. induction r as [v past errors IH] using tree_ind'. intro out. cbn [normal with_output].
  assert (F : same_fields v (normal_core v)) by (constructor; try reflexivity; destruct v as [[]]; constructor).
  destruct past as [l|]; cbn [option_map]; [|apply says_alone, F]. apply says_after; [exact F|]. cbn in IH.
  induction IH as [|x l H _ IHl]; [constructor|]. cbn [map]. constructor; [|exact IHl]. specialize (H None). rewrite with_none in H. exact H.
Qed.

Lemma says_only now out r k : says now out r k -> k = with_output out (normal now r).
Proof.
  revert out k. induction r as [v past errors IH] using tree_ind'. intros out k H.
  assert (F : forall v k, same_fields v k -> k = normal_core v).
  { intros v0 k0 [H1 H2 H3 H4 H5 H6 H7 H8 H9 H10]. destruct k0. cbn in *. unfold normal_core. f_equal; try assumption. destruct H1; reflexivity. }
  inversion H as [? ? k' ? S1|? ? k' ? past0 past' S1 S2]; subst; cbn [normal with_output option_map]; rewrite (F _ _ S1); [reflexivity|].
  cbn in IH. f_equal. f_equal. clear -S2 IH. induction S2 as [|x y l l' E _ IHl]; [reflexivity|]. inversion IH as [|? ? I1 I2]; subst. cbn [map].
  rewrite (I1 _ _ E), with_none. f_equal. apply IHl, I2.
Qed.

Lemma read_increment_is m i : read_increment (s_text m) = Some i -> is m i /\ (exists r, i = IncrementalOne r) \/ is m i /\ (exists r, i = IncrementalDone r).
Proof.
  unfold read_increment, is, from_text. generalize (read_json (s_text m)). intros [j|]; [|discriminate]. intro H.
  cbn [c_result_message c_dec]. rewrite H. cbn [orelse].
  unfold dec_incremental in H. destruct j as [| | | | |ms]; try discriminate.
  destruct (find_field "type" ms) as [|[| | |n| |]|]; try discriminate.
  destruct (bytes_eqb n _); [|destruct (bytes_eqb n _); [|discriminate]].
  - destruct (p_dec p_one ms) as [r|]; [|discriminate]. injection H as <-. left. split; [reflexivity|eauto].
  - destruct (p_dec p_last ms) as [r|]; [|discriminate]. injection H as <-. right. split; [reflexivity|eauto].
Qed.

Lemma is_increment m i : is m i -> (exists r, i = IncrementalOne r) \/ (exists r, i = IncrementalDone r) -> read_increment (s_text m) = Some i.
Proof.
  unfold read_increment, is, from_text. generalize (read_json (s_text m)). intros [j|]; [|discriminate]. intros H K.
  cbn [c_result_message c_dec] in H. unfold orelse in H. destruct (dec_incremental j) as [i'|]; [congruence|].
  exfalso. destruct (c_dec (c_struct p_single) j) as [r|]; cbn [option_map] in H; [injection H as <-; destruct K as [(? & K)|(? & K)]; discriminate|].
  destruct (c_dec (c_struct p_multiple) j) as [r|]; cbn [option_map] in H; [injection H as <-; destruct K as [(? & K)|(? & K)]; discriminate|discriminate].
Qed.

(* the results as the worker has them *)
Definition taken (source : runner_meta) (x : v2_result * said) : test_result :=
  (source, with_output (Some (s_captured (snd x))) (normal (s_now (snd x)) (fst x))).

Lemma some_pair {A B} (a c : A) (b d : B) : Some (a, b) = Some (c, d) -> a = c /\ b = d.
Proof. intro H. split; congruence. Qed.
Lemma some_inj {A} (a c : A) : Some a = Some c -> a = c.
Proof. congruence. Qed.

Lemma poll_sound source : forall more m i done rs after,
  read_increment (s_text m) = Some i ->
  poll source (into_test_results (s_now m) source i) (s_captured m) done more = Some (rs, after) ->
  exists l, steps (m :: more) l after /\ rs = done ++ map (taken source) l.
Proof.
  induction more as [|m' more IH]; intros m i done rs after R H;
    destruct (read_increment_is m i R) as [(X & r & ->)|(X & r & ->)]; cbn [into_test_results poll option_map] in H.
  - discriminate.
  - destruct r as [r|]; cbn [option_map] in H; apply some_pair in H; destruct H as (<- & <-).
    + exists [(r, m)]. split; [apply step_last, X|]. unfold reify. rewrite attach_eq. reflexivity.
    + exists []. split; [apply step_end, X|]. rewrite app_nil_r. reflexivity.
  - destruct (read_increment (s_text m')) as [i'|] eqn:R'; [|discriminate].
    destruct (IH m' i' _ _ _ R' H) as (l & L1 & L2). exists ((r, m) :: l). split; [apply step_next; assumption|].
    rewrite L2, <- app_assoc. unfold reify. rewrite attach_eq. reflexivity.
  - destruct r as [r|]; cbn [option_map] in H; apply some_pair in H; destruct H as (<- & <-).
    + exists [(r, m)]. split; [apply step_last, X|]. unfold reify. rewrite attach_eq. reflexivity.
    + exists []. split; [apply step_end, X|]. rewrite app_nil_r. reflexivity.
Qed.

Lemma poll_complete source words l after : steps words l after -> forall m more i done, words = m :: more -> is m i ->
  poll source (into_test_results (s_now m) source i) (s_captured m) done more = Some (done ++ map (taken source) l, after) /\
  ((exists r, i = IncrementalOne r) \/ (exists r, i = IncrementalDone r)).
Proof.
  induction 1 as [m0 more0 r H|m0 more0 H|m0 more0 r l after H Hs IH]; intros m more i done E I0; injection E as <- <-;
    unfold is in *; rewrite H in I0; injection I0 as <-; cbn [into_test_results option_map].
  - split; [|eauto]. destruct more0; cbn [poll]; unfold reify; rewrite attach_eq; reflexivity.
  - split; [|eauto]. destruct more0; cbn [poll map]; rewrite app_nil_r; reflexivity.
  - split; [|eauto].
    assert (M : exists m' more' i', more0 = m' :: more' /\ is m' i').
    { inversion Hs; subst; do 3 eexists; (split; [reflexivity|eassumption]). }
    destruct M as (m' & more' & i' & -> & I'). destruct (IH m' more' i' (done ++ [taken source (r, m0)]) eq_refl I') as (P & K).
    cbn [poll]. rewrite (is_increment m' i' I' K). unfold reify. rewrite attach_eq.
    change (source, with_output (Some (s_captured m0)) (normal (s_now m0) r)) with (taken source (r, m0)).
    rewrite P, <- app_assoc. reflexivity.
Qed.

Lemma wait_sound source work n before words a : wait_for_results source work n before words = Some a ->
  exists l after, answers words l after /\
    a = {| a_work_id := work; a_run_number := n; a_results := map (taken source) l; a_before := before; a_after := after |}.
Proof.
  unfold wait_for_results. destruct words as [|m more]; [discriminate|].
  destruct (from_text c_result_message (s_text m)) as [i|] eqn:E; [|discriminate]. intro H.
  destruct i as [r|r|r|rs]; cbn [into_test_results] in H.
  - destruct (poll source _ _ _ _) as [(rs, after)|] eqn:P; [|discriminate]. injection H as <-.
    apply (poll_sound source more m (IncrementalOne r)) in P; [|apply is_increment; [exact E|eauto]].
    destruct P as (l & L & ->). exists l, after. split; [apply answer_steps, L|reflexivity].
  - destruct (poll source _ _ _ _) as [(rs, after)|] eqn:P; [|discriminate]. injection H as <-.
    apply (poll_sound source more m (IncrementalDone r)) in P; [|apply is_increment; [exact E|eauto]].
    destruct P as (l & L & ->). exists l, after. split; [apply answer_steps, L|reflexivity].
  - cbn [option_map] in H. apply some_inj in H. subst a. exists [(r, m)], None. split; [apply answer_single, E|].
    cbn [map]. unfold reify. rewrite attach_eq. reflexivity.
  - cbn [option_map] in H. apply some_inj in H. subst a. exists (map (fun r => (r, m)) rs), None. split; [apply answer_multiple, E|].
    rewrite !map_map. f_equal. apply map_ext. intro r. unfold reify. rewrite attach_eq. reflexivity.
Qed.

Lemma wait_complete source work n before words l after : answers words l after ->
  wait_for_results source work n before words =
  Some {| a_work_id := work; a_run_number := n; a_results := map (taken source) l; a_before := before; a_after := after |}.
Proof.
  intros [m more r H|m more rs H|words' l' after' H].
  - unfold wait_for_results. rewrite H. cbn [into_test_results option_map map]. unfold reify. rewrite attach_eq. reflexivity.
  - unfold wait_for_results. rewrite H. cbn [into_test_results option_map map]. rewrite !map_map. do 2 f_equal.
    apply map_ext. intro r. unfold reify. rewrite attach_eq. reflexivity.
  - assert (M : exists m' more' i', words' = m' :: more' /\ is m' i').
    { inversion H; subst; do 3 eexists; (split; [reflexivity|eassumption]). }
    destruct M as (m' & more' & i' & -> & I'). destruct (poll_complete source _ _ _ H m' more' i' [] eq_refl I') as (P & K).
    unfold wait_for_results. rewrite I'.
    destruct K as [(r & ->)|(r & ->)]; cbn [into_test_results] in *; rewrite P; reflexivity.
Qed.

(* every result is from a message that was read *)
Lemma steps_from words l after : steps words l after ->
  (forall r m, In (r, m) l -> In m words /\ exists i, is m i /\ c_ok c_v2_result r /\ S (nesting (c_enc c_v2_result r)) <= nesting (c_enc c_result_message i)) /\
  if_some (fun o => exists m, In m words /\ o = s_captured m) after.
Proof.
  induction 1 as [m0 more0 r H|m0 more0 H|m0 more0 r l after H Hs (IH1 & IH2)].
  - split; [|exact I]. intros r0 m [E|[]]. injection E as <- <-. split; [left; reflexivity|]. eexists. split; [exact H|].
    destruct (text_sound _ _ _ lawful_result_message H) as (j & _ & OK & _). split; [exact OK|].
    cbn [c_result_message c_enc]. apply (obj_in "last_test_result"). cbn [p_last nullable p_slots]. right. left. reflexivity.
  - split; [intros r m []|]. exists m0. split; [left; reflexivity|reflexivity].
  - split.
    + intros r0 m [E|E].
      * injection E as <- <-. split; [left; reflexivity|]. eexists. split; [exact H|].
        destruct (text_sound _ _ _ lawful_result_message H) as (j & _ & OK & _). split; [exact OK|].
        cbn [c_result_message c_enc]. apply (obj_in "one_test_result"). right. left. reflexivity.
      * destruct (IH1 r0 m E) as (I1 & I2). split; [right; exact I1|exact I2].
    + destruct after as [o|]; [|exact I]. destruct IH2 as (m & M & ->). exists m. split; [right; exact M|reflexivity].
Qed.

Lemma answers_from words l after : answers words l after ->
  (forall r m, In (r, m) l -> In m words /\ exists i, is m i /\ c_ok c_v2_result r /\ S (nesting (c_enc c_v2_result r)) <= nesting (c_enc c_result_message i)) /\
  if_some (fun o => exists m, In m words /\ o = s_captured m) after.
Proof.
  intros [m0 more r H|m0 more rs H|words' l' after' H].
  - split; [|exact I]. intros r0 m [E|[]]. injection E as <- <-. split; [left; reflexivity|]. eexists. split; [exact H|].
    destruct (text_sound _ _ _ lawful_result_message H) as (j & _ & OK & _). split; [exact OK|].
    cbn [c_result_message c_enc]. apply (obj_in "test_result"). left. reflexivity.
  - split; [|exact I]. intros r0 m E. apply in_map_iff in E. destruct E as (r & E & R). injection E as -> <-.
    split; [left; reflexivity|]. eexists. split; [exact H|].
    destruct (text_sound _ _ _ lawful_result_message H) as (j & _ & OK & _). cbn [c_result_message c_ok c_vec] in OK.
    rewrite Forall_forall in OK. split; [apply OK, R|]. cbn [c_result_message c_enc].
    pose proof (nesting_arr (map (c_enc c_v2_result) rs) _ (in_map _ _ _ R)) as X1.
    assert (X2 : nesting (c_enc (c_vec c_v2_result) rs) < nesting (obj (p_slots p_multiple rs))) by (apply (obj_in "test_results"); left; reflexivity).
    cbn [c_vec c_enc] in X2. lia.
  - apply steps_from in H. exact H.
Qed.

Lemma octets_ok l : octets l -> c_ok (c_vec u8) l.
Proof. intro H. exact H. Qed.

Lemma taken_ok source r m i : a_message m -> is m i -> c_ok c_v2_result r -> c_ok c_result_spec (snd (taken source (r, m))).
Proof. intros (N & O1 & O2) _ OK. apply normal_ok; [exact N|cbn; split; assumption|exact OK]. Qed.

Lemma heard_ok d a : heard d a -> c_ok c_associated a.
Proof.
  intros (source & work & n & before & words & W & Sr & U & Hn & B & M & _). destruct (wait_sound _ _ _ _ _ _ W) as (l & after & A & ->).
  destruct (answers_from _ _ _ A) as (F1 & F2). rewrite Forall_forall in M.
  cbn [c_associated c_struct c_ok both_parts as_record req nullable p_ok fst snd a_work_id a_run_number a_results a_before a_after].
  split; [exact U|]. split; [exact Hn|]. split; [|split; [exact B|]].
  - apply Forall_forall. intros t T. apply in_map_iff in T. destruct T as ((r, m) & <- & R).
    destruct (F1 r m R) as (F3 & i & F4 & F5 & F6). split; [split; [exact Sr|split; exact I]|].
    eapply taken_ok; [apply M, F3|exact F4|exact F5].
  - destruct after as [o|]; [|exact I]. destruct F2 as (m & F3 & ->). apply (M m F3).
Qed.

Lemma heard_shallow d a : heard d a -> Forall (fun t => nesting (c_enc c_result_spec (snd t)) <= d) (a_results a).
Proof.
  intros (source & work & n & before & words & W & _ & _ & _ & _ & _ & Sh). destruct (wait_sound _ _ _ _ _ _ W) as (l & after & A & ->).
  destruct (answers_from _ _ _ A) as (F1 & _). rewrite Forall_forall in Sh. cbn [a_results].
  apply Forall_forall. intros t T. apply in_map_iff in T. destruct T as ((r, m) & <- & R).
  destruct (F1 r m R) as (F3 & i & F4 & F5 & F6). unfold taken. cbn [snd fst].
  pose proof (normal_deep (s_now m) (Some (s_captured m)) r).
  destruct (text_sound _ _ _ lawful_result_message F4) as (j & J1 & _ & J2 & _). pose proof (Sh m F3 j J1). lia.
Qed.

Lemma heard_request e run l : an_entity e -> Forall (heard 120) l ->
  c_ok c_request (e, (run, l)) /\ nesting (c_enc c_request (e, (run, l))) < 128.
Proof.
  intros E H. split.
  - cbn [c_request c_struct c_ok both_parts req p_ok fst snd]. split.
    + destruct e as (id, t). destruct E as ((U1 & U2) & T). split; [split; [exact U1|exact U2]|]. destruct t; exact T.
    + split; [exact I|]. cbn [c_vec c_ok snd]. eapply Forall_impl; [|exact H]. intros a A. eapply heard_ok, A.
  - apply (PeanoNat.Nat.le_lt_trans _ (120 + 7)); [|lia]. apply request_deep; [lia|].
    eapply Forall_impl; [|exact H]. intros a A. apply heard_shallow, A.
Qed.

(* ---- the order of members, and unknown ones ---- *)

Definition reads_only {A} (p : part A) : Prop := forall ms ms',
  (forall n, In n (p_names p) -> find_field n ms = find_field n ms') -> p_dec p ms = p_dec p ms'.

Lemma only_req {A} n (c : codec A) : reads_only (req n c).
Proof. intros ms ms' H. cbn [req p_dec]. rewrite (H n) by (left; reflexivity). reflexivity. Qed.
Lemma only_opt {A} n (c : codec A) : reads_only (opt n c).
Proof. intros ms ms' H. cbn [opt p_dec]. unfold read_opt. rewrite (H n) by (left; reflexivity). reflexivity. Qed.
Lemma only_nullable {A} n (c : codec A) : reads_only (nullable n c).
Proof. intros ms ms' H. cbn [nullable p_dec]. unfold read_opt. rewrite (H n) by (left; reflexivity). reflexivity. Qed.
Lemma only_both {A B} (a : part A) (b : part B) : reads_only a -> reads_only b -> reads_only (a +++ b).
Proof.
  intros HA HB ms ms' H. cbn [both_parts p_dec p_names] in *.
  rewrite (HA ms ms'), (HB ms ms'); [reflexivity| |]; intros n N; apply H, in_app_iff; auto.
Qed.
Lemma only_record {A B} (of : A -> B) to (p : part A) : reads_only p -> reads_only (as_record of to p).
Proof. intros HA ms ms' H. cbn [as_record p_dec p_names] in *. rewrite (HA ms ms' H). reflexivity. Qed.

Lemma find_permutation {A} name (ms ms' : list (bytes * A)) : Permutation ms ms' -> find_field name ms = find_field name ms'.
Proof.
  intro H. unfold find_field.
  assert (F : Permutation (filter (fun kv => bytes_eqb (fst kv) (text name)) ms) (filter (fun kv => bytes_eqb (fst kv) (text name)) ms')).
  { induction H as [|x l l' _ IH|x y l|l l' l'' _ IH1 _ IH2]; cbn [filter]; [constructor| | |].
    - destruct (bytes_eqb (fst x) (text name)); [constructor|]; exact IH.
    - destruct (bytes_eqb (fst x) (text name)), (bytes_eqb (fst y) (text name)); try reflexivity. constructor.
    - etransitivity; eassumption. }
  destruct (filter _ ms) as [|x [|y l]].
  - apply Permutation_nil in F. rewrite F. reflexivity.
  - apply Permutation_length_1_inv in F. rewrite F. reflexivity.
  - apply Permutation_length in F. destruct (filter _ ms') as [|x' [|y' l']]; try discriminate. reflexivity.
Qed.

Lemma find_extra {A} name (ms extra : list (bytes * A)) : (forall k v, In (k, v) extra -> k <> text name) ->
  find_field name (ms ++ extra) = find_field name ms.
Proof.
  intro H. unfold find_field. rewrite filter_app.
  assert (E : filter (fun kv => bytes_eqb (fst kv) (text name)) extra = []).
  { induction extra as [|(k, v) extra IH]; [reflexivity|]. cbn [filter fst]. unfold bytes_eqb at 1.
    destruct (list_eq_dec Nat.eq_dec k (text name)) as [E|]; [destruct (H k v (or_introl eq_refl) E)|].
    apply IH. intros k' v' I'. apply (H k' v'). right. exact I'. }
  rewrite E, app_nil_r. reflexivity.
Qed.

Lemma v2_result_fields ms ms' : (forall n, In n result_fields -> find_field n ms = find_field n ms') ->
  c_dec c_v2_result (JObj ms) = c_dec c_v2_result (JObj ms').
Proof.
  intro H. cbn [c_v2_result c_tree c_dec]. rewrite !dec_tree_obj.
  assert (C : reads_only p_v2_core).
  { apply only_record. repeat (apply only_both; [first [apply only_req|apply only_opt]|]). apply only_opt. }
  assert (E : reads_only p_errors) by apply only_opt.
  rewrite (C ms ms'), (E ms ms'), (H "past_attempts"%string).
  - reflexivity.
  - unfold result_fields. simpl. tauto.
  - intros n N. apply H. unfold result_fields. cbn in N. simpl. tauto.
  - intros n N. apply H. unfold result_fields. cbn in N. simpl. tauto.
Qed.
